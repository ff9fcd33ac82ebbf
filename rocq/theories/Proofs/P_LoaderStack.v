(** Batching of dictionaries, and the states of several devices. *)
From Coq Require Import String.
From Coq Require Import List ZArith Bool Arith Lia.
From Verif.Lib Require Import Base JaxIndex Scalar.
From Verif.Model Require Import Operations State Geometry Metrics Masked Womd WomdState Batch Pipeline Loader.
From Verif.Spec Require Import StateSpec WomdSpec BatchSpec LoadSpec LoaderSpec.
From Verif.Proofs Require Import Core P_Womd P_WomdState P_WomdExport P_WomdTrip P_LoaderOne P_LoaderRecord P_LoaderBatch P_Batch.
Import ListNotations.
Local Open Scope nat_scope.

Lemma nth_error_seq0 k j : j < k -> nth_error (seq 0 k) j = Some j.
Proof. intros H. rewrite (nth_error_nth' _ 0) by (now rewrite seq_length). now rewrite seq_nth. Qed.

Lemma flat_map_seq_nth {A B} (l : list A) (f : nat -> list B) (g : A -> list B) : 
  (forall j a, nth_error l j = Some a -> f j = g a) -> flat_map f (seq 0 (length l)) = flat_map g l.
Proof.
  intros H. assert (G : forall k, (forall j a, nth_error l j = Some a -> f (k + j) = g a) ->
    flat_map f (seq k (length l)) = flat_map g l).
  { clear H. induction l as [|a l IH]; intros k H; cbn; [reflexivity|]. rewrite <- (H 0 a eq_refl), Nat.add_0_r. f_equal.
    apply IH. intros j b Hj. rewrite <- (H (Datatypes.S j) b Hj). f_equal. lia. }
  apply (G 0). exact H.
Qed.

Lemma map_flat_map {A B C} (f : B -> C) (g : A -> list B) l : map f (flat_map g l) = flat_map (fun a => map f (g a)) l.
Proof. induction l as [|a l IH]; cbn; [reflexivity|]. now rewrite map_app, IH. Qed.

Section Stack.
  Context {S : Scalar}.
  Notation tdims := Womd.dims.
  Notation tcell := Womd.cell.
  Notation raised := (fun (B : list nat) (kd : string * list nat) => (fst kd, B ++ snd kd)).

  Lemma slice_nil t : slice [] t = t.
  Proof. destruct t. reflexivity. Qed.
  Lemma at_nil d : at_index [] d = d.
  Proof. unfold at_index. rewrite <- (map_id d) at 2. apply map_ext. intros [k t]. cbn [fst snd]. now rewrite slice_nil. Qed.
  Lemma slice_cons i b t : slice b (slice [i] t) = slice (i :: b) t.
  Proof. destruct t as [ds c]. unfold slice. cbn. destruct ds; cbn; rewrite ?skipn_nil; reflexivity. Qed.
  Lemma at_cons i b d : at_index b (at_index [i] d) = at_index (i :: b) d.
  Proof. unfold at_index. rewrite map_map. apply map_ext. intros [k t]. cbn [fst snd]. now rewrite slice_cons. Qed.
  Lemma row_at i d : row_of i d = at_index [i] d.
  Proof. unfold row_of, at_index. apply map_ext. intros [k [ds c]]. unfold slice. cbn. now destruct ds. Qed.

  Lemma layout_nth d j : nth_error (layout d) j = option_map (fun kv => (fst kv, tdims (snd kv))) (nth_error d j).
  Proof. unfold layout. rewrite nth_error_map. reflexivity. Qed.

  Lemma get_nth (d : dict) j k v : NoDup (map fst d) -> nth_error d j = Some (k, v) -> get d k = Some v.
  Proof. intros N H. apply In_get; [exact N|]. eapply nth_error_In; eauto. Qed.

  Lemma layout_key_nodup (d : dict) Ly : layout d = Ly -> NoDup (map fst Ly) -> NoDup (map fst d).
  Proof. intros <-. unfold layout. rewrite map_map. auto. Qed.

  (** One level. *)
  Lemma stack_eq ds Ly : ds <> [] -> Forall (fun d => layout d = Ly) ds -> NoDup (map fst Ly) ->
    exists d, stack ds = Ok d /\ layout d = map (raised [length ds]) Ly /\
      forall k dk b, nth_error ds k = Some dk -> at_index (k :: b) d = at_index b dk.
  Proof.
    intros Hn HL Nd. destruct ds as [|d0 ds']; [congruence|]. set (ds := d0 :: ds') in *.
    assert (L0 : layout d0 = Ly) by now inversion HL.
    assert (N0 : NoDup (map fst d0)) by now apply (layout_key_nodup d0 Ly).
    assert (Q : forall j key t0, nth_error d0 j = Some (key, t0) -> forall k dk, nth_error ds k = Some dk ->
      exists tk, nth_error dk j = Some (key, tk) /\ getk dk key = Ok tk /\ tdims tk = tdims t0).
    { intros j key t0 Hj k dk Hk. assert (Lk : layout dk = Ly).
      { rewrite Forall_forall in HL. apply HL. eapply nth_error_In; eauto. }
      assert (E : nth_error (layout dk) j = nth_error (layout d0) j) by congruence.
      rewrite !layout_nth, Hj in E. destruct (nth_error dk j) as [[key' tk]|] eqn:Ej; [|discriminate].
      cbn [option_map fst snd] in E. injection E as -> Ed. exists tk. split; [reflexivity|]. split; [|exact Ed].
      apply getk_Ok. eapply get_nth; [|exact Ej]. eapply layout_key_nodup; eauto. }
    set (f := fun kv : string * tensor =>
                let* ts := mapM (fun d => getk d (fst kv)) ds in
                let* _ := guard (forallb (fun t => dims_eqb (tdims t) (tdims (snd kv))) ts) ValueError in
                Ok (fst kv, mkT (length ds :: tdims (snd kv)) (fun i => tcell (nth (hd 0 i) ts (snd kv)) (tl i)))).
    assert (F : forall j key t0, nth_error d0 j = Some (key, t0) -> exists ts, f (key, t0) =
        Ok (key, mkT (length ds :: tdims t0) (fun i => tcell (nth (hd 0 i) ts t0) (tl i))) /\
        forall k dk, nth_error ds k = Some dk -> exists tk, nth_error dk j = Some (key, tk) /\ nth k ts t0 = tk).
    { intros j key t0 Hj.
      destruct (mapM_total (fun d => getk d key) ds) as (ts & Hts).
      { intros d Hd. apply In_nth_error in Hd as (k & Hk). destruct (Q _ _ _ Hj _ _ Hk) as (tk & _ & G & _). eauto. }
      assert (Ht : forall k dk, nth_error ds k = Some dk -> exists tk, nth_error dk j = Some (key, tk) /\
         tdims tk = tdims t0 /\ nth_error ts k = Some tk).
      { intros k dk Hk. destruct (Q _ _ _ Hj _ _ Hk) as (tk & Hjk & G & Ed). exists tk. split; [exact Hjk|]. split; [exact Ed|].
        destruct (mapM_nth _ _ _ _ _ Hts Hk) as (b & Hb & Hb'). congruence. }
      exists ts. split.
      - unfold f. cbn [fst snd]. rewrite Hts. cbn [bind].
        replace (forallb _ ts) with true; [reflexivity|]. symmetry. apply forallb_forall. intros t Hin.
        apply In_nth_error in Hin as (k & Hk).
        destruct (nth_error ds k) as [dk|] eqn:Ek.
        + destruct (Ht k dk Ek) as (tk & _ & Ed & Ek'). assert (t = tk) by congruence. subst t. rewrite Ed. apply dims_eqb_refl.
        + apply nth_error_None in Ek. assert (k < length ts) by (apply nth_error_Some; congruence).
          rewrite (mapM_length _ _ _ Hts) in *. lia.
      - intros k dk Hk. destruct (Ht k dk Hk) as (tk & Hjk & _ & Ek). exists tk. split; [exact Hjk|].
        now apply nth_error_nth. }
    destruct (mapM_total f d0) as (d & Hd).
    { intros [key t0] Hin. apply In_nth_error in Hin as (j & Hj). destruct (F _ _ _ Hj) as (ts & E & _). eauto. }
    exists d. split; [exact Hd|]. pose proof (mapM_length _ _ _ Hd) as Ld.
    assert (G : forall j key t0, nth_error d0 j = Some (key, t0) -> exists ts, nth_error d j =
        Some (key, mkT (length ds :: tdims t0) (fun i => tcell (nth (hd 0 i) ts t0) (tl i))) /\
        forall k dk, nth_error ds k = Some dk -> exists tk, nth_error dk j = Some (key, tk) /\ nth k ts t0 = tk).
    { intros j key t0 Hj. destruct (F _ _ _ Hj) as (ts & E & K). exists ts. split; [|exact K].
      destruct (mapM_nth _ _ _ _ _ Hd Hj) as (b & Hb & Hb'). congruence. }
    assert (None_d : forall j, nth_error d0 j = None -> nth_error d j = None).
    { intros j Hj. apply nth_error_None. apply nth_error_None in Hj. lia. }
    split.
    - apply nth_error_ext_eq. intros j. rewrite layout_nth, nth_error_map, <- L0, layout_nth.
      destruct (nth_error d0 j) as [[key t0]|] eqn:Ej.
      + destruct (G _ _ _ Ej) as (ts & Ed & _). rewrite Ed. reflexivity.
      + rewrite (None_d _ Ej). reflexivity.
    - intros k dk b Hk. apply nth_error_ext_eq. intros j. unfold at_index. rewrite !nth_error_map.
      destruct (nth_error d0 j) as [[key t0]|] eqn:Ej.
      + destruct (G _ _ _ Ej) as (ts & Ed & K). destruct (K k dk Hk) as (tk & Hjk & En). rewrite Ed, Hjk.
        cbn [option_map fst snd]. do 2 f_equal. unfold slice. cbn [Womd.dims Womd.cell length skipn app hd tl].
        rewrite En. f_equal. f_equal. destruct (Q _ _ _ Ej _ _ Hk) as (tk' & Hjk' & _ & Ed'). congruence.
      + rewrite (None_d _ Ej). cbn [option_map]. destruct (nth_error dk j) eqn:Ek; [|reflexivity]. exfalso.
        assert (Lk : layout dk = layout d0).
        { rewrite Forall_forall in HL. rewrite L0. apply HL. eapply nth_error_In; eauto. }
        apply (f_equal (fun l => nth_error l j)) in Lk. rewrite !layout_nth, Ej, Ek in Lk. discriminate.
  Qed.

  Lemma collate_batch l : collate (Pipeline.Batch l) = (let* ds := mapM collate l in stack ds).
  Proof.
    cbn [collate]. f_equal. induction l as [|x l IH]; cbn [mapM]; [reflexivity|]. destruct (collate x); cbn [bind]; [|reflexivity].
    now rewrite IH.
  Qed.

  (** All levels: the arrays of an element of shape [B] hold its examples in order. *)
  Lemma collate_eq Ly : NoDup (map fst Ly) -> forall B, Forall (fun k => 1 <= k) B -> forall e, has_shape B e ->
    Forall (fun r => exists d, r = Ok d /\ layout d = Ly) (examples e) ->
    exists d, collate e = Ok d /\ layout d = map (raised B) Ly /\
      map (fun b => Ok (at_index b d)) (indices B) = examples e.
  Proof.
    intros Nd. induction B as [|k B IH]; intros HB e He Hl; inversion He; subst.
    - cbn [examples] in *. inversion Hl as [|r rs (d & -> & Ld) _]. subst. exists d. split; [reflexivity|]. split.
      + rewrite <- (map_id (layout d)) at 1. apply map_ext. intros [k ds]. reflexivity.
      + cbn [indices map]. now rewrite at_nil.
    - inversion HB as [|? ? Hk HB']. subst. rename l into els. rename H3 into Hels. cbn [examples] in Hl.
      assert (Q : forall x, In x els -> exists d, collate x = Ok d /\ layout d = map (raised B) Ly /\
        map (fun b => Ok (at_index b d)) (indices B) = examples x).
      { intros x Hx. rewrite Forall_forall in Hels. apply IH; auto. apply Forall_forall. intros r Hr. rewrite Forall_forall in Hl. apply Hl. apply in_flat_map. eauto. }
      destruct (mapM_total collate els) as (ds & Hds).
      { intros x Hx. destruct (Q x Hx) as (d & E & _). eauto. }
      assert (Lds : length ds = length els) by (eapply mapM_length; eauto).
      assert (N : forall j x, nth_error els j = Some x -> exists d, nth_error ds j = Some d /\ layout d = map (raised B) Ly /\
        map (fun b => Ok (at_index b d)) (indices B) = examples x).
      { intros j x Hj. destruct (Q x (nth_error_In _ _ Hj)) as (d & E & R). exists d. split; [|exact R].
        destruct (mapM_nth _ _ _ _ _ Hds Hj) as (y & Hy & Hy'). congruence. }
      destruct (stack_eq ds (map (raised B) Ly)) as (d & Ed & Ld & Ad).
      + destruct ds; [cbn in Lds; lia|discriminate].
      + apply Forall_forall. intros y Hy. apply In_nth_error in Hy as (j & Hj).
        destruct (nth_error els j) as [x|] eqn:Ex.
        * destruct (N j x Ex) as (d & Hd & R & _). congruence.
        * apply nth_error_None in Ex. assert (j < length ds) by (apply nth_error_Some; congruence). lia.
      + rewrite map_map. exact Nd.
      + exists d. rewrite collate_batch, Hds. cbn [bind]. split; [exact Ed|]. split.
        * rewrite Ld, map_map. apply map_ext. intros [a c]. cbn [fst snd app]. now rewrite Lds.
        * cbn [indices]. rewrite map_flat_map. cbn [examples]. apply flat_map_seq_nth. intros j x Hj.
          destruct (N j x Hj) as (dj & Hdj & _ & E). rewrite <- E, map_map. apply map_ext. intros b. now rewrite (Ad _ _ _ Hdj).
  Qed.

  (** ** Devices *)

  Lemma common_rows_eq d k Ly : layout d = map (raised [k]) Ly -> Ly <> [] -> common_rows d = Ok k.
  Proof.
    intros L Hn. unfold common_rows. destruct d as [|[k0 t0] d'] eqn:Ed; [destruct Ly; [congruence|discriminate]|]. rewrite <- Ed in *.
    assert (Q : forall kv, In kv d -> exists r, tdims (snd kv) = k :: r).
    { intros kv Hin. assert (H : In (fst kv, tdims (snd kv)) (layout d)) by (unfold layout; apply (in_map (fun kv => (fst kv, tdims (snd kv)))); exact Hin).
      rewrite L in H. apply in_map_iff in H as ([a c] & E & _). cbn in E. injection E as _ E. eauto. }
    destruct (Q (k0, t0)) as (r & Er); [subst d; now left|]. cbn [snd] in Er. rewrite Er.
    replace (forallb _ d) with true; [reflexivity|]. symmetry. apply forallb_forall. intros kv Hin.
    destruct (Q kv Hin) as (r' & Er'). rewrite Er'. apply Nat.eqb_refl.
  Qed.

  Lemma layout_at B ds b d : layout d = map (raised (b :: B)) ds -> forall i, layout (at_index [i] d) = map (raised B) ds.
  Proof.
    intros H i. unfold at_index, layout in *. rewrite map_map. cbn [fst snd].
    transitivity (map (fun kd : string * list nat => (fst kd, tl (snd kd))) (map (fun kv => (fst kv, tdims (snd kv))) d)).
    - rewrite map_map. apply map_ext. intros [k [dd c]]. cbn. now destruct dd.
    - rewrite H, map_map. reflexivity.
  Qed.

  Lemma vector_stack {A} (xs : list (Batch.arr A)) x0 x i b : nth_error xs i = Some x -> Batch.dims x = Batch.dims x0 ->
    vector (a_stack xs x0) (i :: b) = vector x b.
  Proof.
    intros H D. unfold vector, a_stack. cbn [Batch.dims Batch.cell length nth app hd tl]. rewrite D. apply tabulate_ext. intros j _.
    now rewrite (nth_error_nth _ _ _ H).
  Qed.
  Lemma matrix_stack {A} (xs : list (Batch.arr A)) x0 x i b : nth_error xs i = Some x -> Batch.dims x = Batch.dims x0 ->
    matrix (a_stack xs x0) (i :: b) = matrix x b.
  Proof.
    intros H D. unfold matrix, a_stack. cbn [Batch.dims Batch.cell length nth app hd tl]. rewrite D. apply tabulate_ext. intros j _.
    apply tabulate_ext. intros t _. now rewrite (nth_error_nth _ _ _ H).
  Qed.

  Lemma nth_error_map_Some {A B} (f : A -> B) l i a : nth_error l i = Some a -> nth_error (map f l) i = Some (f a).
  Proof. intros H. now rewrite nth_error_map, H. Qed.

  Lemma s_stack_eq B n T L T' N pk ss s0 : sizes B n T L T' N pk s0 -> Forall (sizes B n T L T' N pk) ss ->
    sizes (length ss :: B) n T L T' N pk (s_stack ss s0) /\
    forall i s b, nth_error ss i = Some s -> scenario (s_stack ss s0) (i :: b) = scenario s b.
  Proof.
    intros (D1 & D2 & D3 & D4 & D5 & (rg0 & R0 & DR) & DP) HS. split.
    - unfold sizes, s_stack, a_stack. cbn [b_sim b_log b_tls b_meta b_t b_rg b_paths Batch.dims]. rewrite !map_length.
      rewrite D1, D2, D3, D4, D5, R0. do 5 (split; [reflexivity|]). split.
      + eexists. split; [reflexivity|]. cbn [Batch.dims]. rewrite map_length, DR. reflexivity.
      + destruct pk as [[P K]|]; [|now rewrite DP]. destruct DP as (pts & onr & -> & Dp & Do). cbn [option_map fst snd].
        do 2 eexists. split; [reflexivity|]. cbn [Batch.dims]. rewrite !map_length, Dp, Do. auto.
    - intros i s b Hi. rewrite Forall_forall in HS.
      destruct (HS s (nth_error_In _ _ Hi)) as (E1 & E2 & E3 & E4 & E5 & (rg & R & ER) & EP).
      unfold scenario, s_stack. cbn [b_sim b_log b_tls b_meta b_t b_rg b_paths].
      rewrite (matrix_stack _ _ (b_sim s) i b), (matrix_stack _ _ (b_log s) i b), (matrix_stack _ _ (b_tls s) i b),
        (vector_stack _ _ (b_meta s) i b) by (try (apply nth_error_map_Some; exact Hi); congruence).
      f_equal.
      + unfold clock, a_stack. cbn [Batch.dims Batch.cell length firstn hd tl].
        rewrite (nth_error_nth _ _ _ (nth_error_map_Some b_t _ _ _ Hi)), D5, E5. reflexivity.
      + destruct pk as [[P K]|]; [|now rewrite DP, EP]. destruct DP as (pts & onr & -> & Dp & Do).
        destruct EP as (pts' & onr' & Es & Ep & Eo). rewrite Es. cbn [option_map fst snd]. unfold paths_at. cbn [fst snd].
        rewrite (matrix_stack _ _ pts' i b), (vector_stack _ _ onr' i b); [reflexivity|rewrite (nth_error_map_Some _ _ _ _ Hi), Es; reflexivity
          |congruence|rewrite (nth_error_map_Some _ _ _ _ Hi), Es; reflexivity|congruence].
      + rewrite R0, R. cbn [option_map]. rewrite (vector_stack _ _ rg i b); [reflexivity| |congruence].
        rewrite (nth_error_map_Some _ _ _ _ Hi), R. reflexivity.
  Qed.

  (** The factory on one batch per device. *)
  Lemma pmap_eq devices wp time Ly n T L T' N pk k B d :
    In time times -> 0 < T -> (wp = true <-> pk <> None) -> Ly <> [] -> 1 <= k <= devices ->
    (forall B d, layout d = map (raised B) Ly -> batched_shapes B d time n T L T' N pk) ->
    layout d = map (raised (k :: B)) Ly ->
    exists bs, pmap_state devices (fun d => b_simulator_state d wp time) d = Ok bs /\ sizes (k :: B) n T L T' N pk bs /\
      forall b, inside (k :: B) b -> simulator_state_from_womd_dict (at_index b d) wp time = Ok (scenario bs b).
  Proof.
    intros Ht HT Hwp Hn [Hk1 Hk2] HL Ld. unfold pmap_state.
    assert (C : common_rows d = Ok k).
    { apply (common_rows_eq d k (map (raised B) Ly)).
      - rewrite Ld, map_map. reflexivity.
      - destruct Ly; [congruence|discriminate]. }
    rewrite C. cbn [bind]. rewrite (proj2 (Nat.leb_le _ _) Hk2). cbn [guard bind].
    assert (Q : forall i, exists bs, b_simulator_state (row_of i d) wp time = Ok bs /\ sizes B n T L T' N pk bs /\
      forall b, inside B b -> simulator_state_from_womd_dict (at_index (i :: b) d) wp time = Ok (scenario bs b)).
    { intros i. rewrite row_at.
      destruct (b_state_eq B (at_index [i] d) wp time n T L T' N pk Ht HT) as (bs & E & Sz & K); [|exact Hwp|].
      - apply HL. eapply layout_at; eauto.
      - exists bs. split; [exact E|]. split; [exact Sz|]. intros b I. rewrite <- at_cons. now apply K. }
    destruct (mapM_total (fun i => b_simulator_state (row_of i d) wp time) (seq 0 k)) as (ss & Hss).
    { intros i _. destruct (Q i) as (bs & E & _). eauto. }
    rewrite Hss. cbn [bind].
    assert (Ls : length ss = k) by (rewrite (mapM_length _ _ _ Hss); apply seq_length).
    assert (Ns : forall i, i < k -> exists s, nth_error ss i = Some s /\ sizes B n T L T' N pk s /\
      forall b, inside B b -> simulator_state_from_womd_dict (at_index (i :: b) d) wp time = Ok (scenario s b)).
    { intros i Hi. destruct (Q i) as (s & E & R). exists s. split; [|exact R].
      destruct (mapM_nth _ _ _ _ _ Hss (nth_error_seq0 k i Hi)) as (y & Hy & Hy'). congruence. }
    assert (FS : Forall (sizes B n T L T' N pk) ss).
    { apply Forall_forall. intros s Hs. apply In_nth_error in Hs as (i & Hi).
      destruct (Ns i) as (s' & Hs' & Sz & _); [rewrite <- Ls; apply nth_error_Some; congruence|]. congruence. }
    destruct ss as [|s0 ss'] eqn:Es; [cbn in Ls; lia|]. rewrite <- Es in *.
    destruct (s_stack_eq B n T L T' N pk ss s0) as [Sz Sc]; [subst ss; now inversion FS|exact FS|].
    rewrite Ls in Sz. eexists. split; [reflexivity|]. split; [exact Sz|]. intros b I. inversion I as [|? i ? b' Hi Ib]. subst.
    destruct (Ns i Hi) as (s & Hs & _ & K). rewrite (Sc i s b' Hs). now apply K.
  Qed.

  (** ** Dictionaries of records *)

  Lemma preprocess_keys o mx r : preprocess_womd_example o true mx = Ok r -> NoDup (map fst r).
  Proof.
    unfold preprocess_womd_example. intros H. apply bind_Ok in H as (p & Hp & H).
    apply bind_Ok in Hp as (a & Ha & Hp). apply bind_Ok in Hp as (y & _ & Hp). apply Ok_eq in Hp.
    assert (Np : NoDup (map fst p)).
    { subst p. apply dset_keys. unfold aggregate_time_tensors in Ha.
      repeat (apply bind_Ok in Ha as (? & _ & Ha)). apply Ok_eq in Ha. subst a. apply fold_dset_keys. constructor. }
    destruct mx as [z|]; [|apply Ok_eq in H; now subst r].
    replace (map fst r) with (map fst p); [exact Np|]. clear - H. revert r H.
    induction p as [|[k v] p IH]; intros r H; cbn [mapM] in H; [apply Ok_eq in H; now subst r|].
    apply bind_Ok in H as (b & Hb & H). apply bind_Ok in H as (bs & Hbs & H). apply Ok_eq in H. subst r.
    cbn [map fst]. rewrite (IH _ Hbs). f_equal. cbn [fst snd] in Hb. destruct (strip "state/" k).
    - apply bind_Ok in Hb as (t & _ & Hb). apply Ok_eq in Hb. now subst b.
    - apply Ok_eq in Hb. now subst b.
  Qed.

  Lemma has_raised d d' B k ds : layout d' = map (raised B) (layout d) -> has d k ds -> has d' k (B ++ ds).
  Proof.
    revert d'. induction d as [|[a w] d IH]; intros [|[a' w'] d'] H (t & G & D); try discriminate.
    cbn [layout map fst snd] in H. injection H as Ha Hw H. subst a'. cbn [get] in G. unfold has. cbn [get].
    destruct (String.eqb k a).
    - injection G as ->. exists w'. split; [reflexivity|]. rewrite Hw, D. reflexivity.
    - apply (IH d' H). exists t. auto.
  Qed.

  Lemma wanted_iff c fd : config_features c = Ok fd -> (dc_include_sdc_paths c = true <-> wanted_paths c <> None).
  Proof.
    unfold config_features, wanted_paths, get_features_description. destruct (dc_include_sdc_paths c); [|intros; split; congruence].
    destruct (dc_num_paths c), (dc_num_points c); cbn; intros H; split; congruence.
  Qed.

  Lemma record_layout c e r : dc_aggregate c = true -> preprocess_serialized c (Some e) = Ok r ->
    NoDup (map fst (layout r)) /\ layout r <> [] /\
    forall B d, layout d = map (raised B) (layout r) ->
      batched_shapes B d "all" (kept (dc_max_num_objects c)) 91 16 91 (dc_max_num_rg_points c) (wanted_paths c).
  Proof.
    intros Ha H. unfold preprocess_serialized in H. apply bind_Ok in H as (fd & Hfd & H). apply bind_Ok in H as (o & Ho & H).
    rewrite Ha in H. unfold config_features in Hfd.
    destruct (preprocess_total _ _ _ _ _ _ _ true None Hfd Ho) as (r0 & Hr0).
    destruct (r_shapes _ _ _ _ _ _ _ _ _ _ Hfd Ho Hr0 H) as (St & (R1 & R2 & R3 & R4 & R5) & Sl & Sm & Sp).
    split; [unfold layout; rewrite map_map; eapply preprocess_keys; eauto|]. split.
    - destruct R1 as (t & G & _). destruct r; [discriminate|discriminate].
    - intros B d L. split; [intros f Hf; eapply has_raised; eauto|]. split; [intros f Hf; eapply has_raised; eauto|].
      split; [intros k Hk; eapply has_raised; eauto|]. split; [repeat split; eapply has_raised; eauto|].
      change (asked (dc_include_sdc_paths c) (dc_num_paths c) (dc_num_points c)) with (wanted_paths c) in Sp.
      destruct (wanted_paths c) as [[P K]|]; [|exact I]. destruct (Sp P K eq_refl) as (P1 & P2 & P3 & P4 & P5).
      repeat split; eapply has_raised; eauto.
  Qed.
End Stack.
