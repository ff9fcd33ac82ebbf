(** From one serialized record to one state. *)
From Coq Require Import String.
From Coq Require Import List ZArith Bool Arith Lia.
From Verif.Lib Require Import Base JaxIndex Scalar.
From Verif.Model Require Import Operations State Geometry Metrics Masked Womd WomdState Batch Loader.
From Verif.Spec Require Import StateSpec WomdSpec DictSpec BatchSpec LoaderSpec.
From Verif.Proofs Require Import Core P_Womd P_WomdState P_WomdExport P_WomdTrip P_WomdE2E.
Import ListNotations.
Local Open Scope nat_scope.

Section One.
  Context {S : Scalar}.
  Notation size := WomdState.size.
  Notation dims := Womd.dims.
  Notation cell := Womd.cell.

  Definition road_types : list (string * nat * dtype) :=
    [("roadgraph_samples/xyz", 3, DFloat); ("roadgraph_samples/dir", 3, DFloat);
     ("roadgraph_samples/type", 1, DInt); ("roadgraph_samples/id", 1, DInt); ("roadgraph_samples/valid", 1, DInt)]%string.
  Definition object_types : list (string * dtype) :=
    [("state/id", DFloat); ("state/type", DFloat); ("state/is_sdc", DInt);
     ("state/tracks_to_predict", DInt); ("state/objects_of_interest", DInt)]%string.
  Definition path_types (P K : nat) : features :=
    [("path_samples/xyz", mkfeat [P; K; 3] DFloat); ("path_samples/valid", mkfeat [P; K] DInt);
     ("path_samples/id", mkfeat [P; K] DInt); ("path_samples/arc_length", mkfeat [P; K] DFloat);
     ("path_samples/on_route", mkfeat [P; 1] DInt)]%string.
  Definition asked (paths : bool) (np nk : option nat) : option (nat * nat) :=
    if paths then match np, nk with Some P, Some K => Some (P, K) | _, _ => None end else None.

  Lemma features_cases paths n N np nk L fd name ft :
    get_features_description n N paths np nk L = Ok fd -> In (name, ft) fd ->
    (exists time steps f dt, In (time, steps) time_steps /\ In (f, dt) frame_types /\
       name = state_key time f /\ ft = mkfeat [n; steps] dt) \/
    (exists time steps f dt, In (time, steps) time_steps /\ In (f, dt) light_types /\
       name = light_key time f /\ ft = mkfeat [steps; L] dt) \/
    (exists time steps, In (time, steps) time_steps /\ name = light_key time "timestamp_micros" /\ ft = mkfeat [steps] DInt) \/
    (exists dt, In (name, dt) object_types /\ ft = mkfeat [n] dt) \/
    (exists c dt, In (name, c, dt) road_types /\ ft = mkfeat [N; c] dt) \/
    (exists P K, asked paths np nk = Some (P, K) /\ In (name, ft) (path_types P K)).
  Proof.
    intros H Hin. unfold get_features_description in H. apply bind_Ok in H as (pf & Hp & H). apply Ok_eq in H. subst fd.
    rewrite !in_app_iff in Hin.
    assert (Hs : forall time steps, In (time, steps) time_steps -> In (name, ft) (state_time_features n time steps) ->
      exists time steps f dt, In (time, steps) time_steps /\ In (f, dt) frame_types /\
       name = state_key time f /\ ft = mkfeat [n; steps] dt).
    { intros time steps Ht Hi. unfold state_time_features in Hi. apply in_map_iff in Hi as ([f dt] & E & Hf).
      injection E as <- <-. exists time, steps, f, dt. cbn [fst snd]. auto. }
    assert (Hl : forall time steps, In (time, steps) time_steps -> In (name, ft) (light_time_features L time steps) ->
      (exists time steps f dt, In (time, steps) time_steps /\ In (f, dt) light_types /\
       name = light_key time f /\ ft = mkfeat [steps; L] dt) \/
      (exists time steps, In (time, steps) time_steps /\ name = light_key time "timestamp_micros" /\ ft = mkfeat [steps] DInt)).
    { intros time steps Ht Hi. unfold light_time_features in Hi. apply in_app_iff in Hi as [Hi|[Hi|[]]].
      - left. apply in_map_iff in Hi as ([f dt] & E & Hf). injection E as <- <-. exists time, steps, f, dt. cbn [fst snd]. auto.
      - right. injection Hi as <- <-. exists time, steps. auto. }
    destruct Hin as [Hin|[Hin|[Hin|[Hin|[Hin|[Hin|[Hin|[Hin|Hin]]]]]]]].
    - do 4 right. left.
      repeat (destruct Hin as [Hin|Hin]; [injection Hin as <- <-; do 2 eexists; split; [|reflexivity]; cbn; tauto|]). contradiction.
    - do 5 right. destruct paths; [|injection Hp as <-; contradiction].
      destruct np as [P|]; [|discriminate]. destruct nk as [K|]; [|discriminate]. injection Hp as <-.
      exists P, K. split; [reflexivity|exact Hin].
    - do 3 right. left.
      repeat (destruct Hin as [Hin|Hin]; [injection Hin as <- <-; eexists; split; [|reflexivity]; cbn; tauto|]). contradiction.
    - left. apply (Hs "past"%string 10); [cbn; tauto|exact Hin].
    - left. apply (Hs "current"%string 1); [cbn; tauto|exact Hin].
    - left. apply (Hs "future"%string 80); [cbn; tauto|exact Hin].
    - right. destruct (Hl "current"%string 1) as [X|X]; [cbn; tauto|exact Hin|left; exact X|right; left; exact X].
    - right. destruct (Hl "past"%string 10) as [X|X]; [cbn; tauto|exact Hin|left; exact X|right; left; exact X].
    - right. destruct (Hl "future"%string 80) as [X|X]; [cbn; tauto|exact Hin|left; exact X|right; left; exact X].
  Qed.

  Lemma features_paths paths n N np nk L fd P K name ft :
    get_features_description n N paths np nk L = Ok fd -> asked paths np nk = Some (P, K) ->
    In (name, ft) (path_types P K) -> In (name, ft) fd.
  Proof.
    intros H Ha Hin. unfold get_features_description in H. apply bind_Ok in H as (pf & Hp & H). apply Ok_eq in H. subst fd.
    unfold asked in Ha. destruct paths, np, nk; try discriminate. injection Ha as -> ->. injection Hp as <-.
    rewrite !in_app_iff. right. left. exact Hin.
  Qed.

  (** ** parse_example *)

  Definition list_ok (ft : feature) (e : example) (name : string) : Prop :=
    match ft_dtype ft with
    | DFloat => has_floats e name (size (ft_shape ft))
    | DInt => has_ints e name (size (ft_shape ft))
    | DBool => False
    end.

  Definition entry_of (ft : feature) (e : example) (name : string) (k : nat) : option val :=
    match ft_dtype ft with
    | DFloat => option_map VF (float_entry e name k)
    | DInt => option_map VI (int_entry e name k)
    | DBool => None
    end.

  Lemma parse_feature_Ok ft e name :
    list_ok ft e name <-> exists t, parse_feature ft (lookup e name) = Ok t.
  Proof.
    unfold list_ok, parse_feature, has_floats, has_ints. split.
    - destruct (ft_dtype ft); try contradiction; intros (l & -> & E); cbn beta iota zeta;
        rewrite E, Nat.eqb_refl; cbn [guard bind]; eauto.
    - intros (t & H). destruct (ft_dtype ft), (lookup e name) as [[l|l|]|]; try discriminate;
        cbn beta iota zeta in H; apply bind_Ok in H as (u & G & _); apply guard_Ok, Nat.eqb_eq in G; eauto.
  Qed.

  Lemma parse_feature_value ft e name t : parse_feature ft (lookup e name) = Ok t ->
    dims t = ft_shape ft /\ (forall idx, typed (ft_dtype ft) (cell t idx)) /\
    forall idx, ravel (ft_shape ft) idx < size (ft_shape ft) ->
      entry_of ft e name (ravel (ft_shape ft) idx) = Some (cell t idx).
  Proof.
    unfold parse_feature, entry_of, float_entry, int_entry. intros H.
    destruct (ft_dtype ft), (lookup e name) as [[l|l|]|]; try discriminate; cbn beta iota zeta in H;
      apply bind_Ok in H as (u & G & H); apply guard_Ok, Nat.eqb_eq in G; apply Ok_eq in H; subst t; cbn [Womd.dims Womd.cell];
      (split; [reflexivity|split; [intros; exact I|]]); intros idx Hi; rewrite <- G in Hi.
    - rewrite (nth_error_nth' l 0%Z Hi). reflexivity.
    - rewrite (nth_error_nth' l f0 Hi). reflexivity.
  Qed.

  Lemma parse_keys e fd d : parse_example (Some e) fd = Ok d -> map fst d = map fst fd.
  Proof.
    cbn [parse_example]. revert d. induction fd as [|[k ft] fd IH]; cbn [mapM]; intros d H.
    - injection H as <-. reflexivity.
    - apply bind_Ok in H as (b & Hb & H). apply bind_Ok in H as (bs & Hbs & H). injection H as <-.
      apply bind_Ok in Hb as (t & _ & Hb). injection Hb as <-. cbn [map fst]. f_equal. auto.
  Qed.

  Lemma parse_In e fd d name ft : parse_example (Some e) fd = Ok d -> NoDup (map fst fd) -> In (name, ft) fd ->
    exists t, get d name = Some t /\ parse_feature ft (lookup e name) = Ok t.
  Proof.
    intros H Nd Hin. pose proof (parse_keys _ _ _ H) as Hk. cbn [parse_example] in H.
    destruct (In_nth_error _ _ Hin) as (i & Hi).
    destruct (mapM_nth _ _ _ i _ H Hi) as (b & Hb & Eb). apply bind_Ok in Hb as (t & Ht & Hb). injection Hb as <-.
    exists t. split; [|exact Ht]. apply In_get; [rewrite Hk; exact Nd|]. apply nth_error_In in Eb. exact Eb.
  Qed.

  Lemma parse_total e fd : (forall name ft, In (name, ft) fd -> list_ok ft e name) ->
    exists d, parse_example (Some e) fd = Ok d.
  Proof.
    cbn [parse_example]. induction fd as [|[k ft] fd IH]; intros H; cbn [mapM]; [eauto|].
    destruct (proj1 (parse_feature_Ok ft e k) (H k ft (or_introl eq_refl))) as (t & Ht).
    cbn [fst snd]. rewrite Ht. cbn [bind]. destruct IH as (d & ->); [intros; apply H; now right|]. cbn [bind]. eauto.
  Qed.

  Lemma parse_all_ok e fd d : parse_example (Some e) fd = Ok d -> NoDup (map fst fd) ->
    forall name ft, In (name, ft) fd -> list_ok ft e name.
  Proof. intros H Nd name ft Hin. destruct (parse_In _ _ _ _ _ H Nd Hin) as (t & _ & Ht). apply parse_feature_Ok. eauto. Qed.

  Lemma parse_parsed e fd d : parse_example (Some e) fd = Ok d -> NoDup (map fst fd) -> parsed fd d.
  Proof.
    intros H Nd. split; [exact (parse_keys _ _ _ H)|]. intros name ft Hin.
    destruct (parse_In _ _ _ _ _ H Nd Hin) as (t & G & Ht). destruct (parse_feature_value _ _ _ _ Ht) as (D & Ty & _). eauto.
  Qed.

  (** ** Well-formed records are those that can be parsed *)

  Lemma size1 a : size [a] = a.
  Proof. unfold size. cbn [fold_right]. lia. Qed.
  Lemma size2 a b : size [a; b] = a * b.
  Proof. unfold size. cbn [fold_right]. lia. Qed.
  Lemma size3 a b c : size [a; b; c] = a * (b * c).
  Proof. unfold size. cbn [fold_right]. lia. Qed.

  Lemma parts_steps part steps from : In (part, steps, from) parts -> In (part, steps) time_steps.
  Proof. intros H. repeat (destruct H as [H|H]; [injection H as <- <- <-; cbn; tauto|]). contradiction. Qed.
  Lemma steps_parts part steps : In (part, steps) time_steps -> exists from, In (part, steps, from) parts.
  Proof. intros H. repeat (destruct H as [H|H]; [injection H as <- <-; eexists; cbn; tauto|]). contradiction. Qed.

  Lemma well_formed_lists paths N np nk fd e : get_features_description 128 N paths np nk 16 = Ok fd ->
    well_formed N (asked paths np nk) e <-> (forall name ft, In (name, ft) fd -> list_ok ft e name).
  Proof.
    intros Hfd. split.
    - intros (Wp & Wid & Wty & Wsdc & Wtr & Woi & Wx & Wd & Wt & Wi & Wv & Wpath) name ft Hin.
      destruct (features_cases _ _ _ _ _ _ _ _ _ Hfd Hin)
        as [(time & steps & f & dt & Ht & Hf & -> & ->)|[(time & steps & f & dt & Ht & Hf & -> & ->)|
           [(time & steps & Ht & -> & ->)|[(dt & Hf & ->)|[(c & dt & Hf & ->)|(P & K & Ha & Hf)]]]]];
        unfold list_ok; cbn [ft_dtype ft_shape].
      + destruct (steps_parts _ _ Ht) as (from & Hp). destruct (Wp _ _ _ Hp) as (A & B & _). rewrite size2.
        repeat (destruct Hf as [Hf|Hf]; [injection Hf as <- <-; first [apply A; cbn; tauto|apply B; cbn; tauto]|]). contradiction.
      + destruct (steps_parts _ _ Ht) as (from & Hp). destruct (Wp _ _ _ Hp) as (_ & _ & A & B & _). rewrite size2.
        repeat (destruct Hf as [Hf|Hf]; [injection Hf as <- <-; first [apply A; cbn; tauto|apply B; cbn; tauto]|]). contradiction.
      + destruct (steps_parts _ _ Ht) as (from & Hp). destruct (Wp _ _ _ Hp) as (_ & _ & _ & _ & A). rewrite size1. exact A.
      + rewrite size1. repeat (destruct Hf as [Hf|Hf]; [injection Hf as <- <-; assumption|]). contradiction.
      + rewrite size2. repeat (destruct Hf as [Hf|Hf]; [injection Hf as <- <- <-; rewrite ?Nat.mul_1_r; assumption|]). contradiction.
      + rewrite Ha in Wpath. destruct Wpath as (A1 & A2 & A3 & A4 & A5).
        repeat (destruct Hf as [Hf|Hf]; [injection Hf as <- <-; cbn [ft_dtype ft_shape];
          rewrite ?size3, ?size2, ?Nat.mul_1_r; assumption|]). contradiction.
    - intros H. destruct (standard_Ok _ _ _ _ _ _ Hfd) as (_ & Hs & Ho & _).
      destruct (standard_light _ _ _ _ _ _ Hfd) as (Hl & Hts & Hr).
      assert (Os : forall k, In (k, DFloat) object_types -> has_floats e k 128).
      { intros k Hk. specialize (H _ _ (Ho _ _ Hk)). unfold list_ok in H. cbn [ft_dtype ft_shape] in H. now rewrite size1 in H. }
      assert (Oi : forall k, In (k, DInt) object_types -> has_ints e k 128).
      { intros k Hk. specialize (H _ _ (Ho _ _ Hk)). unfold list_ok in H. cbn [ft_dtype ft_shape] in H. now rewrite size1 in H. }
      assert (Rf : forall k c, In (k, c, DFloat) road_types -> has_floats e k (N * c)).
      { intros k c Hk. specialize (H _ _ (Hr _ _ _ Hk)). unfold list_ok in H. cbn [ft_dtype ft_shape] in H. now rewrite size2 in H. }
      assert (Ri : forall k, In (k, 1, DInt) road_types -> has_ints e k N).
      { intros k Hk. specialize (H _ _ (Hr _ _ _ Hk)). unfold list_ok in H. cbn [ft_dtype ft_shape] in H.
        now rewrite size2, Nat.mul_1_r in H. }
      split.
      { intros part steps from Hp. apply parts_steps in Hp.
        assert (Sf : forall f, In (f, DFloat) frame_types -> has_floats e (state_key part f) (128 * steps)).
        { intros f Hf. specialize (H _ _ (Hs _ _ _ _ Hp Hf)). unfold list_ok in H. cbn [ft_dtype ft_shape] in H. now rewrite size2 in H. }
        assert (Si : forall f, In (f, DInt) frame_types -> has_ints e (state_key part f) (128 * steps)).
        { intros f Hf. specialize (H _ _ (Hs _ _ _ _ Hp Hf)). unfold list_ok in H. cbn [ft_dtype ft_shape] in H. now rewrite size2 in H. }
        assert (Lf : forall f, In (f, DFloat) light_types -> has_floats e (light_key part f) (steps * 16)).
        { intros f Hf. specialize (H _ _ (Hl _ _ _ _ Hp Hf)). unfold list_ok in H. cbn [ft_dtype ft_shape] in H. now rewrite size2 in H. }
        assert (Li : forall f, In (f, DInt) light_types -> has_ints e (light_key part f) (steps * 16)).
        { intros f Hf. specialize (H _ _ (Hl _ _ _ _ Hp Hf)). unfold list_ok in H. cbn [ft_dtype ft_shape] in H. now rewrite size2 in H. }
        specialize (H _ _ (Hts _ _ Hp)). unfold list_ok in H. cbn [ft_dtype ft_shape] in H. rewrite size1 in H.
        split; [|split; [|split; [|split; [|exact H]]]]; intros f Hf;
          repeat (destruct Hf as [<-|Hf]; [first [apply Sf|apply Si|apply Lf|apply Li]; cbn; tauto|]); contradiction. }
      do 5 (split; [first [apply Os|apply Oi]; cbn; tauto|]).
      do 2 (split; [apply Rf; cbn; tauto|]). do 3 (split; [apply Ri; cbn; tauto|]).
      destruct (asked paths np nk) as [[P K]|] eqn:Ha; [|exact I].
      assert (Pt : forall k ft, In (k, ft) (path_types P K) -> list_ok ft e k).
      { intros k ft Hk. apply H. eapply features_paths; eauto. }
      assert (P1 := Pt "path_samples/xyz"%string _ ltac:(cbn; left; reflexivity)).
      assert (P2 := Pt "path_samples/valid"%string _ ltac:(cbn; right; left; reflexivity)).
      assert (P3 := Pt "path_samples/id"%string _ ltac:(cbn; do 2 right; left; reflexivity)).
      assert (P4 := Pt "path_samples/arc_length"%string _ ltac:(cbn; do 3 right; left; reflexivity)).
      assert (P5 := Pt "path_samples/on_route"%string _ ltac:(cbn; do 4 right; left; reflexivity)).
      unfold list_ok in P1, P2, P3, P4, P5. cbn [ft_dtype ft_shape] in P1, P2, P3, P4, P5.
      rewrite size3 in P1. rewrite size2 in P2, P3, P4, P5. rewrite Nat.mul_1_r in P5. auto.
  Qed.

  (** ** Shapes of dictionaries *)

  Definition layout (d : dict) : list (string * list nat) := map (fun kv => (fst kv, dims (snd kv))) d.

  Lemma layout_keys d d' : layout d = layout d' -> map fst d = map fst d'.
  Proof.
    intros H. apply (f_equal (map fst)) in H. unfold layout in H. rewrite !map_map in H. exact H.
  Qed.

  Lemma layout_get d d' k v : layout d = layout d' -> get d k = Some v ->
    exists v', get d' k = Some v' /\ dims v' = dims v.
  Proof.
    revert d'. induction d as [|[a w] d IH]; intros [|[a' w'] d'] H G; try discriminate.
    cbn [layout map fst snd] in H. injection H as Ha Hw H. subst a'. cbn [get] in *.
    destruct (String.eqb k a); [|now apply IH]. injection G as <-. eauto.
  Qed.

  Lemma layout_dset d d' k v v' : layout d = layout d' -> dims v = dims v' -> layout (dset d k v) = layout (dset d' k v').
  Proof.
    revert d'. induction d as [|[a w] d IH]; intros [|[a' w'] d'] H E; try discriminate.
    - cbn. now rewrite E.
    - cbn [layout map fst snd] in H. injection H as Ha Hw H. subst a'. cbn [dset].
      destruct (String.eqb k a); cbn [layout map fst snd]; [rewrite E|rewrite Hw]; f_equal; [exact H|]. apply IH; auto.
  Qed.

  Lemma layout_app d e d' e' : layout d = layout d' -> layout e = layout e' -> layout (d ++ e) = layout (d' ++ e').
  Proof. unfold layout. rewrite !map_app. congruence. Qed.

  Lemma layout_fold l l' : layout l = layout l' -> forall acc acc', layout acc = layout acc' ->
    layout (fold_left (fun acc kv => dset acc (fst kv) (snd kv)) l acc) =
    layout (fold_left (fun acc kv => dset acc (fst kv) (snd kv)) l' acc').
  Proof.
    revert l'. induction l as [|[a w] l IH]; intros [|[a' w'] l'] H acc acc' E; try discriminate; [exact E|].
    cbn [layout map fst snd] in H. injection H as Ha Hw H. subst a'. cbn [fold_left fst snd].
    apply IH; [exact H|]. now apply layout_dset.
  Qed.

  Lemma layout_filter f d d' : layout d = layout d' ->
    layout (filter (fun kv => f (fst kv)) d) = layout (filter (fun kv => f (fst kv)) d').
  Proof.
    revert d'. induction d as [|[a w] d IH]; intros [|[a' w'] d'] H; try discriminate; [reflexivity|].
    cbn [layout map fst snd] in H. injection H as Ha Hw H. subst a'. cbn [filter fst].
    destruct (f a); [|now apply IH]. cbn [layout map fst snd]. rewrite Hw. f_equal. now apply IH.
  Qed.

  Lemma tconcat_dims ax a b a' b' x x' : dims a = dims a' -> dims b = dims b' ->
    tconcat ax a b = Ok x -> tconcat ax a' b' = Ok x' -> dims x = dims x'.
  Proof.
    unfold tconcat. intros Ea Eb H H'. apply bind_Ok in H as (? & _ & H). apply bind_Ok in H' as (? & _ & H').
    apply Ok_eq in H. apply Ok_eq in H'. subst x x'. cbn [Womd.dims]. now rewrite Ea, Eb.
  Qed.

  Lemma aggregate_feature_layout d d' kind f back kv kv' : layout d = layout d' ->
    aggregate_feature d kind f back = Ok kv -> aggregate_feature d' kind f back = Ok kv' ->
    fst kv = fst kv' /\ dims (snd kv) = dims (snd kv').
  Proof.
    unfold aggregate_feature. intros L H H'.
    apply bind_Ok in H as (p & Hp & H). apply bind_Ok in H as (c & Hc & H). apply bind_Ok in H as (u & Hu & H).
    apply bind_Ok in H as (a & Ha & H). apply Ok_eq in H. subst kv.
    apply bind_Ok in H' as (p' & Hp' & H). apply bind_Ok in H as (c' & Hc' & H). apply bind_Ok in H as (u' & Hu' & H).
    apply bind_Ok in H as (a' & Ha' & H). apply Ok_eq in H. subst kv'. cbn [fst snd]. split; [reflexivity|].
    rewrite getk_Ok in *.
    destruct (layout_get _ _ _ _ L Hp) as (? & G & Ep). rewrite Hp' in G. injection G as <-.
    destruct (layout_get _ _ _ _ L Hc) as (? & G & Ec). rewrite Hc' in G. injection G as <-.
    destruct (layout_get _ _ _ _ L Hu) as (? & G & Eu). rewrite Hu' in G. injection G as <-.
    unfold tconcat3 in Ha, Ha'.
    apply bind_Ok in Ha as (? & _ & Ha). apply bind_Ok in Ha as (pc & Hpc & Ha).
    apply bind_Ok in Ha' as (? & _ & Ha'). apply bind_Ok in Ha' as (pc' & Hpc' & Ha'). rewrite Ep in *.
    eapply tconcat_dims; [| |exact Ha|exact Ha']; [|congruence].
    eapply tconcat_dims; [| |exact Hpc|exact Hpc']; congruence.
  Qed.

  Lemma mapM_layout {A} (f g : A -> res (string * tensor)) l x y :
    (forall a kv kv', f a = Ok kv -> g a = Ok kv' -> fst kv = fst kv' /\ dims (snd kv) = dims (snd kv')) ->
    mapM f l = Ok x -> mapM g l = Ok y -> layout x = layout y.
  Proof.
    intros H. revert x y. induction l as [|a l IH]; intros x y Hx Hy; cbn [mapM] in *.
    - apply Ok_eq in Hx. apply Ok_eq in Hy. subst. reflexivity.
    - apply bind_Ok in Hx as (b & Hb & Hx). apply bind_Ok in Hx as (bs & Hbs & Hx). apply Ok_eq in Hx. subst x.
      apply bind_Ok in Hy as (b' & Hb' & Hy). apply bind_Ok in Hy as (bs' & Hbs' & Hy). apply Ok_eq in Hy. subst y.
      destruct (H _ _ _ Hb Hb') as [E1 E2]. cbn [layout map]. rewrite E1, E2. f_equal. apply IH; auto.
  Qed.

  Lemma aggregate_layout d d' r r' : layout d = layout d' ->
    aggregate_time_tensors d = Ok r -> aggregate_time_tensors d' = Ok r' -> layout r = layout r'.
  Proof.
    unfold aggregate_time_tensors. cbv zeta. intros L H H'.
    assert (Ks : forall kind, current_features d kind = current_features d' kind)
      by (intros; rewrite !current_features_keys, (layout_keys _ _ L); reflexivity).
    rewrite !Ks in H.
    apply bind_Ok in H as (sts & Hs & H). apply bind_Ok in H as (tls & Ht & H).
    apply bind_Ok in H as (pv & Hpv & H). apply bind_Ok in H as (pl & Hpl & H).
    apply bind_Ok in H as (fv & Hfv & H). apply bind_Ok in H as (fl & Hfl & H). apply Ok_eq in H. subst r.
    apply bind_Ok in H' as (sts' & Hs' & H). apply bind_Ok in H as (tls' & Ht' & H).
    apply bind_Ok in H as (pv' & Hpv' & H). apply bind_Ok in H as (pl' & Hpl' & H).
    apply bind_Ok in H as (fv' & Hfv' & H). apply bind_Ok in H as (fl' & Hfl' & H). apply Ok_eq in H. subst r'.
    apply layout_fold; [|reflexivity].
    rewrite getk_Ok in *.
    destruct (layout_get _ _ _ _ L Hpv) as (? & G & Ep). rewrite Hpv' in G. injection G as <-.
    destruct (layout_get _ _ _ _ L Hfv) as (? & G & Ef). rewrite Hfv' in G. injection G as <-.
    unfold shape1 in Hpl, Hpl', Hfl, Hfl'. rewrite Ep in Hpl'. rewrite Ef in Hfl'.
    assert (pl' = pl) by (destruct (nth_error (dims pv) 1); congruence).
    assert (fl' = fl) by (destruct (nth_error (dims fv) 1); congruence). subst pl' fl'.
    apply layout_app; [apply layout_app|].
    - eapply mapM_layout; [|exact Hs|exact Hs']. intros f kv kv'. now apply aggregate_feature_layout.
    - apply layout_app; [|reflexivity].
      eapply mapM_layout; [|exact Ht|exact Ht']. intros f kv kv'. now apply aggregate_feature_layout.
    - exact (layout_filter (fun k => negb (existsb (String.eqb k) _)) _ _ L).
  Qed.

  Lemma preprocess_layout d d' agg mx r r' : layout d = layout d' ->
    preprocess_womd_example d agg mx = Ok r -> preprocess_womd_example d' agg mx = Ok r' -> layout r = layout r'.
  Proof.
    unfold preprocess_womd_example. intros L H H'.
    apply bind_Ok in H as (p & Hp & H). apply bind_Ok in H' as (p' & Hp' & H').
    assert (Lp : layout p = layout p').
    { destruct agg; [|apply Ok_eq in Hp; apply Ok_eq in Hp'; congruence].
      apply bind_Ok in Hp as (a & Ha & Hp). apply bind_Ok in Hp as (y & Hy & Hp). apply Ok_eq in Hp. subst p.
      apply bind_Ok in Hp' as (a' & Ha' & Hp). apply bind_Ok in Hp as (y' & Hy' & Hp). apply Ok_eq in Hp. subst p'.
      pose proof (aggregate_layout _ _ _ _ L Ha Ha') as La. rewrite getk_Ok in *.
      destruct (layout_get _ _ _ _ La Hy) as (? & G & E). rewrite Hy' in G. injection G as <-.
      apply layout_dset; [exact La|]. cbn [Womd.dims]. congruence. }
    destruct mx as [z|]; [|apply Ok_eq in H; apply Ok_eq in H'; congruence].
    clear - Lp H H'. revert p' r r' Lp H H'. induction p as [|[a w] p IH]; intros [|[a' w'] p'] r r' L H H'; try discriminate.
    - cbn in H, H'. congruence.
    - cbn [layout map fst snd] in L. injection L as Ha Hw L. subst a'. cbn [mapM fst snd] in H, H'.
      apply bind_Ok in H as (b & Hb & H). apply bind_Ok in H as (bs & Hbs & H). apply Ok_eq in H. subst r.
      apply bind_Ok in H' as (b' & Hb' & H'). apply bind_Ok in H' as (bs' & Hbs' & H'). apply Ok_eq in H'. subst r'.
      cbn [layout map]. f_equal; [|eapply IH; eauto].
      destruct (strip "state/" a).
      + apply bind_Ok in Hb as (v & Hv & Hb). apply bind_Ok in Hb' as (v' & Hv' & Hb').
        apply Ok_eq in Hb. apply Ok_eq in Hb'. subst b b'. cbn [fst snd]. f_equal.
        unfold take_rows in Hv, Hv'. rewrite <- Hw in Hv'. destruct (dims w); [discriminate|].
        apply Ok_eq in Hv. apply Ok_eq in Hv'. subst. reflexivity.
      + apply Ok_eq in Hb. apply Ok_eq in Hb'. subst b b'. cbn [fst snd]. congruence.
  Qed.

  Lemma parse_layout e fd d : parse_example (Some e) fd = Ok d ->
    layout d = map (fun kf => (fst kf, ft_shape (snd kf))) fd.
  Proof.
    cbn [parse_example]. revert d. induction fd as [|[k ft] fd IH]; cbn [mapM]; intros d H.
    - apply Ok_eq in H. subst d. reflexivity.
    - apply bind_Ok in H as (b & Hb & H). apply bind_Ok in H as (bs & Hbs & H). apply Ok_eq in H. subst d.
      apply bind_Ok in Hb as (t & Ht & Hb). apply Ok_eq in Hb. subst b. cbn [layout map fst snd] in *.
      f_equal; [|now apply IH]. f_equal. now apply parse_feature_value in Ht as (D & _).
  Qed.

  (** All records that can be read give dictionaries of the same layout. *)
  Lemma records_layout c s s' r r' : preprocess_serialized c s = Ok r -> preprocess_serialized c s' = Ok r' ->
    layout r = layout r'.
  Proof.
    unfold preprocess_serialized. intros H H'.
    apply bind_Ok in H as (fd & Hfd & H). apply bind_Ok in H as (d & Hd & H).
    apply bind_Ok in H' as (fd' & Hfd' & H'). apply bind_Ok in H' as (d' & Hd' & H').
    assert (fd' = fd) by congruence. subst fd'.
    destruct s as [e|]; [|discriminate]. destruct s' as [e'|]; [|discriminate].
    eapply preprocess_layout; [|exact H|exact H']. now rewrite (parse_layout _ _ _ Hd), (parse_layout _ _ _ Hd').
  Qed.
End One.
