(** Time aggregation and truncation of WOMD dictionaries (C48). *)
From Coq Require Import String.
From Coq Require Import List ZArith Bool Arith Lia.
From Verif.Lib Require Import Base Scalar.
From Verif.Model Require Import Womd.
From Verif.Spec Require Import DictSpec.
Import ListNotations.
Local Open Scope nat_scope.

(** ** Strings *)
Lemma strip_Some p s f : strip p s = Some f <-> s = (p ++ f)%string.
Proof.
  revert s. induction p as [|a p IH]; intros s; simpl.
  - split; congruence.
  - destruct s as [|b s]; [split; discriminate|].
    destruct (Ascii.eqb_spec a b) as [->|N].
    + rewrite IH. split; congruence.
    + split; [discriminate|]. congruence.
Qed.

Lemma strip_app p f : strip p (p ++ f) = Some f.
Proof. now apply strip_Some. Qed.

Lemma append_assoc a b c : ((a ++ b) ++ c = a ++ (b ++ c))%string.
Proof. induction a; simpl; congruence. Qed.

Lemma append_inj_l p a b : (p ++ a = p ++ b)%string -> a = b.
Proof. induction p; simpl; auto. intros H. injection H. auto. Qed.

(** ** Lists *)
Lemma nth_mid {A} (pre post : list A) k d : nth (length pre) (pre ++ k :: post) d = k.
Proof. rewrite app_nth2 by lia. now rewrite Nat.sub_diag. Qed.

Lemma set_nth_mid {A} (pre post : list A) k v : set_nth (length pre) v (pre ++ k :: post) = pre ++ v :: post.
Proof. induction pre; simpl; congruence. Qed.

Lemma set_nth_length {A} n (v : A) l : length (set_nth n v l) = length l.
Proof. revert n. induction l as [|a l IH]; intros [|n]; simpl; auto. Qed.

Lemma split_nth {A} (l : list A) n : n < length l -> exists pre a post, l = pre ++ a :: post /\ length pre = n.
Proof.
  revert n. induction l as [|a l IH]; intros n H; simpl in H; [lia|].
  destruct n as [|n]; [exists [], a, l; auto|].
  destruct (IH n) as (pre & b & post & -> & L); [lia|]. exists (a :: pre), b, post. simpl. auto.
Qed.

Lemma eqb_list (a b : list nat) : length a = length b ->
  forallb (fun p => fst p =? snd p) (combine a b) = true <-> a = b.
Proof.
  revert b. induction a as [|x a IH]; intros [|y b] L; try discriminate; simpl; [tauto|].
  injection L as L. rewrite andb_true_iff, IH, Nat.eqb_eq by auto.
  split; [intros [-> ->]; auto|intros E; injection E as -> ->; auto].
Qed.

Section Womd.
  Context {S : Scalar}.

  (** ** Dictionaries *)
  Lemma get_dset d k v k' : get (dset d k v) k' = if String.eqb k' k then Some v else get d k'.
  Proof.
    induction d as [|[a w] d IH]; simpl.
    - destruct (String.eqb_spec k' k) as [->|]; auto.
    - destruct (String.eqb_spec k a) as [->|N]; simpl.
      + destruct (String.eqb_spec k' a); auto.
      + rewrite IH. destruct (String.eqb_spec k' a) as [->|N']; auto.
        destruct (String.eqb_spec a k); congruence.
  Qed.

  Lemma get_In d k v : get d k = Some v -> In (k, v) d.
  Proof.
    induction d as [|[a w] d IH]; simpl; [discriminate|].
    destruct (String.eqb_spec k a) as [->|]; intros H; [left; congruence|right; auto].
  Qed.

  Lemma In_get d k v : NoDup (map fst d) -> In (k, v) d -> get d k = Some v.
  Proof.
    induction d as [|[a w] d IH]; simpl; intros N H; [contradiction|].
    inversion N as [|? ? Ha Nd]; subst. destruct (String.eqb_spec k a) as [->|Ne].
    - destruct H as [H|H]; [congruence|]. exfalso. apply Ha. apply (in_map fst) in H. exact H.
    - destruct H as [H|H]; [congruence|]. auto.
  Qed.

  Lemma get_None d k : get d k = None <-> ~ In k (map fst d).
  Proof.
    induction d as [|[a w] d IH]; simpl; [tauto|].
    destruct (String.eqb_spec k a) as [->|Ne]; [split; [discriminate|tauto]|].
    rewrite IH. split; intros H; [intros [E|E]; [congruence|tauto]|tauto].
  Qed.

  Lemma dset_keys d k v : NoDup (map fst d) -> NoDup (map fst (dset d k v)).
  Proof.
    induction d as [|[a w] d IH]; simpl; intros N.
    - repeat constructor; auto.
    - inversion N as [|? ? Ha Nd]; subst. destruct (String.eqb_spec k a) as [->|Ne]; simpl; constructor; auto.
      rewrite <- get_None, get_dset. destruct (String.eqb_spec a k); [congruence|]. now apply get_None.
  Qed.

  (** Writing a list of entries: the last one for a key counts. *)
  Lemma fold_dset_get l : forall acc k,
    get (fold_left (fun acc kv => dset acc (fst kv) (snd kv)) l acc) k =
      match get (rev l) k with Some v => Some v | None => get acc k end.
  Proof.
    induction l as [|[a v] l IH]; intros acc k; simpl; auto.
    rewrite IH, get_dset. simpl.
    assert (E : get (rev l ++ [(a, v)]) k = match get (rev l) k with Some w => Some w | None => if String.eqb k a then Some v else None end).
    { generalize (rev l). induction l0 as [|[b w] l0 IH0]; simpl; auto. destruct (String.eqb k b); auto. }
    rewrite E. destruct (get (rev l) k); auto. destruct (String.eqb k a); auto.
  Qed.

  Lemma fold_dset_keys l : forall acc, NoDup (map fst acc) ->
    NoDup (map fst (fold_left (fun acc kv => dset acc (fst kv) (snd kv)) l acc)).
  Proof. induction l as [|[a v] l IH]; intros acc N; simpl; auto. apply IH. now apply dset_keys. Qed.

  Lemma get_app d d' k : get (d ++ d') k = match get d k with Some v => Some v | None => get d' k end.
  Proof. induction d as [|[a w] d IH]; simpl; auto. destruct (String.eqb k a); auto. Qed.

  Lemma getk_Ok d k v : getk d k = Ok v <-> get d k = Some v.
  Proof. unfold getk. destruct (get d k); split; congruence. Qed.

  Lemma get_filter d f k : NoDup (map fst d) -> (forall kv kv', fst kv = fst kv' -> f kv = f kv') ->
    get (filter f d) k = match get d k with Some v => if f (k, v) then Some v else None | None => None end.
  Proof.
    intros N Hf. induction d as [|[a w] d IH]; simpl; auto. inversion N as [|? ? Ha Nd]; subst.
    destruct (f (a, w)) eqn:E; simpl.
    - destruct (String.eqb_spec k a) as [->|]; [now rewrite E|auto].
    - destruct (String.eqb_spec k a) as [->|]; [|auto]. rewrite E, (IH Nd).
      apply get_None in Ha. now rewrite Ha.
  Qed.

  Lemma filter_keys f (d : dict) : NoDup (map fst d) -> NoDup (map fst (filter f d)).
  Proof.
    induction d as [|[a w] d IH]; simpl; intros N; [constructor|]. inversion N as [|? ? Ha Nd]; subst.
    destruct (f (a, w)); simpl; auto. constructor; auto.
    intros Hin. apply Ha. apply in_map_iff in Hin as ([b x] & E & Hin). simpl in E. subst b.
    apply filter_In in Hin as [Hin _]. apply (in_map fst) in Hin. exact Hin.
  Qed.

  Lemma get_rev d k : NoDup (map fst d) -> get (rev d) k = get d k.
  Proof.
    intros N. assert (N' : NoDup (map fst (rev d))) by (rewrite map_rev; now apply NoDup_rev).
    destruct (get d k) as [v|] eqn:E.
    - apply In_get; auto. rewrite <- in_rev. now apply get_In.
    - apply get_None. rewrite map_rev, <- in_rev. now apply get_None.
  Qed.

  (** ** Concatenation *)
  Lemma tconcat_Ok ax a b c : tconcat ax a b = Ok c <->
    exists before na nb behind, length before = ax /\
      dims a = before ++ na :: behind /\ dims b = before ++ nb :: behind /\
      c = mkT (before ++ (na + nb) :: behind)
            (fun idx => let k := nth ax idx 0 in
                        if k <? na then cell a idx else cell b (set_nth ax (k - na) idx)).
  Proof.
    unfold tconcat. split.
    - intros H. apply bind_Ok in H as (u & G & H). apply guard_Ok in G.
      apply andb_true_iff in G as [G1 G3]. apply andb_true_iff in G1 as [G1 G2].
      apply Nat.ltb_lt in G1. apply Nat.eqb_eq in G2. rewrite eqb_list in G3 by now rewrite !set_nth_length.
      destruct (split_nth (dims a) ax G1) as (pre & na & post & Ea & La).
      destruct (split_nth (dims b) ax) as (pre' & nb & post' & Eb & Lb); [lia|].
      rewrite Ea, Eb in G3. rewrite <- La in G3 at 1. rewrite <- Lb in G3. rewrite !set_nth_mid in G3.
      assert (E : pre' = pre /\ post' = post).
      { assert (Lp : length pre' = length pre) by lia. clear - G3 Lp. revert pre' Lp G3.
        induction pre as [|x pre IH]; intros [|y pre'] L E; try discriminate; simpl in *.
        - split; congruence.
        - injection E as <- E. destruct (IH pre') as [-> ->]; auto. }
      destruct E as [-> ->]. exists pre, na, nb, post. split; auto. split; auto. split; auto.
      rewrite Ea, Eb in H. rewrite <- La in H. rewrite !nth_mid, set_nth_mid in H. rewrite La in H. congruence.
    - intros (pre & na & nb & post & L & Ea & Eb & ->). rewrite Ea, Eb, <- L. rewrite !nth_mid, !set_nth_mid.
      rewrite !app_length. cbn [length]. rewrite Nat.eqb_refl.
      replace (length pre <? length pre + Datatypes.S (length post)) with true by (symmetry; apply Nat.ltb_lt; lia).
      cbn [andb]. rewrite (proj2 (eqb_list (pre ++ 0 :: post) (pre ++ 0 :: post) eq_refl) eq_refl). reflexivity.
  Qed.

  Lemma tconcat3_joined after p c f a : tconcat3 (after + 1) p c f = Ok a -> joined after p c f a.
  Proof.
    unfold tconcat3. intros H. apply bind_Ok in H as (u & G & H). apply guard_Ok, Nat.leb_le in G.
    apply bind_Ok in H as (pc & H1 & H2).
    apply tconcat_Ok in H1 as (before & np & nc & behind & L & Ep & Ec & ->).
    apply tconcat_Ok in H2 as (before' & npc & nf & behind' & L' & Epc & Ef & ->). cbn [dims cell] in *.
    assert (E : before' = before /\ npc = np + nc /\ behind' = behind).
    { assert (Lb : length before' = length before) by lia. clear - Epc Lb. revert before' Lb Epc.
      induction before as [|x pre IH]; intros [|y pre'] Lb E; try discriminate; simpl in *.
      - repeat split; congruence.
      - injection E as <- E. destruct (IH pre') as (-> & -> & ->); auto. }
    destruct E as (-> & -> & ->).
    exists before, np, nc, nf, behind. cbn [dims].
    assert (Lr : length (dims p) = length before + Datatypes.S (length behind)) by (rewrite Ep, app_length; reflexivity).
    split; [lia|]. repeat (split; [auto; try (f_equal; f_equal; lia)|]).
    intros pre k post Lp. cbn [cell].
    replace (length (dims p) - (after + 1)) with (length pre) by lia.
    rewrite nth_mid, !set_nth_mid.
    destruct (Nat.ltb_spec k (np + nc)).
    - destruct (Nat.ltb_spec k np); auto.
    - destruct (Nat.ltb_spec k np); [lia|]. f_equal. f_equal. f_equal. lia.
  Qed.

  Lemma joinable_tconcat3 after p c f : joinable after p c f -> exists a, tconcat3 (after + 1) p c f = Ok a.
  Proof.
    intros (before & np & nc & nf & behind & L & Ep & Ec & Ef). unfold tconcat3.
    assert (Lr : length (dims p) = length before + Datatypes.S (length behind)) by (rewrite Ep, app_length; reflexivity).
    replace (after + 1 <=? length (dims p)) with true by (symmetry; apply Nat.leb_le; lia). cbn [guard bind].
    replace (length (dims p) - (after + 1)) with (length before) by lia.
    assert (T : forall a b na nb, dims a = before ++ na :: behind -> dims b = before ++ nb :: behind ->
      exists x, tconcat (length before) a b = Ok x /\ dims x = before ++ (na + nb) :: behind).
    { intros a b na nb Ea Eb. eexists. split; [apply tconcat_Ok; exists before, na, nb, behind; auto|reflexivity]. }
    destruct (T p c np nc Ep Ec) as (pc & H1 & Dpc). rewrite H1. cbn [bind].
    destruct (T pc f (np + nc) nf Dpc Ef) as (x & H2 & _).
    rewrite H2. eauto.
  Qed.

  (** ** Aggregation *)
  Lemma current_features_In d kind f : In f (current_features d kind) <->
    get d (kind ++ "/current/" ++ f) <> None.
  Proof.
    unfold current_features. rewrite in_flat_map. split.
    - intros ([k v] & H & Hf). cbn [fst] in Hf. destruct (strip (kind ++ "/current/") k) as [g|] eqn:E; [|contradiction].
      destruct Hf as [->|[]]. apply strip_Some in E. rewrite append_assoc in E. subst k.
      intros N. apply get_None in N. apply N. apply (in_map fst) in H. exact H.
    - intros H. destruct (get d (kind ++ "/current/" ++ f)) as [v|] eqn:E; [|congruence].
      apply get_In in E. exists ((kind ++ "/current/" ++ f)%string, v). split; auto. cbn [fst].
      rewrite <- append_assoc, strip_app. now left.
  Qed.

  Lemma removed_In d k :
    In k (flat_map (removed_keys state_kind) (current_features d state_kind)
          ++ flat_map (removed_keys tl_kind) (current_features d tl_kind)) <-> split_key d k.
  Proof.
    rewrite in_app_iff, !in_flat_map. split.
    - intros [(f & Hf & Hk)|(f & Hf & Hk)]; apply current_features_In in Hf; unfold removed_keys in Hk;
        destruct Hk as [<-|[<-|[<-|[]]]]; [exists state_kind, f, "past"%string|exists state_kind, f, "current"%string
          |exists state_kind, f, "future"%string|exists tl_kind, f, "past"%string|exists tl_kind, f, "current"%string
          |exists tl_kind, f, "future"%string]; repeat split; auto.
    - intros (kind & f & time & [->| ->] & Ht & -> & H).
      + left. exists f. split; [now apply current_features_In|].
        unfold removed_keys. destruct Ht as [->|[->| ->]]; simpl; auto.
      + right. exists f. split; [now apply current_features_In|].
        unfold removed_keys. destruct Ht as [->|[->| ->]]; simpl; auto.
  Qed.

  Lemma mapM_In {A B} (f : A -> res B) l out : mapM f l = Ok out ->
    (forall b, In b out -> exists a, In a l /\ f a = Ok b) /\ (forall a, In a l -> exists b, In b out /\ f a = Ok b).
  Proof.
    revert out. induction l as [|a l IH]; intros out H; simpl in H.
    - injection H as <-. split; contradiction.
    - apply bind_Ok in H as (b & Hb & H). apply bind_Ok in H as (bs & Hbs & H). injection H as <-.
      destruct (IH bs Hbs) as [I1 I2]. split.
      + intros c [<-|Hc]; [exists a; simpl; auto|]. destruct (I1 c Hc) as (x & ? & ?). exists x. simpl; auto.
      + intros c [<-|Hc]; [exists b; simpl; auto|]. destruct (I2 c Hc) as (x & ? & ?). exists x. simpl; auto.
  Qed.

  Lemma aggregate_feature_Ok d kind f back k a : aggregate_feature d kind f back = Ok (k, a) ->
    k = (kind ++ "/all/" ++ f)%string /\ exists p c fu,
      get d (kind ++ "/past/" ++ f) = Some p /\ get d (kind ++ "/current/" ++ f) = Some c /\
      get d (kind ++ "/future/" ++ f) = Some fu /\ tconcat3 back p c fu = Ok a.
  Proof.
    unfold aggregate_feature. intros H.
    apply bind_Ok in H as (p & Hp & H). apply bind_Ok in H as (c & Hc & H). apply bind_Ok in H as (fu & Hf & H).
    apply bind_Ok in H as (x & Hx & H). injection H as <- <-. split; auto.
    exists p, c, fu. rewrite <- !getk_Ok. auto.
  Qed.

  (** Everything written for the key of a feature is the same array. *)
  Lemma get_unique_value l k v : (exists w, In (k, w) l) -> (forall w, In (k, w) l -> w = v) -> get l k = Some v.
  Proof.
    intros [w Hw] Hu. destruct (get l k) as [x|] eqn:E.
    - apply get_In in E. now rewrite (Hu x E).
    - apply get_None in E. exfalso. apply E. apply (in_map fst) in Hw. exact Hw.
  Qed.

  Definition added (sts tls : dict) (P Fn : nat) : dict :=
    sts ++ tls ++ [("state/which_time"%string, which_time P Fn)].

  Lemma aggregate_Ok d r : aggregate_time_tensors d = Ok r -> exists sts tls P Fn pv fv,
    mapM (fun f => aggregate_feature d state_kind f 1) (current_features d state_kind) = Ok sts /\
    mapM (fun f => aggregate_feature d tl_kind f (tl_back f)) (current_features d tl_kind) = Ok tls /\
    get d "state/past/valid" = Some pv /\ nth_error (dims pv) 1 = Some P /\
    get d "state/future/valid" = Some fv /\ nth_error (dims fv) 1 = Some Fn /\
    NoDup (map fst r) /\
    (NoDup (map fst d) -> forall k, get r k =
      match get d k with
      | Some v => if existsb (String.eqb k) (flat_map (removed_keys state_kind) (current_features d state_kind)
                       ++ flat_map (removed_keys tl_kind) (current_features d tl_kind))
                  then get (rev (added sts tls P Fn)) k else Some v
      | None => get (rev (added sts tls P Fn)) k
      end).
  Proof.
    unfold aggregate_time_tensors. cbv zeta. intros H.
    apply bind_Ok in H as (sts & Hs & H). apply bind_Ok in H as (tls & Ht & H).
    apply bind_Ok in H as (pv & Hpv & H). apply bind_Ok in H as (P & HP & H).
    apply bind_Ok in H as (fv & Hfv & H). apply bind_Ok in H as (Fn & HF & H). injection H as <-.
    apply getk_Ok in Hpv. apply getk_Ok in Hfv. unfold shape1 in HP, HF.
    destruct (nth_error (dims pv) 1) as [P'|] eqn:EP; [|discriminate].
    destruct (nth_error (dims fv) 1) as [F'|] eqn:EF; [|discriminate].
    injection HP as <-. injection HF as <-.
    exists sts, tls, P', F', pv, fv. repeat (split; [assumption|]). split.
    - apply fold_dset_keys. constructor.
    - intros N k. rewrite fold_dset_get. fold (added sts tls P' F'). rewrite rev_app_distr, get_app.
      set (fl := filter _ d).
      assert (Nf : NoDup (map fst fl)).
      { now apply filter_keys. }
      rewrite (get_rev fl k Nf). subst fl. rewrite get_filter; auto.
      2:{ intros kv kv' E. now rewrite E. }
      cbn [fst]. set (ex := existsb _ _).
      destruct (get d k) as [v|].
      + destruct ex; cbn [negb]; auto. destruct (get (rev _) k); auto.
      + destruct (get (rev _) k); auto.
  Qed.

  Lemma sts_In d kind back sts : mapM (fun f => aggregate_feature d kind f (back f)) (current_features d kind) = Ok sts ->
    forall k a, In (k, a) sts <-> exists f, k = (kind ++ "/all/" ++ f)%string /\ In f (current_features d kind) /\
      aggregate_feature d kind f (back f) = Ok (k, a).
  Proof.
    intros H k a. destruct (mapM_In _ _ _ H) as [I1 I2]. split.
    - intros Hin. destruct (I1 _ Hin) as (f & Hf & E). exists f. split; auto. now apply aggregate_feature_Ok in E as [-> _].
    - intros (f & -> & Hf & E). destruct (I2 f Hf) as (b & Hb & Eb). congruence.
  Qed.

  Lemma added_get d sts tls P Fn :
    mapM (fun f => aggregate_feature d state_kind f 1) (current_features d state_kind) = Ok sts ->
    mapM (fun f => aggregate_feature d tl_kind f (tl_back f)) (current_features d tl_kind) = Ok tls ->
    (forall k a, get (rev (added sts tls P Fn)) k = Some a <->
       (exists f, k = ("state/all/" ++ f)%string /\ aggregate_feature d state_kind f 1 = Ok (k, a)) \/
       (exists f, k = ("traffic_light_state/all/" ++ f)%string /\ aggregate_feature d tl_kind f (tl_back f) = Ok (k, a)) \/
       (k = "state/which_time"%string /\ a = which_time P Fn)).
  Proof.
    intros Hs Ht k a.
    pose proof (sts_In d state_kind (fun _ => 1) sts Hs) as Is. pose proof (sts_In d tl_kind tl_back tls Ht) as It.
    assert (Feat : forall kind f back b, aggregate_feature d kind f back = Ok b -> In f (current_features d kind)).
    { intros kind f back [x y] E. apply aggregate_feature_Ok in E as (_ & p & c & fu & _ & Hc & _). apply current_features_In. congruence. }
    assert (In_added : In (k, a) (rev (added sts tls P Fn)) <->
       (exists f, k = ("state/all/" ++ f)%string /\ aggregate_feature d state_kind f 1 = Ok (k, a)) \/
       (exists f, k = ("traffic_light_state/all/" ++ f)%string /\ aggregate_feature d tl_kind f (tl_back f) = Ok (k, a)) \/
       (k = "state/which_time"%string /\ a = which_time P Fn)).
    { rewrite <- in_rev. unfold added. rewrite !in_app_iff, Is, It. simpl. split.
      - intros [(f & -> & _ & E)|[(f & -> & _ & E)|[E|[]]]].
        + left. exists f. auto.
        + right. left. exists f. auto.
        + right. right. split; congruence.
      - intros [(f & -> & E)|[(f & -> & E)|[-> ->]]].
        + left. exists f. split; [reflexivity|]. split; eauto.
        + right. left. exists f. split; [reflexivity|]. split; eauto.
        + right. right. auto. }
    rewrite <- In_added. split; [apply get_In|]. intros H. apply get_unique_value; [eauto|].
    intros w Hw. 
    assert (Hw' : (exists f, k = ("state/all/" ++ f)%string /\ aggregate_feature d state_kind f 1 = Ok (k, w)) \/
       (exists f, k = ("traffic_light_state/all/" ++ f)%string /\ aggregate_feature d tl_kind f (tl_back f) = Ok (k, w)) \/
       (k = "state/which_time"%string /\ w = which_time P Fn)).
    { rewrite <- in_rev in Hw. unfold added in Hw. rewrite !in_app_iff, Is, It in Hw. simpl in Hw.
      destruct Hw as [(f & -> & _ & E)|[(f & -> & _ & E)|[E|[]]]].
      - left. exists f. auto.
      - right. left. exists f. auto.
      - right. right. split; congruence. }
    apply In_added in H. clear - H Hw'.
    destruct H as [(f & -> & E)|[(f & -> & E)|[-> ->]]]; destruct Hw' as [(g & Eg & E')|[(g & Eg & E')|[Eg ->]]];
      try (simpl in Eg; discriminate).
    - apply append_inj_l in Eg. subst g. congruence.
    - apply append_inj_l in Eg. subst g. congruence.
    - reflexivity.
  Qed.

  Lemma existsb_key k l : existsb (String.eqb k) l = true <-> In k l.
  Proof.
    rewrite existsb_exists. split.
    - intros (x & Hx & E). apply String.eqb_eq in E. now subst.
    - intros H. exists k. split; auto. apply String.eqb_refl.
  Qed.

  (** The result of aggregation, key by key. *)
  Lemma aggregate_spec d r : NoDup (map fst d) -> aggregate_time_tensors d = Ok r ->
    NoDup (map fst r) /\
    (forall kind f, (kind = "state" \/ kind = "traffic_light_state")%string ->
       get d (kind ++ "/current/" ++ f) <> None -> get d (kind ++ "/all/" ++ f) = None ->
       exists p c fu a, get d (kind ++ "/past/" ++ f) = Some p /\ get d (kind ++ "/current/" ++ f) = Some c /\
         get d (kind ++ "/future/" ++ f) = Some fu /\ get r (kind ++ "/all/" ++ f) = Some a /\
         joined (axes_behind_time kind f) p c fu a) /\
    (get d "state/which_time" = None -> exists pv fv P Fn w,
       get d "state/past/valid" = Some pv /\ nth_error (dims pv) 1 = Some P /\
       get d "state/future/valid" = Some fv /\ nth_error (dims fv) 1 = Some Fn /\
       get r "state/which_time" = Some w /\ dims w = [P + 1 + Fn] /\
       forall k, cell w [k] = VF (if k <? P then fopp f1 else if k =? P then f0 else f1)) /\
    (forall k v, get d k = Some v -> ~ split_key d k -> get r k = Some v) /\
    (forall k, split_key d k -> get r k = None) /\
    (forall k, get r k <> None -> get d k <> None \/ k = "state/which_time"%string \/
       exists kind f, (kind = "state" \/ kind = "traffic_light_state")%string /\ k = (kind ++ "/all/" ++ f)%string /\
         get d (kind ++ "/current/" ++ f) <> None).
  Proof.
    intros N H. destruct (aggregate_Ok d r H) as (sts & tls & P & Fn & pv & fv & Hs & Ht & Hpv & HP & Hfv & HF & Nr & G).
    specialize (G N). pose proof (added_get d sts tls P Fn Hs Ht) as A.
    set (rem := flat_map (removed_keys state_kind) (current_features d state_kind)
                ++ flat_map (removed_keys tl_kind) (current_features d tl_kind)) in *.
    assert (Rem : forall k, existsb (String.eqb k) rem = true <-> split_key d k).
    { intros k. rewrite existsb_key. apply removed_In. }
    assert (Time : forall k, split_key d k -> get (rev (added sts tls P Fn)) k = None).
    { intros k (kind & f & time & Hk & Htm & -> & _).
      destruct (get (rev _) _) as [a|] eqn:E; [|reflexivity]. exfalso. apply A in E.
      destruct Hk as [->| ->], Htm as [->|[->| ->]];
        destruct E as [(g & Eg & _)|[(g & Eg & _)|[Eg _]]]; simpl in Eg; discriminate. }
    split; auto. split; [|split; [|split; [|split]]].
    - intros kind f Hk Hc Ha.
      assert (Ef : exists back a, back = axes_behind_time kind f + 1 /\ aggregate_feature d kind f back = Ok ((kind ++ "/all/" ++ f)%string, a) /\
                 get r (kind ++ "/all/" ++ f) = Some a).
      { rewrite G, Ha. destruct Hk as [->| ->].
        - pose proof (proj2 (mapM_In _ _ _ Hs) f (proj2 (current_features_In d "state" f) Hc)) as ([k a] & Hin & E).
          destruct (aggregate_feature_Ok _ _ _ _ _ _ E) as [-> _].
          exists 1, a. split; [reflexivity|]. split; [exact E|]. apply A. left. exists f. split; [reflexivity|exact E].
        - pose proof (proj2 (mapM_In _ _ _ Ht) f (proj2 (current_features_In d tl_kind f) Hc)) as ([k a] & Hin & E).
          destruct (aggregate_feature_Ok _ _ _ _ _ _ E) as [-> _].
          exists (tl_back f), a. split; [unfold tl_back, axes_behind_time; simpl; destruct (String.eqb f "timestamp_micros"); reflexivity|].
          split; [exact E|]. apply A. right. left. exists f. split; [reflexivity|exact E]. }
      destruct Ef as (back & a & -> & E & Gr).
      destruct (aggregate_feature_Ok _ _ _ _ _ _ E) as (_ & p & c & fu & Hp & Hcu & Hf & Ec).
      exists p, c, fu, a. repeat (split; [assumption|]). now apply tconcat3_joined.
    - intros Hw. exists pv, fv, P, Fn, (which_time P Fn). repeat (split; [assumption|]). split.
      + rewrite G, Hw. apply A. right. right. auto.
      + split; [reflexivity|]. intros k. simpl. destruct (Nat.ltb_spec k P); auto.
        destruct (Nat.ltb_spec k (P + 1)), (Nat.eqb_spec k P); auto; lia.
    - intros k v Hk Hsk. rewrite G, Hk. destruct (existsb (String.eqb k) rem) eqn:E; auto.
      exfalso. apply Hsk. now apply Rem.
    - intros k Hk. rewrite G, (Time k Hk). rewrite (proj2 (Rem k) Hk). now destruct (get d k).
    - intros k Hk. rewrite G in Hk. destruct (get d k); [left; discriminate|right].
      destruct (get (rev (added sts tls P Fn)) k) as [a|] eqn:E; [|congruence]. apply A in E.
      destruct E as [(f & -> & E)|[(f & -> & E)|[-> _]]]; [right|right|now left].
      + exists "state"%string, f. split; auto. split; [reflexivity|].
        apply aggregate_feature_Ok in E as (_ & p & c & fu & _ & Hc & _). change (get d ("state" ++ "/current/" ++ f) = Some c) in Hc. congruence.
      + exists "traffic_light_state"%string, f. split; auto. split; [reflexivity|].
        apply aggregate_feature_Ok in E as (_ & p & c & fu & _ & Hc & _). change (get d ("traffic_light_state" ++ "/current/" ++ f) = Some c) in Hc. congruence.
  Qed.

  (** When it succeeds. *)
  Lemma aggregate_succeeds d : complete d <-> exists r, aggregate_time_tensors d = Ok r.
  Proof.
    split.
    - intros (Hf & (pv & Hpv & Lp) & (fv & Hfv & Lf)).
      assert (M : forall kind, (kind = "state" \/ kind = "traffic_light_state")%string -> forall back,
        (forall f, back f = axes_behind_time kind f + 1) ->
        exists out, mapM (fun f => aggregate_feature d kind f (back f)) (current_features d kind) = Ok out).
      { intros kind Hk back Hb. apply mapM_total. intros f Hin. apply current_features_In in Hin.
        destruct (Hf kind f Hk Hin) as (p & c & fu & Hp & Hc & Hfu & J).
        destruct (joinable_tconcat3 _ _ _ _ J) as [a Ha]. rewrite <- Hb in Ha.
        unfold aggregate_feature. rewrite <- getk_Ok in Hp, Hc, Hfu. rewrite Hp. cbn [bind].
        rewrite Hc. cbn [bind]. rewrite Hfu. cbn [bind]. rewrite Ha. cbn [bind]. eauto. }
      destruct (M "state"%string (or_introl eq_refl) (fun _ => 1)) as [sts Hs]; [reflexivity|].
      destruct (M "traffic_light_state"%string (or_intror eq_refl) tl_back) as [tls Ht].
      { intros f. unfold tl_back, axes_behind_time. simpl. destruct (String.eqb f "timestamp_micros"); reflexivity. }
      unfold aggregate_time_tensors. cbv zeta. unfold state_kind, tl_kind in *. rewrite Hs. cbn [bind]. rewrite Ht. cbn [bind].
      unfold getk. rewrite Hpv, Hfv. cbn [bind]. unfold shape1.
      destruct (nth_error (dims pv) 1) eqn:E1; [|apply nth_error_None in E1; lia].
      destruct (nth_error (dims fv) 1) eqn:E2; [|apply nth_error_None in E2; lia]. cbn [bind]. eauto.
    - intros [r H]. destruct (aggregate_Ok d r H) as (sts & tls & P & Fn & pv & fv & Hs & Ht & Hpv & HP & Hfv & HF & _).
      split; [|split].
      + intros kind f Hk Hc.
        assert (E : exists k a, aggregate_feature d kind f (axes_behind_time kind f + 1) = Ok (k, a)).
        { destruct Hk as [->| ->].
          - destruct (proj2 (mapM_In _ _ _ Hs) f (proj2 (current_features_In d "state" f) Hc)) as ([k a] & _ & E).
            exists k, a. exact E.
          - destruct (proj2 (mapM_In _ _ _ Ht) f (proj2 (current_features_In d tl_kind f) Hc)) as ([k a] & _ & E).
            exists k, a. unfold tl_back in E. unfold axes_behind_time. simpl.
            destruct (String.eqb f "timestamp_micros"); exact E. }
        destruct E as (k & a & E). apply aggregate_feature_Ok in E as (_ & p & c & fu & Hp & Hcu & Hfu & J).
        exists p, c, fu. repeat (split; [assumption|]).
        apply tconcat3_joined in J as (b & np & nc & nf & bh & J1 & J2 & J3 & J4 & _).
        exists b, np, nc, nf, bh. auto.
      + exists pv. split; auto. apply nth_error_Some_lt in HP. lia.
      + exists fv. split; auto. apply nth_error_Some_lt in HF. lia.
  Qed.

  (** ** Preprocessing *)
  Lemma truncate_spec n d out : 
    mapM (fun kv : string * tensor => match strip "state/" (fst kv) with
                    | Some _ => let* v := take_rows n (snd kv) in Ok (fst kv, v)
                    | None => Ok kv
                    end) d = Ok out ->
    forall k, match get d k, get out k with
              | Some v, Some w =>
                  if strip "state/" k then
                    exists size rest, dims v = size :: rest /\ dims w = py_stop n size :: rest /\ cell w = cell v
                  else w = v
              | None, None => True
              | _, _ => False
              end.
  Proof.
    revert out. induction d as [|[a v] d IH]; intros out H k; cbn [mapM fst snd] in H.
    - injection H as <-. exact I.
    - apply bind_Ok in H as ([a' w] & Hw & H). apply bind_Ok in H as (rest & Hr & H). injection H as <-.
      specialize (IH rest Hr k). cbn [get]. 
      assert (E : a' = a /\ if strip "state/" a then
                    exists size rest, dims v = size :: rest /\ dims w = py_stop n size :: rest /\ cell w = cell v
                  else w = v).
      { destruct (strip "state/" a).
        - apply bind_Ok in Hw as (x & Hx & Hw). injection Hw as <- <-. split; auto.
          unfold take_rows in Hx. destruct (dims v) as [|sz r] eqn:Ed; [discriminate|]. injection Hx as <-.
          exists sz, r. auto.
        - injection Hw as <- <-. auto. }
      destruct E as [-> E]. destruct (String.eqb_spec k a) as [->|]; auto.
  Qed.

  Lemma preprocess_None d agg r : preprocess_womd_example d agg None = Ok r ->
    if agg then exists a yaw w, aggregate_time_tensors d = Ok a /\ get a "state/all/bbox_yaw" = Some yaw /\
      get r "state/all/bbox_yaw" = Some w /\ dims w = dims yaw /\ (forall idx, cell w idx = wrap_val (cell yaw idx)) /\
      (forall k, k <> "state/all/bbox_yaw"%string -> get r k = get a k)
    else r = d.
  Proof.
    unfold preprocess_womd_example. intros H. apply bind_Ok in H as (p & Hp & H). injection H as <-.
    destruct agg; [|congruence].
    apply bind_Ok in Hp as (a & Ha & Hp). apply bind_Ok in Hp as (yaw & Hy & Hp). injection Hp as <-.
    apply getk_Ok in Hy. exists a, yaw. eexists. split; auto. split; auto.
    split; [now rewrite get_dset|]. split; [reflexivity|]. split; [reflexivity|].
    intros k Hk. rewrite get_dset. destruct (String.eqb_spec k "state/all/bbox_yaw"); [contradiction|auto].
  Qed.

  Lemma preprocess_Some d agg n out : preprocess_womd_example d agg (Some n) = Ok out ->
    exists r, preprocess_womd_example d agg None = Ok r /\
    forall k, match get r k, get out k with
              | Some v, Some w =>
                  if strip "state/" k then
                    exists size rest, dims v = size :: rest /\ dims w = py_stop n size :: rest /\ cell w = cell v
                  else w = v
              | None, None => True
              | _, _ => False
              end.
  Proof.
    unfold preprocess_womd_example. intros H. apply bind_Ok in H as (p & Hp & H).
    exists p. split; [now rewrite Hp|]. exact (truncate_spec n p out H).
  Qed.
End Womd.
