(** Proofs for C29 and C30. *)
From Coq Require Import String.
From Coq Require Import Reals ZArith List Lia Lra Bool.
From Verif.Lib Require Import Base JaxIndex Scalar XR.
From Verif.Model Require Import Operations State Dynamics Geometry Discretizer Comfort Metrics.
From Verif.Spec Require Import StateSpec GeomSpec MetricSpec RewardSpec.
From Verif.Proofs Require Import Core P_Discretizer P_Metrics.
Import ListNotations.

Section Dict.
  Context {A : Type}.
  Implicit Types (l : list (string * A)).

  Lemma lookup_first name l : lookup name l = first_named name l.
  Proof.
    unfold first_named. induction l as [|[n a] l IH]; [reflexivity|]. simpl.
    destruct (String.eqb name n); auto.
  Qed.
  Lemma lookup_In name l : (exists a, lookup name l = Some a) <-> In name (map fst l).
  Proof.
    induction l as [|[n a] l IH]; simpl; [split; [intros [? ?]; discriminate|tauto]|].
    destruct (String.eqb_spec name n) as [->|N].
    - split; eauto.
    - rewrite IH. split; auto. intros [E|E]; auto. congruence.
  Qed.
  Lemma lookup_None name l : lookup name l = None <-> ~ In name (map fst l).
  Proof.
    rewrite <- lookup_In. destruct (lookup name l); split; try congruence; intros H.
    - exfalso. apply H. eauto.
    - intros [? ?]; discriminate.
  Qed.
  Lemma lookup_app name l l' :
    lookup name (l ++ l') = match lookup name l with Some a => Some a | None => lookup name l' end.
  Proof.
    induction l as [|[n a] l IH]; [reflexivity|]. simpl. destruct (String.eqb name n); auto.
  Qed.
  Lemma dict_set_new name a l : lookup name l = None -> dict_set name a l = l ++ [(name, a)].
  Proof.
    induction l as [|[n b] l IH]; [reflexivity|]. simpl. destruct (String.eqb name n); [discriminate|].
    intros H. now rewrite IH.
  Qed.
  Lemma lookup_dict_set name a l name' :
    lookup name' (dict_set name a l) = if String.eqb name' name then Some a else lookup name' l.
  Proof.
    induction l as [|[n b] l IH]; simpl.
    - destruct (String.eqb name' name); auto.
    - destruct (String.eqb_spec name n) as [->|N]; simpl.
      + destruct (String.eqb name' n); auto.
      + rewrite IH. destruct (String.eqb_spec name' n) as [->|]; auto.
        destruct (String.eqb_spec n name); auto. congruence.
  Qed.
  Lemma dict_set_keys name a l :
    map fst (dict_set name a l) = if existsb (String.eqb name) (map fst l) then map fst l else map fst l ++ [name].
  Proof.
    induction l as [|[n b] l IH]; [reflexivity|]. simpl.
    destruct (String.eqb name n) eqn:E; simpl; auto.
    rewrite IH. destruct (existsb (String.eqb name) (map fst l)); reflexivity.
  Qed.
End Dict.

(* distinct *)
Lemma distinct_In l n : In n (distinct l) <-> In n l.
Proof.
  induction l as [|m l IH]; [tauto|]. simpl. rewrite filter_In, IH, negb_true_iff.
  destruct (String.eqb_spec m n); subst; intuition.
Qed.
Lemma NoDup_filter_s (f : string -> bool) l : NoDup l -> NoDup (filter f l).
Proof.
  induction 1; simpl; [constructor|]. destruct (f x); auto. constructor; auto.
  rewrite filter_In. tauto.
Qed.
Lemma distinct_NoDup l : NoDup (distinct l).
Proof.
  induction l as [|m l IH]; constructor.
  - rewrite filter_In, negb_true_iff. intros [_ H]. rewrite String.eqb_refl in H. discriminate.
  - now apply NoDup_filter_s.
Qed.
Lemma filter_app_s (f : string -> bool) l l' : filter f (l ++ l') = filter f l ++ filter f l'.
Proof. apply filter_app. Qed.
Lemma distinct_snoc l n :
  distinct (l ++ [n]) = if existsb (String.eqb n) l then distinct l else distinct l ++ [n].
Proof.
  induction l as [|m l IH]; [reflexivity|]. cbn [app distinct existsb].
  rewrite IH. destruct (String.eqb_spec n m) as [->|N]; simpl.
  - destruct (existsb (String.eqb m) l); auto. rewrite filter_app. simpl.
    rewrite String.eqb_refl. simpl. now rewrite app_nil_r.
  - destruct (existsb (String.eqb n) l); auto. rewrite filter_app. simpl.
    destruct (String.eqb_spec m n); [congruence|]. reflexivity.
Qed.
Lemma distinct_id l : NoDup l -> distinct l = l.
Proof.
  induction 1 as [|m l H ND IH]; [reflexivity|]. simpl. rewrite IH. f_equal.
  clear IH ND. induction l as [|k l IH]; [reflexivity|]. simpl.
  destruct (String.eqb_spec m k); simpl; [exfalso; apply H; now left|].
  f_equal. apply IH. intros HH. apply H. now right.
Qed.

Section Reg.
  Context {S : Scalar}.
  Implicit Types (reg : registry).

  Lemma register_spec name m reg :
    (In name (get_metric_names reg) -> register_metric name m reg = (Err ValueError, reg)) /\
    (~ In name (get_metric_names reg) ->
       register_metric name m reg = (Ok tt, reg ++ [(name, m)])).
  Proof.
    unfold register_metric, get_metric_names. split; intros H.
    - apply lookup_In in H as [a ->]. reflexivity.
    - apply lookup_None in H. rewrite H. now rewrite dict_set_new.
  Qed.

  Definition grow reg (a : string * (state -> res mval)) : registry :=
    snd (register_metric (fst a) (snd a) reg).

  Lemma grow_lookup reg a name : lookup name (grow reg a) = lookup name (reg ++ [a]).
  Proof.
    destruct a as [n m]. unfold grow, register_metric. cbn [fst snd]. rewrite lookup_app.
    destruct (lookup n reg) eqn:E; cbn [snd].
    - destruct (lookup name reg) eqn:E'; auto. simpl.
      destruct (String.eqb_spec name n); auto. subst. congruence.
    - rewrite dict_set_new, lookup_app by auto. reflexivity.
  Qed.

  Lemma existsb_lookup n reg : existsb (String.eqb n) (map fst reg) = match lookup n reg with Some _ => true | None => false end.
  Proof.
    induction reg as [|[k a] reg IH]; [reflexivity|]. simpl. destruct (String.eqb n k); auto.
  Qed.

  Lemma grow_names reg a : map fst (grow reg a) = if existsb (String.eqb (fst a)) (map fst reg) then map fst reg else map fst reg ++ [fst a].
  Proof.
    destruct a as [n m]. unfold grow, register_metric. cbn [fst snd]. rewrite existsb_lookup.
    destruct (lookup n reg) eqn:E; cbn [snd]; auto. rewrite dict_set_new by auto. now rewrite map_app.
  Qed.

  Lemma fold_grow attempts reg :
    (forall name, lookup name (fold_left grow attempts reg) = lookup name (reg ++ attempts)) /\
    (forall pre, map fst reg = distinct pre -> map fst (fold_left grow attempts reg) = distinct (pre ++ map fst attempts)).
  Proof.
    revert reg. induction attempts as [|a attempts IH]; intros reg; simpl.
    - split; intros; now rewrite app_nil_r.
    - destruct (IH (grow reg a)) as [I1 I2]. split.
      + intros name. rewrite I1, lookup_app, grow_lookup, <- lookup_app, <- app_assoc. reflexivity.
      + intros pre E. rewrite (I2 (pre ++ [fst a])).
        * rewrite <- app_assoc. reflexivity.
        * rewrite grow_names, E, distinct_snoc.
          assert (existsb (String.eqb (fst a)) (distinct pre) = existsb (String.eqb (fst a)) pre) as ->; auto.
          apply eq_true_iff_eq. rewrite !existsb_exists. split; intros (x & Hx & Hx'); exists x; split; auto; now apply distinct_In.
  Qed.

  Lemma after_spec attempts :
    (forall name, lookup name (after attempts) = first_named name (initial_registry ++ attempts)) /\
    get_metric_names (after attempts) = distinct (map fst (initial_registry ++ attempts)) /\
    NoDup (get_metric_names (after attempts)).
  Proof.
    unfold after. change (fun r a => snd (register_metric (fst a) (snd a) r)) with grow.
    destruct (fold_grow attempts initial_registry) as [H1 H2].
    assert (E : get_metric_names (fold_left grow attempts initial_registry) = distinct (map fst (initial_registry ++ attempts))).
    { unfold get_metric_names. rewrite map_app. apply (H2 (map fst initial_registry)). reflexivity. }
    split; [intros; rewrite H1; apply lookup_first|]. split; auto. rewrite E. apply distinct_NoDup.
  Qed.

  (* run_metrics *)
  Definition rstep reg s (acc : res (list (string * mval))) name : res (list (string * mval)) :=
    let* results := acc in
    match lookup name reg with
    | Some m => let* v := m s in Ok (dict_set name v results)
    | None => Err ValueError
    end.
  Lemma rstep_err reg s names e : fold_left (rstep reg s) names (Err e) = Err e.
  Proof. induction names; auto. Qed.

  Lemma run_metrics_snoc reg s names name :
    run_metrics reg s (names ++ [name]) = rstep reg s (run_metrics reg s names) name.
  Proof. unfold run_metrics. rewrite fold_left_app. reflexivity. Qed.

  Lemma run_metrics_Ok reg s names results : run_metrics reg s names = Ok results ->
    map fst results = distinct names /\
    forall name, In name names -> exists m v, lookup name reg = Some m /\ m s = Ok v /\ lookup name results = Some v.
  Proof.
    revert results. induction names as [|name names IH] using rev_ind; intros results H.
    - injection H as <-. split; [reflexivity|intros ? []].
    - rewrite run_metrics_snoc in H. unfold rstep in H. apply bind_Ok in H as (r0 & H0 & H).
      destruct (lookup name reg) as [m|] eqn:E; [|discriminate].
      apply bind_Ok in H as (v & Hv & H). injection H as <-.
      destruct (IH r0 H0) as [K V]. split.
      + rewrite dict_set_keys, K, distinct_snoc.
        assert (existsb (String.eqb name) (distinct names) = existsb (String.eqb name) names) as ->; auto.
        apply eq_true_iff_eq. rewrite !existsb_exists.
        split; intros (x & Hx & Hx'); exists x; split; auto; now apply distinct_In.
      + intros name' Hin. apply in_app_iff in Hin. rewrite lookup_dict_set.
        destruct (String.eqb_spec name' name) as [->|N]; [eauto|].
        destruct Hin as [Hin|[Hin|[]]]; [auto|congruence].
  Qed.

  Lemma run_metrics_total reg s names :
    (forall name, In name names -> exists m v, lookup name reg = Some m /\ m s = Ok v) ->
    exists results, run_metrics reg s names = Ok results.
  Proof.
    induction names as [|name names IH] using rev_ind; intros H; [eexists; reflexivity|].
    rewrite run_metrics_snoc. destruct IH as [r ->]; [intros; apply H, in_app_iff; auto|].
    destruct (H name) as (m & v & E & E'); [apply in_app_iff; right; now left|].
    simpl. rewrite E, E'. simpl. eauto.
  Qed.

  (** An unknown name is an error; ValueError when every earlier one succeeds. *)
  Lemma run_metrics_unknown reg s names name : In name names -> ~ In name (get_metric_names reg) ->
    exists e, run_metrics reg s names = Err e.
  Proof.
    intros Hin Hn. destruct (run_metrics reg s names) as [r|e] eqn:E; eauto. exfalso.
    destruct (run_metrics_Ok _ _ _ _ E) as [_ V]. destruct (V name Hin) as (m & v & L & _).
    apply Hn. apply lookup_In. eauto.
  Qed.
  Lemma run_metrics_unknown_first reg s pre name post results :
    run_metrics reg s pre = Ok results -> ~ In name (get_metric_names reg) ->
    run_metrics reg s (pre ++ name :: post) = Err ValueError.
  Proof.
    intros H Hn. apply lookup_None in Hn.
    change (fold_left (rstep reg s) pre (Ok []) = Ok results) in H.
    change (fold_left (rstep reg s) (pre ++ name :: post) (Ok []) = Err ValueError).
    rewrite fold_left_app, H. cbn [fold_left].
    assert (E : rstep reg s (Ok results) name = Err ValueError) by (unfold rstep; cbn [bind]; now rewrite Hn).
    rewrite E. apply rstep_err.
  Qed.

  Lemma make_reward_iff reg rewards :
    ((forall name, In name (map fst rewards) -> In name (get_metric_names reg)) ->
       make_linear_reward reg rewards = Ok rewards) /\
    (~ (forall name, In name (map fst rewards) -> In name (get_metric_names reg)) ->
       make_linear_reward reg rewards = Err ValueError).
  Proof.
    unfold make_linear_reward.
    set (b := forallb _ rewards).
    assert (E : b = true <-> forall name, In name (map fst rewards) -> In name (get_metric_names reg)).
    { unfold b. rewrite forallb_forall. split.
      - intros H name Hin. apply in_map_iff in Hin as (r & <- & Hr). specialize (H r Hr).
        apply lookup_In. destruct (lookup (fst r) reg); eauto. discriminate.
      - intros H r Hr. assert (HH := H (fst r) (in_map fst _ _ Hr)). apply lookup_In in HH as [a ->]. reflexivity. }
    split; intros H; destruct b; auto.
    - apply E in H. discriminate.
    - exfalso. apply H. now apply E.
  Qed.
End Reg.

(* ---------------- the reward ---------------- *)
Open Scope R_scope.

Lemma counts_masked m r : counts m r -> masked_value (S := XR) m = Fin r.
Proof.
  unfold masked_value. intros [[-> ->]|[-> ->]]; [reflexivity|apply f0_Fin].
Qed.

Lemma term_spec n (v : mval (S := XR)) mask : shaped n v -> length mask = n ->
  exists l, metric_times_mask v (fmask mask) = Ok l /\ length l = n /\
    forall i b r, nth_error mask i = Some b -> contributes v i r ->
      nth_error l i = Some (Fin (r * (if b then 1 else 0))).
Proof.
  intros Sh L. unfold fmask.
  assert (LM : length (map (fun b : bool => Fin (if b then 1 else 0)) mask) = n) by (rewrite map_length; auto).
  destruct v as [ms|m]; simpl in *.
  - unfold bcast2. rewrite Sh. change (@length (@F XR)) with (@length xr). rewrite LM, Nat.eqb_refl.
    eexists. split; [reflexivity|]. split.
    + rewrite map2_length, Sh. change (@length (@F XR)) with (@length xr). rewrite LM. lia.
    + intros i b r Hb (m & Hm & Hc). rewrite nth_error_map2, Hm, nth_error_map, Hb. cbn [option_map].
      rewrite (counts_masked m r Hc), fmul_Fin. reflexivity.
  - eexists. split; [reflexivity|]. split.
    + rewrite map_length. exact LM.
    + intros i b r Hb Hc. rewrite nth_error_map, nth_error_map, Hb. cbn [option_map].
      rewrite (counts_masked m r Hc), fmul_Fin. reflexivity.
Qed.

Definition lstep (all : list (string * mval (S := XR))) (mask : list xr) (acc : res (list xr)) (r : string * xr) : res (list xr) :=
  let* reward := acc in
  match lookup (fst r) all with
  | None => Err KeyError
  | Some v =>
      let* metric := metric_times_mask v mask in
      bcast2 (fadd (Scalar := XR)) reward (map (fun m => fmul (Scalar := XR) m (snd r)) metric)
  end.

Lemma lstep_fold n all (mask : list bool) (wt : string -> R) (val : string -> nat -> R) (names : list string) (acc : list xr) (accv : nat -> R) :
  length mask = n -> length acc = n ->
  (forall name, In name names -> exists v, lookup name all = Some v /\ shaped n v /\
     forall i, (i < n)%nat -> contributes v i (val name i)) ->
  (forall i b, nth_error mask i = Some b -> nth_error acc i = Some (Fin (accv i * (if b then 1 else 0)))) ->
  exists r, fold_left (lstep all (fmask mask)) (map (fun name : string => (name, Fin (wt name))) names) (Ok acc) = Ok r /\
    length r = n /\
    forall i b, nth_error mask i = Some b ->
      nth_error r i = Some (Fin ((accv i + Rsum (map (fun name => wt name * val name i) names)) * (if b then 1 else 0))).
Proof.
  revert acc accv. induction names as [|name names IH]; intros acc accv LM LA HN HA.
  - exists acc. split; [reflexivity|]. split; auto. intros i b Hb. rewrite (HA i b Hb). do 3 f_equal. simpl. ring.
  - cbn [map fold_left]. destruct (HN name) as (v & Hv & Sh & Hc); [now left|].
    unfold lstep at 2. cbn [bind fst snd]. rewrite Hv.
    destruct (term_spec n v mask Sh LM) as (l & El & Ll & Nl). rewrite El. cbn [bind].
    rewrite bcast2_eq by (etransitivity; [exact LA|symmetry; etransitivity; [apply map_length|exact Ll]]).
    set (acc' := map2 (fadd (Scalar := XR)) acc (map (fun m => fmul (Scalar := XR) m (Fin (wt name))) l)).
    destruct (IH acc' (fun i => accv i + wt name * val name i)) as (r & Er & Lr & Nr); auto.
    + unfold acc'. rewrite map2_length, map_length. change (Nat.min (@length xr acc) (@length xr l) = n). rewrite LA. change (@length xr l) with (@length (@F XR) l). rewrite Ll. lia.
    + intros. apply HN. now right.
    + intros i b Hb. assert (Ni := Nl i b (val name i) Hb (Hc i ltac:(rewrite <- LM; eapply nth_error_Some_lt; eauto))).
      pose proof (HA i b Hb) as Hi. change (@nth_error xr acc i) with (@nth_error (@F XR) acc i) in Hi.
      unfold acc'. rewrite nth_error_map2, nth_error_map, Ni, Hi.
      cbn [option_map]. rewrite fmul_Fin, fadd_Fin. do 2 f_equal. ring.
    + exists r. split; [exact Er|]. split; auto. intros i b Hb. rewrite (Nr i b Hb). do 3 f_equal. simpl. ring.
Qed.

Lemma linear_reward_spec n reg (s : state (S := XR)) mask (wt : string -> R) (val : string -> nat -> R) names :
  length mask = n ->
  (forall name, In name names -> exists m v, lookup name reg = Some m /\ m s = Ok v /\ shaped n v /\
     forall i, (i < n)%nat -> contributes v i (val name i)) ->
  exists r, linear_reward reg (map (fun name => (name, Fin (wt name))) names) s (fmask mask) = Ok r /\
    length r = n /\
    forall i b, nth_error mask i = Some b ->
      nth_error r i = Some (Fin (if b then Rsum (map (fun name => wt name * val name i) names) else 0)).
Proof.
  intros LM HN. unfold linear_reward.
  assert (K : map fst (map (fun name => (name, Fin (wt name))) names) = names).
  { rewrite map_map. apply map_id. }
  change (@F XR) with xr in *. rewrite K.
  destruct (run_metrics_total reg s names) as [all Hall].
  { intros name Hin. destruct (HN name Hin) as (m & v & L & E & _). eauto. }
  rewrite Hall. cbn [bind]. destruct (run_metrics_Ok _ _ _ _ Hall) as [_ V].
  destruct (lstep_fold n all mask wt val names (map (fun _ => f0 (S := XR)) (fmask mask)) (fun _ => 0)) as (r & Er & Lr & Nr); auto.
  - unfold fmask. now rewrite !map_length.
  - intros name Hin. destruct (V name Hin) as (m & v & L & E & Lv).
    destruct (HN name Hin) as (m' & v' & L' & E' & Sh & C). rewrite L in L'. injection L' as <-.
    rewrite E in E'. injection E' as <-. eauto.
  - intros i b Hb. unfold fmask. rewrite !nth_error_map, Hb. cbn [option_map]. rewrite f0_Fin. do 2 f_equal. ring.
  - exists r. split; [exact Er|]. split; auto. intros i b Hb. rewrite (Nr i b Hb). do 2 f_equal.
    destruct b; ring.
Qed.
