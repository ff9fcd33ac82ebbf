(** What the validate methods and forward accept. *)
From Coq Require Import List ZArith Bool Lia.
From Verif.Lib Require Import Base.
From Verif.Model Require Import Batch Validate.
From Verif.Spec Require Import ValidateSpec.
From Verif.Proofs Require Import P_Batch.
Import ListNotations.
Open Scope nat_scope.

Lemma kind_eqb_eq a b : kind_eqb a b = true <-> a = b.
Proof. destruct a, b; cbn; split; congruence. Qed.

Lemma guard_Ok_iff b e : guard b e = Ok tt <-> b = true.
Proof. destruct b; cbn; split; congruence. Qed.

Lemma bind_unit_Ok {A} (r : res unit) (k : unit -> res A) a :
  bind r k = Ok a <-> r = Ok tt /\ k tt = Ok a.
Proof. destruct r as [[]|]; cbn; split; [auto|tauto|discriminate|intros [? _]; discriminate]. Qed.

Lemma equal_shape_Ok d l : assert_equal_shape (d :: l) = Ok tt <-> Forall (eq d) l.
Proof.
  unfold assert_equal_shape. rewrite guard_Ok_iff. cbn [hd forallb].
  rewrite dims_eqb_refl. cbn [andb]. rewrite forallb_forall, Forall_forall.
  split; intros H x Hx; apply dims_eqb_eq; auto.
Qed.

Lemma rank_Ok sh k : assert_rank sh k = Ok tt <-> length sh = k.
Proof. unfold assert_rank. now rewrite guard_Ok_iff, Nat.eqb_eq. Qed.

Lemma type_nil : assert_type [] [] = Ok tt <-> True.
Proof. cbn. tauto. Qed.
Lemma type_cons t l k ks :
  assert_type (t :: l) (k :: ks) = Ok tt <-> e_kind (t_type t) = k /\ assert_type l ks = Ok tt.
Proof.
  unfold assert_type. cbn [map2 forallb]. rewrite !guard_Ok_iff, andb_true_iff, kind_eqb_eq. reflexivity.
Qed.

Lemma Forall_nil_True {A} (P : A -> Prop) : Forall P [] <-> True.
Proof. split; auto. Qed.

Ltac shapes :=
  cbn [map app]; rewrite ?bind_unit_Ok, ?equal_shape_Ok, ?type_cons, ?type_nil, ?Forall_cons_iff, ?Forall_nil_True.

Lemma traj_ok t : traj_validate t = Ok tt <-> exists d, is_trajectory d t.
Proof.
  unfold traj_validate. shapes. unfold is_trajectory, floats, ints, flags. split.
  - intros H. exists (t_shape (tt_x t)). intuition congruence.
  - intros (d & H). split; [repeat split; try constructor; intuition congruence|]. intuition congruence.
Qed.

Lemma traj_shape_ok d t : is_trajectory d t -> tt_shape t = d.
Proof. intros H. apply H. Qed.

Lemma meta_ok m : meta_validate m = Ok tt <-> exists d, is_metadata d m.
Proof.
  unfold meta_validate. shapes. unfold is_metadata, floats, ints, flags. split.
  - intros H. exists (t_shape (tm_ids m)). intuition congruence.
  - intros (d & H). split; [repeat split; try constructor; intuition congruence|]. intuition congruence.
Qed.

Lemma road_ok r : road_validate r = Ok tt <-> exists d, is_roadgraph d r.
Proof.
  unfold road_validate. shapes. unfold is_roadgraph, floats, ints, flags. split.
  - intros H. exists (t_shape (tr_x r)). intuition congruence.
  - intros (d & H). split; [repeat split; try constructor; intuition congruence|]. intuition congruence.
Qed.

Lemma lights_ok r : lights_validate r = Ok tt <-> exists d, is_lights d r.
Proof.
  unfold lights_validate. shapes. unfold is_lights, floats, ints, flags. split.
  - intros H. exists (t_shape (tl_x r)). intuition congruence.
  - intros (d & H). split; [repeat split; try constructor; intuition congruence|]. intuition congruence.
Qed.

Lemma upd_ok u : upd_validate u = Ok tt <-> exists d, is_update d u.
Proof.
  unfold upd_validate. shapes. unfold is_update, floats, ints, flags. split.
  - intros H. exists (t_shape (tu_x u)). intuition congruence.
  - intros (d & H). split; [repeat split; try constructor; intuition congruence|]. intuition congruence.
Qed.

Lemma snoc_cases (sh : list nat) : sh = [] \/ exists p k, sh = p ++ [k].
Proof. destruct sh as [|a l] using rev_ind; [now left|right; eauto]. Qed.

Lemma slice_snoc p k a b : slice_cols (p ++ [k]) a b = Ok (p ++ [Nat.min b k - a]).
Proof.
  unfold slice_cols. rewrite removelast_last, last_last.
  destruct (p ++ [k]) eqn:E; [now destruct p|reflexivity].
Qed.

Lemma snoc_inj (p q : list nat) a b : p ++ [a] = q ++ [b] <-> p = q /\ a = b.
Proof. split; [apply app_inj_tail|intros [-> ->]; reflexivity]. Qed.

Lemma paths_ok r : last (t_shape (tp_x r)) 0 <> 0 ->
  paths_validate r = Ok tt <-> exists batch points, is_paths batch points r.
Proof.
  intros N. unfold paths_validate. destruct (snoc_cases (t_shape (tp_x r))) as [E|(p & k & E)].
  { rewrite E in N. now contradiction N. }
  rewrite E, slice_snoc. rewrite E, last_last in N. cbn [bind]. shapes. unfold is_paths, floats, ints, flags.
  replace (Nat.min 1 k - 0) with 1 by lia. rewrite E. split.
  - intros H. exists p, k. intuition congruence.
  - intros (b & q & H). assert (b = p /\ q = k) as [-> ->].
    { apply snoc_inj. destruct H as [[H _] _]. congruence. }
    repeat split; try constructor; intuition congruence.
Qed.

Lemma firstn_prefix p d : firstn (length p) d = p <-> starts_with p d.
Proof.
  split.
  - intros H. exists (skipn (length p) d). rewrite <- H at 1. now rewrite firstn_skipn.
  - intros [rest ->]. rewrite firstn_app, Nat.sub_diag, firstn_all. cbn. now rewrite app_nil_r.
Qed.

Lemma masked_ok value valid :
  masked_validate value valid = Ok tt <->
  e_kind (t_type valid) = Kbool /\ starts_with (t_shape valid) (t_shape value).
Proof.
  unfold masked_validate, assert_equal_shape_prefix. shapes. rewrite firstn_all, firstn_prefix. tauto.
Qed.

Lemma act_ok data valid :
  act_validate data valid = Ok tt <->
  e_kind (t_type valid) = Kbool /\ exists p, t_shape valid = p ++ [1] /\ starts_with p (t_shape data).
Proof.
  unfold act_validate. destruct (snoc_cases (t_shape valid)) as [E|(p & k & E)]; rewrite E.
  { split; [destruct (dims_eqb _ _); discriminate|]. intros (_ & p & H & _). now destruct p. }
  destruct (p ++ [k]) as [|a l] eqn:E'; [now destruct p|]. rewrite <- E'.
  unfold assert_equal_shape_prefix. shapes. rewrite guard_Ok_iff, last_last, Nat.eqb_eq.
  rewrite app_length, Nat.add_sub, firstn_app, Nat.sub_diag, firstn_all, app_nil_r. split.
  - intros ([H _] & -> & K & _). split; [exact K|]. exists p. split; [reflexivity|]. now apply firstn_prefix.
  - intros (K & q & Hq & HS). apply snoc_inj in Hq as [<- ->]. apply firstn_prefix in HS. auto.
Qed.

Lemma pose_ok p :
  pose_validate p = Ok tt <->
  exists d, floats d (to_delta_yaw p) /\
    Forall (fun t => e_kind (t_type t) = Kfloat /\ starts_with d (t_shape t))
           [to_xy p; to_yaw p; to_matrix p] /\
    e_kind (t_type (to_valid p)) = Kbool /\ starts_with d (t_shape (to_valid p)).
Proof.
  unfold pose_validate, assert_equal_shape_prefix. shapes. unfold floats, to_shape. rewrite !firstn_all.
  set (d := t_shape (to_delta_yaw p)). split.
  - intros ((A & B & C & D & _) & K1 & K2 & K3 & K4 & K5 & _). rewrite C in *.
    exists d. split; [auto|]. split.
    + repeat constructor; auto; apply firstn_prefix; congruence.
    + split; [exact K5|]. apply firstn_prefix. congruence.
  - intros (d' & (<- & K4) & HF & K5 & D). rewrite !Forall_cons_iff in HF.
    destruct HF as ((K1 & A) & (K2 & B) & (K3 & C) & _).
    apply firstn_prefix in A, B, C, D. rewrite A, B, C, D. repeat split; auto.
Qed.

(* ---------------- observations and states ---------------- *)

Lemma prefix_rank (p d : list nat) k : firstn (length p) d = p -> length d = length p + k ->
  exists rest, d = p ++ rest /\ length rest = k.
Proof.
  intros H L. apply firstn_prefix in H as [rest ->]. exists rest. rewrite app_length in L. split; [reflexivity|lia].
Qed.

Lemma len1 (l : list nat) : length l = 1 -> exists a, l = [a].
Proof. destruct l as [|a [|]]; try discriminate. eauto. Qed.
Lemma len2 (l : list nat) : length l = 2 -> exists a b, l = [a; b].
Proof. destruct l as [|a [|b [|]]]; try discriminate. eauto. Qed.

Lemma firstn_exact (p rest : list nat) : firstn (length p) (p ++ rest) = p.
Proof. apply firstn_prefix. now exists rest. Qed.

Lemma obs_ok o :
  obs_validate o = Ok tt <->
  exists p n t m r l t',
    to_shape (ob_pose o) = p /\ tt_shape (ob_traj o) = p ++ [n; t] /\
    tm_shape (ob_meta o) = p ++ [m] /\ flags (p ++ [m]) (ob_is_ego o) /\
    tr_shape (ob_road o) = p ++ [r] /\ tl_shape (ob_lights o) = p ++ [l; t'] /\
    (forall q, ob_paths o = Some q -> exists a b, tp_shape q = p ++ [a; b]).
Proof.
  unfold obs_validate, assert_equal_shape_prefix, ob_shape, flags. shapes. rewrite !rank_Ok, firstn_all. split.
  - intros ((A & B & C & D & _) & (E & _) & (K & _) & R1 & _ & R2 & R3 & R4 & HP).
    set (p := to_shape (ob_pose o)) in *. rewrite A in B, C, D. symmetry in B, C, D.
    destruct (prefix_rank _ _ _ A R1) as (r1 & E1 & L1). destruct (len2 _ L1) as (n & t & ->).
    destruct (prefix_rank _ _ _ B R2) as (r2 & E2 & L2). destruct (len1 _ L2) as (m & ->).
    destruct (prefix_rank _ _ _ C R3) as (r3 & E3 & L3). destruct (len1 _ L3) as (r & ->).
    destruct (prefix_rank _ _ _ D R4) as (r4 & E4 & L4). destruct (len2 _ L4) as (l & t' & ->).
    exists p, n, t, m, r, l, t'. rewrite <- E2. repeat split; auto.
    intros q Hq. rewrite Hq in HP. revert HP. shapes. rewrite rank_Ok. intros ((F & _) & RF).
    rewrite A in F. symmetry in F. destruct (prefix_rank _ _ _ F RF) as (r5 & E5 & L5).
    destruct (len2 _ L5) as (a & b & ->). eauto.
  - intros (p & n & t & m & r & l & t' & E0 & E1 & E2 & (E3 & K) & E4 & E5 & HP).
    rewrite E0, E1, E2, E4, E5, E3, !firstn_exact, !app_length. cbn [length].
    repeat split; try constructor; auto; try lia.
    destruct (ob_paths o) as [q|]; [|reflexivity]. destruct (HP q eq_refl) as (a & b & E6).
    shapes. rewrite rank_Ok, E6, !firstn_exact, app_length. cbn [length]. repeat split; auto.
Qed.

Lemma state_ok s : tm_shape (ts_meta s) <> [] ->
  state_validate s = Ok tt <->
  exists p n, tm_shape (ts_meta s) = p ++ [n] /\
    starts_with p (tt_shape (ts_sim s)) /\ starts_with p (tt_shape (ts_log s)) /\
    starts_with p (tl_shape (ts_lights s)) /\ starts_with p (t_shape (ts_timestep s)) /\
    (forall r, ts_road s = Some r -> starts_with p (tr_shape r)).
Proof.
  intros N. unfold state_validate, assert_equal_shape_prefix, ts_shape.
  destruct (snoc_cases (tm_shape (ts_meta s))) as [E|(p & n & E)]; [contradiction|].
  rewrite E, removelast_last. shapes. rewrite firstn_exact.
  split.
  - intros (A & B & C & D & HR). rewrite C in *. exists p, n. split; [reflexivity|].
    repeat split; try (apply firstn_prefix; congruence).
    intros r Hr. rewrite Hr in HR. cbn in HR. rewrite Forall_cons_iff in HR. apply firstn_prefix. symmetry. tauto.
  - intros (q & n' & Hq & A & B & C & D & HR). apply snoc_inj in Hq as [<- <-].
    apply firstn_prefix in A, B, C, D. rewrite A, B, C, D. repeat split.
    destruct (ts_road s) as [r|]; cbn; constructor; auto.
    symmetry. now apply firstn_prefix, HR.
Qed.

(* ---------------- broadcasting ---------------- *)

Lemma bdims_rev_stretch a b : bdims_rev a b = Some a <->
  length b <= length a /\ forall i, i < length b -> nth i b 0 = nth i a 0 \/ nth i b 0 = 1.
Proof.
  revert b. induction a as [|x a IH]; intros [|y b]; cbn [bdims_rev length].
  - split; [split; [lia|intros; lia]|reflexivity].
  - split; [discriminate|intros [L _]; lia].
  - split; [split; [lia|intros; lia]|reflexivity].
  - split.
    + destruct (bdims_rev a b) as [r|] eqn:E; [|discriminate]. intros H.
      assert (HR : r = a /\ (y = x \/ y = 1)).
      { destruct (Nat.eqb_spec x y); [injection H as ->; auto|].
        destruct (Nat.eqb_spec x 1); [injection H as ->; auto|].
        destruct (Nat.eqb_spec y 1); [injection H as ->; auto|discriminate]. }
      destruct HR as [-> HR]. apply IH in E as [L HI]. split; [lia|].
      intros [|i] Hi; cbn [nth]; [exact HR|]. apply HI. lia.
    + intros [L HI]. assert (E : bdims_rev a b = Some a).
      { apply IH. split; [lia|]. intros i Hi. apply (HI (Datatypes.S i)). lia. }
      rewrite E. destruct (Nat.eqb_spec x y); [reflexivity|].
      specialize (HI 0 ltac:(lia)) as H0. cbn [nth] in H0.
      assert (y = 1) as -> by (destruct H0; [exfalso; apply n; congruence|assumption]).
      destruct (Nat.eqb_spec x 1); [exfalso; auto|]. reflexivity.
Qed.

Lemma bdims_stretch a b : bdims a b = Some a <-> stretches_to b a.
Proof.
  unfold bdims, stretches_to. rewrite <- (rev_length b), <- (rev_length a). rewrite <- bdims_rev_stretch.
  destruct (bdims_rev (rev a) (rev b)) as [r|]; cbn.
  - split; intros H; injection H as H; f_equal; [now rewrite <- H, rev_involutive|now rewrite H, rev_involutive].
  - split; discriminate.
Qed.

Lemma bdims_snoc1 a b : bdims (a ++ [1]) (b ++ [1]) = option_map (fun d => d ++ [1]) (bdims a b).
Proof.
  unfold bdims. rewrite !rev_app_distr. cbn [rev app bdims_rev].
  destruct (bdims_rev (rev a) (rev b)); reflexivity.
Qed.

(* ---------------- forward ---------------- *)

Lemma and_snoc1 p valid v : t_shape valid = p ++ [v] ->
  forall u, and_op (mkT (p ++ [1]) (mket Kbool 8)) valid = Ok u <->
  e_kind (t_type valid) <> Kfloat /\ u = mkT (p ++ [v]) (mket (e_kind (t_type valid)) 32).
Proof.
  intros E u. unfold and_op. cbn [t_shape]. rewrite E.
  assert (B : bdims (p ++ [1]) (p ++ [v]) = Some (p ++ [v])).
  { unfold bdims. rewrite !rev_app_distr. cbn [rev app bdims_rev]. rewrite bdims_rev_same.
    destruct (Nat.eqb_spec 1 v) as [<-|]; cbn; now rewrite rev_involutive. }
  rewrite B. destruct (e_kind (t_type valid)).
  - split; [discriminate|]. intros [N _]. now contradiction N.
  - split; [intros H; injection H as <-; split; congruence|intros [_ ->]; reflexivity].
  - split; [intros H; injection H as <-; split; congruence|intros [_ ->]; reflexivity].
Qed.

(** The frame after the assertions: everything but the model's own shapes. *)
Lemma forward_frame m data valid B n T :
  forward_shapes m data valid (B ++ [n; T]) (B ++ [n; T]) (B ++ [n]) = Ok (B ++ [n; T]) <->
  removelast (t_shape valid) = B ++ [n] /\ 1 <= T /\
  exists u, model_shapes m data valid (floating (B ++ [n; 1])) (mkT (B ++ [n; 1]) (mket Kbool 8)) = Ok u /\
    is_update (B ++ [n; 1]) u.
Proof.
  unfold forward_shapes.
  replace (B ++ [n; T]) with ((B ++ [n]) ++ [T]) by now rewrite <- app_assoc.
  replace (B ++ [n; 1]) with ((B ++ [n]) ++ [1]) by now rewrite <- app_assoc.
  set (p := B ++ [n]).
  rewrite !removelast_last, !last_last.
  assert (LT : (1 <=? length (p ++ [T])) = true) by (apply Nat.leb_le; rewrite app_length; cbn; lia).
  rewrite LT. cbn [andb]. unfold assert_equal_shape_prefix. rewrite bind_unit_Ok, guard_Ok_iff, dims_eqb_eq.
  split.
  - intros [E H]. apply bind_unit_Ok in H as [_ H]. apply bind_unit_Ok in H as [HT H].
    apply guard_Ok_iff, Nat.leb_le in HT. apply bind_Ok in H as (u & Hu & H).
    apply bind_unit_Ok in H as [HV H]. apply bind_unit_Ok in H as [_ H]. apply bind_unit_Ok in H as [HE _].
    split; [congruence|]. split; [exact HT|]. exists u. split; [exact Hu|].
    apply upd_ok in HV as [d HD]. apply equal_shape_Ok in HE. inversion HE as [|a l E1 _]; subst.
    replace (p ++ [1]) with d; [exact HD|]. destruct HD as [[HD _] _]. congruence.
  - intros (E & HT & u & Hu & HD). split; [congruence|]. rewrite E.
    apply bind_unit_Ok. split.
    { cbn [map]. rewrite equal_shape_Ok, !firstn_exact, firstn_all. repeat constructor. }
    apply bind_unit_Ok. split; [now apply guard_Ok_iff, Nat.leb_le|]. rewrite Hu. cbn [bind].
    apply bind_unit_Ok. split; [apply upd_ok; eauto|]. apply bind_unit_Ok.
    split; [now apply guard_Ok_iff, Nat.leb_le|]. apply bind_unit_Ok. split.
    { rewrite equal_shape_Ok. destruct HD as [[HD _] _]. rewrite HD. repeat constructor. }
    now rewrite dims_eqb_refl.
Qed.

Lemma app2 (B : list nat) n k : B ++ [n; k] = (B ++ [n]) ++ [k].
Proof. now rewrite <- app_assoc. Qed.

Lemma valid_snoc valid (p : list nat) : p <> [] -> removelast (t_shape valid) = p -> exists v, t_shape valid = p ++ [v].
Proof.
  intros N E. destruct (snoc_cases (t_shape valid)) as [H|(q & v & H)].
  - rewrite H in E. now contradiction N.
  - rewrite H, removelast_last in E. subst q. eauto.
Qed.

Section Forward.
  Variables (data valid : tensor) (B : list nat) (n T : nat).
  Let accepted m :=
    forward_shapes m data valid (B ++ [n; T]) (B ++ [n; T]) (B ++ [n]) = Ok (B ++ [n; T]).
  Hypothesis HT : 1 <= T.

  Lemma state_forward : accepted MState <->
    flags (B ++ [n; 1]) valid /\ exists w, 5 <= w /\ floats (B ++ [n; w]) data.
  Proof.
    unfold accepted. rewrite forward_frame. cbn [model_shapes]. unfold state_shapes.
    destruct (snoc_cases (t_shape data)) as [E|(p & w & E)]; rewrite ?E.
    { split.
      - intros (_ & _ & u & H & _). discriminate.
      - intros (_ & w & _ & [H _]). rewrite E in H. now destruct B. }
    rewrite !slice_snoc. cbn [bind]. split.
    - intros (E1 & _ & u & H & HU). injection H as <-.
      destruct HU as ((X1 & K1) & _ & _ & _ & (X5 & _) & HV). cbn [tu_x tu_vel_y tu_valid t_shape t_type] in *.
      split; [exact HV|]. rewrite app2 in X1, X5. apply snoc_inj in X1 as [-> _]. apply snoc_inj in X5 as [_ X5].
      exists w. split; [destruct w as [|[|[|[|[|w]]]]]; cbn in X5; try discriminate; lia|].
      split; [now rewrite app2|exact K1].
    - intros (HV & w' & L & HD & K). rewrite E, app2 in HD. apply snoc_inj in HD as [-> ->].
      split; [destruct HV as [-> _]; now rewrite app2, removelast_last|]. split; [exact HT|].
      eexists. split; [reflexivity|].
      repeat split; cbn [tu_x tu_y tu_yaw tu_vel_x tu_vel_y tu_valid t_shape t_type]; try apply HV; try exact K;
        rewrite app2; f_equal; f_equal; lia.
  Qed.

  Lemma delta_like d v : t_shape v = (B ++ [n]) ++ [1] -> e_kind (t_type v) = Kbool ->
    t_shape d = (B ++ [n]) ++ [3] ->
    exists u, delta_shapes d v (floating (B ++ [n; 1])) (mkT (B ++ [n; 1]) (mket Kbool 8)) = Ok u /\
      is_update (B ++ [n; 1]) u.
  Proof.
    intros EV K ED. unfold delta_shapes. rewrite ED.
    destruct ((B ++ [n]) ++ [3]) as [|a l] eqn:EE; [now destruct (B ++ [n])|]. rewrite <- EE.
    rewrite last_last, removelast_last. cbn [Nat.modulo Nat.divmod fst snd Nat.eqb guard bind Nat.sub Nat.div].
    unfold float_op. cbn [t_shape floating]. rewrite app2, bdims_same. cbn [bind].
    destruct (and_op (mkT ((B ++ [n]) ++ [1]) (mket Kbool 8)) v) as [u|e] eqn:EA.
    - apply (and_snoc1 _ _ _ EV) in EA as [_ ->]. cbn [bind]. eexists. split; [reflexivity|].
      rewrite K. repeat split.
    - exfalso. pose proof (proj2 (and_snoc1 _ _ _ EV _) (conj (fun H => eq_ind Kbool (fun k => match k with Kbool => True | _ => False end) I Kfloat (eq_trans (eq_sym K) H)) eq_refl)) as H.
      congruence.
  Qed.

  Lemma delta_forward : accepted MDeltaGlobal <->
    flags (B ++ [n; 1]) valid /\ t_shape data = B ++ [n; 3].
  Proof.
    unfold accepted. rewrite forward_frame. cbn [model_shapes]. split.
    - intros (E1 & _ & u & H & HU). destruct (valid_snoc _ _ (not_eq_sym (app_cons_not_nil B [] n)) E1) as [v EV].
      unfold delta_shapes in H. destruct (snoc_cases (t_shape data)) as [E|(p & w & E)]; rewrite E in H; [discriminate|].
      destruct (p ++ [w]) as [|a l] eqn:EE; [now destruct p|]. rewrite <- EE in *.
      rewrite last_last, removelast_last in H. apply bind_unit_Ok in H as [HM H].
      apply guard_Ok_iff, Nat.eqb_eq in HM. apply bind_Ok in H as (x & Hx & H). apply bind_Ok in H as (vv & Hv & H).
      injection H as <-. rewrite !app2 in *. apply (and_snoc1 _ _ _ EV) in Hv as [_ ->].
      destruct HU as (_ & _ & _ & (X & _) & _ & (XV & KV)). cbn [tu_vel_x tu_valid floating t_shape t_type e_kind] in *.
      apply snoc_inj in X as [-> X]. apply snoc_inj in XV as [_ ->]. split; [split; auto|].
      change (w / 3 = 1) in X. rewrite E. f_equal. f_equal. pose proof (Nat.div_mod w 3 ltac:(lia)). lia.
    - intros ((EV & K) & ED). rewrite app2 in EV, ED. split; [now rewrite EV, removelast_last|].
      split; [exact HT|]. now apply delta_like.
  Qed.

  Lemma delta_local_forward : accepted MDeltaLocal <->
    flags (B ++ [n; 1]) valid /\ exists w, 3 <= w /\ t_shape data = B ++ [n; w].
  Proof.
    unfold accepted. rewrite forward_frame. cbn [model_shapes]. unfold delta_local_shapes. split.
    - intros (E1 & _ & u & H & HU). destruct (valid_snoc _ _ (not_eq_sym (app_cons_not_nil B [] n)) E1) as [v EV].
      destruct (snoc_cases (t_shape data)) as [E|(p & w & E)]; rewrite E in H; [discriminate|].
      rewrite !slice_snoc in H. cbn [bind] in H. rewrite !last_last, !removelast_last in H.
      apply bind_unit_Ok in H as [H2 H]. apply guard_Ok_iff, Nat.eqb_eq in H2.
      cbn [t_shape floating] in H. rewrite app2, removelast_last in H.
      destruct (bdims (B ++ [n]) p) as [d|] eqn:ED; [|discriminate].
      apply bind_unit_Ok in H as [HE H]. apply guard_Ok_iff, dims_eqb_eq in HE. subst d.
      apply bind_Ok in H as (vv & Hv & H). apply (and_snoc1 _ _ _ EV) in Hv as [_ ->].
      unfold delta_shapes in H. cbn [t_shape floating] in H.
      set (k := 2 + (Nat.min 3 w - 2)) in H.
      destruct (p ++ [k]) as [|a l] eqn:EE; [now destruct p|]. rewrite <- EE in *.
      rewrite last_last, removelast_last in H. apply bind_unit_Ok in H as [HM H].
      apply guard_Ok_iff, Nat.eqb_eq in HM. apply bind_Ok in H as (x & Hx & H). apply bind_Ok in H as (v2 & Hv & H).
      injection H as <-. apply (and_snoc1 (B ++ [n]) _ v) in Hv as [_ ->]; [|reflexivity].
      destruct HU as (_ & _ & _ & (X & _) & _ & (XV & KV)). cbn [tu_vel_x tu_valid floating t_shape t_type e_kind] in *.
      rewrite app2 in X, XV. apply snoc_inj in X as [-> X]. apply snoc_inj in XV as [_ ->].
      rewrite app2. split; [split; auto|]. exists w. split; [|now rewrite app2].
      unfold k in X. assert (w = 2 \/ 3 <= w) as [->|] by lia; [|assumption]. cbn in X. discriminate.
    - intros ((EV & K) & w & L & ED). rewrite app2 in EV, ED. split; [now rewrite EV, removelast_last|].
      split; [exact HT|]. rewrite ED, !slice_snoc. cbn [bind]. rewrite !last_last, !removelast_last.
      replace (Nat.min 2 w - 0) with 2 by lia. replace (Nat.min 3 w - 2) with 1 by lia.
      cbn [Nat.eqb guard bind t_shape floating]. rewrite app2, removelast_last, bdims_same, dims_eqb_refl.
      cbn [guard bind].
      rewrite (proj2 (and_snoc1 _ _ _ EV (mkT ((B ++ [n]) ++ [1]) (mket (e_kind (t_type valid)) 32)))).
      2: { split; [congruence|reflexivity]. }
      cbn [bind]. rewrite <- (app2 B n 1). apply delta_like; [cbn [t_shape]; now rewrite app2|exact K|reflexivity].
  Qed.

  Lemma bicycle_forward : accepted MBicycle <->
    flags (B ++ [n; 1]) valid /\
    exists q w, 2 <= w /\ t_shape data = q ++ [w] /\ stretches_to q (B ++ [n]).
  Proof.
    unfold accepted. rewrite forward_frame. cbn [model_shapes]. unfold bicycle_shapes. split.
    - intros (E1 & _ & u & H & HU). destruct (valid_snoc _ _ (not_eq_sym (app_cons_not_nil B [] n)) E1) as [v EV].
      destruct (snoc_cases (t_shape data)) as [E|(p & w & E)]; rewrite E in H; [discriminate|].
      destruct (p ++ [w]) as [|a l] eqn:EE; [now destruct p|]. rewrite <- EE in *.
      rewrite last_last, removelast_last in H. apply bind_unit_Ok in H as [HW H]. apply guard_Ok_iff, Nat.leb_le in HW.
      apply bind_Ok in H as (x & Hx & H). apply bind_Ok in H as (vv & Hv & H). injection H as <-.
      rewrite !app2 in *. apply (and_snoc1 _ _ _ EV) in Hv as [_ ->].
      destruct HU as ((X & _) & _ & _ & _ & _ & (XV & KV)). cbn [tu_x tu_valid t_shape t_type e_kind] in *.
      apply snoc_inj in XV as [_ ->]. split; [split; auto|].
      exists p, w. split; [exact HW|]. split; [now rewrite E|]. apply bdims_stretch.
      unfold float_op in Hx. cbn [t_shape floating] in Hx. rewrite bdims_snoc1 in Hx.
      destruct (bdims (B ++ [n]) p) as [d|]; [|discriminate]. cbn in Hx. injection Hx as <-. cbn in X.
      apply snoc_inj in X as [-> _]. reflexivity.
    - intros ((EV & K) & q & w & L & ED & HS). rewrite app2 in EV. split; [now rewrite EV, removelast_last|].
      split; [exact HT|]. rewrite ED. destruct (q ++ [w]) as [|a l] eqn:EE; [now destruct q|]. rewrite <- EE.
      rewrite last_last, removelast_last, (proj2 (Nat.leb_le 2 w) L). cbn [guard bind].
      unfold float_op. cbn [t_shape floating]. rewrite app2, bdims_snoc1, (proj2 (bdims_stretch _ _) HS). cbn [option_map bind].
      rewrite (proj2 (and_snoc1 _ _ _ EV (mkT ((B ++ [n]) ++ [1]) (mket (e_kind (t_type valid)) 32)))).
      2: { split; [congruence|reflexivity]. }
      cbn [bind]. eexists. split; [reflexivity|]. rewrite K. repeat split.
  Qed.
End Forward.

Lemma and_float a b : e_kind (t_type b) = Kfloat -> and_op a b = Err TypeError.
Proof. intros K. unfold and_op. now rewrite K. Qed.

(** Floating flags: the same error whichever model has to combine them. *)
Lemma float_flags m data valid0 valid cur curv u : m <> MState ->
  model_shapes m data valid0 cur curv = Ok u -> e_kind (t_type valid) = Kfloat ->
  model_shapes m data valid cur curv = Err TypeError.
Proof.
  intros N H K. destruct m; [congruence| | |]; cbn [model_shapes] in *.
  - unfold delta_shapes in *. destruct (t_shape data); [discriminate|].
    destruct (guard _ _); cbn [bind] in *; [|discriminate]. destruct (float_op _ _); cbn [bind] in *; [|discriminate].
    now rewrite (and_float _ _ K).
  - unfold delta_local_shapes in *. destruct (slice_cols _ 0 2); cbn [bind] in *; [|discriminate].
    destruct (slice_cols _ 2 3); cbn [bind] in *; [|discriminate].
    destruct (guard _ _); cbn [bind] in *; [|discriminate]. destruct (bdims _ _); [|discriminate].
    destruct (guard _ _); cbn [bind] in *; [|discriminate]. now rewrite (and_float _ _ K).
  - unfold bicycle_shapes in *. destruct (t_shape data); [discriminate|].
    destruct (guard _ _); cbn [bind] in *; [|discriminate]. destruct (float_op _ _); cbn [bind] in *; [|discriminate].
    now rewrite (and_float _ _ K).
Qed.

Lemma float_flags_forward m data valid0 valid sim ref ctrl r : m <> MState ->
  forward_shapes m data valid0 sim ref ctrl = Ok r ->
  t_shape valid = t_shape valid0 -> e_kind (t_type valid) = Kfloat ->
  forward_shapes m data valid sim ref ctrl = Err TypeError.
Proof.
  intros N H E K. unfold forward_shapes in *. rewrite E.
  destruct (guard (dims_eqb (removelast sim) _) _); cbn [bind] in *; [|discriminate].
  destruct (assert_equal_shape_prefix _ _); cbn [bind] in *; [|discriminate].
  destruct (guard (_ && _) _); cbn [bind] in *; [|discriminate].
  destruct (model_shapes m data valid0 _ _) as [u|] eqn:Em; cbn [bind] in H; [|discriminate].
  now rewrite (float_flags m data valid0 valid _ _ u N Em K).
Qed.

Lemma state_flags_forward data valid0 valid sim ref ctrl r :
  forward_shapes MState data valid0 sim ref ctrl = Ok r ->
  t_shape valid = t_shape valid0 -> e_kind (t_type valid) = Kfloat ->
  forward_shapes MState data valid sim ref ctrl = Err AssertionError.
Proof.
  intros H E K. unfold forward_shapes in *. rewrite E.
  destruct (guard (dims_eqb (removelast sim) _) _); cbn [bind] in *; [|discriminate].
  destruct (assert_equal_shape_prefix _ _); cbn [bind] in *; [|discriminate].
  destruct (guard (_ && _) _); cbn [bind] in *; [|discriminate].
  destruct (model_shapes MState data valid0 _ _) as [u|] eqn:Em; cbn [bind] in H; [|discriminate].
  assert (Em' : exists u', model_shapes MState data valid (floating (removelast sim ++ [1])) (mkT (removelast sim ++ [1]) (mket Kbool 8)) = Ok u' /\ tu_valid u' = valid).
  { cbn [model_shapes] in *. unfold state_shapes in *.
    repeat (match type of Em with context [bind ?t _] => destruct t; cbn [bind] in *; [|discriminate] end).
    injection Em as <-. eauto. }
  destruct Em' as (u' & -> & Ev). cbn [bind].
  destruct (upd_validate u') as [[]|e] eqn:EU.
  - apply upd_ok in EU as (d & _ & _ & _ & _ & _ & (_ & KV)). congruence.
  - cbn [bind]. f_equal. unfold upd_validate, assert_equal_shape, assert_type, guard, bind in EU.
    repeat (match type of EU with context [if ?b then _ else _] => destruct b end); congruence.
Qed.
