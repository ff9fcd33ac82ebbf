(** Proofs for C41: the IDM speed formula. *)
From Coq Require Import Reals List ZArith Bool Lra Lia Psatz.
From Verif.Lib Require Import Base JaxIndex Scalar XR.
From Verif.Model Require Import Operations State Dynamics Geometry Discretizer Metrics Waypoint.
From Verif.Spec Require Import GeomSpec WaypointSpec.
Import ListNotations.
Open Scope R_scope.

(* ---------------- powers ---------------- *)

(** Bernoulli's inequality for real exponents. *)
Lemma bernoulli x d : 0 < x -> 1 <= d -> 1 + d * (x - 1) <= Rpower x d.
Proof.
  intros Hx Hd. unfold Rpower. set (y := ln x). rewrite <- (exp_ln x) by auto. fold y.
  pose proof (exp_ineq1_le ((d - 1) * y)) as H1. pose proof (exp_ineq1_le (- y)) as H2.
  pose proof (exp_pos y) as Py.
  assert (E1 : exp (d * y) = exp y * exp ((d - 1) * y)) by (rewrite <- exp_plus; f_equal; ring).
  assert (E2 : 1 = exp y * exp (- y)) by (rewrite <- exp_plus, Rplus_opp_r, exp_0; reflexivity).
  rewrite E1.
  assert (A : exp y * (1 + (d - 1) * y) <= exp y * exp ((d - 1) * y)) by (apply Rmult_le_compat_l; lra).
  assert (B : exp y * (1 - y) <= 1).
  { rewrite E2. apply Rmult_le_compat_l; lra. }
  nra.
Qed.

Lemma Rfloor_ge_1 d : 1 <= d -> (1 <= Rfloor d)%Z.
Proof.
  intros H. pose proof (Rfloor_bounds d) as [_ K]. assert (L : (0 < Rfloor d)%Z); [|lia].
  apply lt_IZR. assert (IZR 0 < IZR (Rfloor d + 1) - 1 + 1 - 1 + 1) by (rewrite plus_IZR; lra).
  destruct (Z_lt_le_dec 0 (Rfloor d)) as [|G]; [now apply IZR_lt|].
  apply IZR_le in G. lra.
Qed.

Notation rpow := nonneg_pow.

Lemma fpow_rpow x d : 0 <= x -> 1 <= d -> fpow (Scalar := XR) (Fin x) (Fin d) = Fin (rpow x d).
Proof.
  intros Hx Hd. cbn [fpow XR xpow]. unfold nonneg_pow.
  pose proof (Rfloor_ge_1 d Hd) as Hf.
  destruct (Req_EM_T d (IZR (Rfloor d))) as [E|E].
  - destruct (Req_EM_T x 0) as [->|Nx].
    + destruct (Rlt_dec d 0); [lra|]. destruct (Rlt_dec 0 0); [lra|]. f_equal.
      destruct (Rfloor d) as [|q|q] eqn:EF; try lia. simpl. apply pow_i. lia.
    + destruct (Rlt_dec 0 x); [|lra]. f_equal. rewrite E at 2.
      apply powerRZ_Rpower. auto.
  - destruct (Rlt_dec 0 x); [reflexivity|]. destruct (Req_EM_T x 0); [|lra].
    destruct (Rlt_dec 0 d); [reflexivity|lra].
Qed.

Lemma rpow_nonneg x d : 0 <= rpow x d.
Proof. unfold nonneg_pow. destruct (Rlt_dec 0 x); [|lra]. unfold Rpower. left. apply exp_pos. Qed.
Lemma rpow_pos x d : 0 < x -> 0 < rpow x d.
Proof. intros H. unfold nonneg_pow. destruct (Rlt_dec 0 x); [|lra]. unfold Rpower. apply exp_pos. Qed.
Lemma rpow_bernoulli x d : 0 <= x -> 1 <= d -> 1 + d * (x - 1) <= rpow x d.
Proof.
  intros H Hd. unfold nonneg_pow. destruct (Rlt_dec 0 x); [now apply bernoulli|].
  assert (x = 0) by lra. subst. lra.
Qed.
Lemma rpow_mono x y d : 0 <= x -> x <= y -> 1 <= d -> rpow x d <= rpow y d.
Proof.
  intros Hx Hy Hd. unfold nonneg_pow. destruct (Rlt_dec 0 x), (Rlt_dec 0 y); try lra.
  - apply Rle_Rpower_l; lra.
  - unfold Rpower. left. apply exp_pos.
Qed.

(* ---------------- the acceleration ---------------- *)

Lemma feqb_m1 d : feqb (Scalar := XR) (Fin d) fm1 = Reqb d (-1).
Proof. now rewrite fm1_Fin, feqb_Fin. Qed.
Lemma feqb_0 d : feqb (Scalar := XR) (Fin d) f0 = Reqb d 0.
Proof. now rewrite f0_Fin, feqb_Fin. Qed.
Lemma Reqb_false a b : Reqb a b = false <-> a <> b.
Proof. unfold Reqb. destruct (Req_EM_T a b); split; try discriminate; auto; contradiction. Qed.

(** Interaction term of the real formula. *)
Definition interaction (s0 th a b v u d : R) : R :=
  if Req_EM_T d (-1) then 0 else if Req_EM_T u (-1) then 0
  else wanted_gap s0 th a b v u / effective_gap d.

Lemma wanted_gap_nonneg s0 th a b v u : 0 <= s0 -> 0 <= wanted_gap s0 th a b v u.
Proof. intros H. unfold wanted_gap. pose proof (Rmax_l 0 (v * th + v * (v - u) / (2 * sqrt (a * b)))). lra. Qed.
Lemma effective_gap_nz d : effective_gap d <> 0.
Proof. unfold effective_gap. destruct (Req_EM_T d 0); lra. Qed.
Lemma effective_gap_pos d : 0 <= d -> 0 < effective_gap d.
Proof. unfold effective_gap. destruct (Req_EM_T d 0); lra. Qed.

Lemma sqrt_ab_pos a b : 0 < a -> 0 < b -> 0 < sqrt (a * b).
Proof. intros. apply sqrt_lt_R0. nra. Qed.

Lemma idm_accel_real p v0 s0 th a b delta v u d :
  idm_real p v0 s0 th a b delta -> 0 <= v ->
  idm_accel (S := XR) p (Fin v) (Fin u) (Fin d)
  = Fin (a * (1 - rpow (v / v0) delta - interaction s0 th a b v u d * interaction s0 th a b v u d)).
Proof.
  intros [E1 E2 E3 E4 E5 E6 P1 P2 P3 P4 P5 P6] Hv.
  assert (Hq : 0 <= v / v0).
  { unfold Rdiv. apply Rmult_le_pos; auto. left. now apply Rinv_0_lt_compat. }
  assert (Pow : fpow (Scalar := XR) (fdiv (Scalar := XR) (Fin v) (Fin v0)) (Fin delta) = Fin (rpow (v / v0) delta)).
  { rewrite fdiv_Fin by lra. now apply fpow_rpow. }
  assert (Gap : desired_gap p (Fin v) (Fin u) = Fin (wanted_gap s0 th a b v u)).
  { unfold desired_gap. rewrite E2, E3, E4, E5. rewrite f2_Fin, f0_Fin, fmul_Fin, fmul_Fin, fsub_Fin, fmul_Fin.
    rewrite fsqrt_Fin by nra. rewrite fmul_Fin. pose proof (sqrt_ab_pos a b P4 P5).
    rewrite fdiv_Fin by lra. rewrite fadd_Fin, fmax_Fin, fadd_Fin. reflexivity. }
  assert (Eff : (if feqb (Scalar := XR) (Fin d) f0 then minimum_lead_distance (S := XR) else Fin d)
                = Fin (effective_gap d)).
  { rewrite feqb_0. unfold effective_gap, minimum_lead_distance, Reqb.
    destruct (Req_EM_T d 0); [rewrite flit_Fin; f_equal; lra|reflexivity]. }
  unfold idm_accel. cbv zeta.
  change (@F XR) with xr in *. rewrite Eff.
  rewrite E1, E4, E6, Pow.
  unfold default_lead_distance, default_lead_velocity. rewrite !feqb_m1. unfold interaction, Reqb.
  assert (Z0 : fdiv (Scalar := XR) f0 (Fin (effective_gap d)) = Fin 0).
  { rewrite f0_Fin, fdiv_Fin by apply effective_gap_nz. f_equal. field. apply effective_gap_nz. }
  destruct (Req_EM_T d (-1)); [|destruct (Req_EM_T u (-1))]; cbn [orb].
  - rewrite Z0, f1_Fin, fmul_Fin, fsub_Fin, fsub_Fin, fmul_Fin. reflexivity.
  - rewrite Z0, f1_Fin, fmul_Fin, fsub_Fin, fsub_Fin, fmul_Fin. reflexivity.
  - rewrite Gap. rewrite fdiv_Fin by apply effective_gap_nz.
    rewrite f1_Fin, fmul_Fin, fsub_Fin, fsub_Fin, fmul_Fin. reflexivity.
Qed.

Lemma next_speed_real v acc :
  next_speed (S := XR) default_time_delta (Fin v) (Fin acc) = Fin (Rmax 0 (v + acc / 10)).
Proof.
  unfold next_speed, default_time_delta. rewrite flit_Fin, fmul_Fin, fadd_Fin, f0_Fin, fltb_Fin.
  replace (v + 1 / 10 * acc) with (v + acc / 10) by lra.
  destruct (Rltb (v + acc / 10) 0) eqn:E; [apply Rltb_true in E|apply Rltb_false in E]; f_equal.
  - rewrite Rmax_left; lra.
  - rewrite Rmax_right; lra.
Qed.

(** The next speed as a real number. *)
Definition idm_next (v0 s0 th a b delta v u d : R) : R :=
  Rmax 0 (v + a * (1 - rpow (v / v0) delta
    - interaction s0 th a b v u d * interaction s0 th a b v u d) / 10).

Lemma idm_next_real p v0 s0 th a b delta v u d :
  idm_real p v0 s0 th a b delta -> 0 <= v ->
  next_speed (S := XR) default_time_delta (Fin v) (idm_accel p (Fin v) (Fin u) (Fin d))
  = Fin (idm_next v0 s0 th a b delta v u d).
Proof. intros H Hv. rewrite (idm_accel_real _ _ _ _ _ _ _ _ _ _ H Hv). apply next_speed_real. Qed.

Lemma idm_bounds p v0 s0 th a b delta v u d :
  idm_real p v0 s0 th a b delta -> 0 <= v ->
  exists r, next_speed (S := XR) default_time_delta (Fin v) (idm_accel p (Fin v) (Fin u) (Fin d)) = Fin r /\
    0 <= r <= v + a * (1 / 10).
Proof.
  intros H Hv. eexists. split; [now apply idm_next_real; eauto|].
  destruct H as [E1 E2 E3 E4 E5 E6 P1 P2 P3 P4 P5 P6]. unfold idm_next.
  pose proof (rpow_nonneg (v / v0) delta).
  set (q := interaction s0 th a b v u d). assert (0 <= q * q) by nra.
  split; [apply Rmax_l|]. apply Rmax_lub; [nra|]. nra.
Qed.

(** On a free road. *)
Lemma idm_free p v0 s0 th a b delta v u d :
  idm_real p v0 s0 th a b delta -> 0 <= v -> (d = -1 \/ u = -1) ->
  a * delta * (1 / 10) <= v0 ->
  exists r, next_speed (S := XR) default_time_delta (Fin v) (idm_accel p (Fin v) (Fin u) (Fin d)) = Fin r /\
    r <= Rmax v0 v /\ (v <= v0 -> v <= r <= v0) /\ (v0 <= v -> r <= v).
Proof.
  intros H Hv Hf Hs. eexists. split; [now apply idm_next_real; eauto|].
  destruct H as [E1 E2 E3 E4 E5 E6 P1 P2 P3 P4 P5 P6]. unfold idm_next.
  assert (I0 : interaction s0 th a b v u d = 0).
  { unfold interaction. destruct (Req_EM_T d (-1)); auto. destruct (Req_EM_T u (-1)); auto. lra. }
  rewrite I0. set (x := v / v0).
  assert (Hx : 0 <= x) by (unfold x, Rdiv; apply Rmult_le_pos; auto; left; now apply Rinv_0_lt_compat).
  assert (Ev : v = x * v0) by (unfold x; field; lra).
  pose proof (rpow_bernoulli x delta Hx P6) as B. pose proof (rpow_nonneg x delta) as N.
  assert (Lo : v <= v0 -> rpow x delta <= 1).
  { intros Hl. assert (x <= 1) by (apply (Rmult_le_reg_r v0); lra).
    pose proof (rpow_mono x 1 delta Hx H P6) as M. unfold nonneg_pow in M at 2.
    destruct (Rlt_dec 0 1); [|lra]. unfold Rpower in M. rewrite ln_1, Rmult_0_r, exp_0 in M. exact M. }
  assert (Hi : v <= v0 -> v + a * (1 - rpow x delta - 0 * 0) / 10 <= v0).
  { intros Hl. assert (x <= 1) by (apply (Rmult_le_reg_r v0); lra).
    assert (a * (1 - rpow x delta) <= a * (delta * (1 - x))) by (apply Rmult_le_compat_l; lra).
    assert (a * delta * (1 / 10) * (1 - x) <= v0 * (1 - x)) by (apply Rmult_le_compat_r; lra).
    nra. }
  assert (Up : v0 <= v -> v + a * (1 - rpow x delta - 0 * 0) / 10 <= v).
  { intros Hl. assert (1 <= x) by (apply (Rmult_le_reg_r v0); lra).
    assert (1 <= rpow x delta) by nra. nra. }
  split; [|split].
  - destruct (Rle_dec v v0) as [L|L].
    + rewrite (Rmax_left v0 v) by lra. apply Rmax_lub; [lra|]. auto.
    + rewrite (Rmax_right v0 v) by lra. apply Rmax_lub; [lra|]. apply Up. lra.
  - intros L. split.
    + assert (v <= v + a * (1 - rpow x delta - 0 * 0) / 10) by (specialize (Lo L); nra).
      eapply Rle_trans; [eassumption|]. apply Rmax_r.
    + apply Rmax_lub; [lra|]. auto.
  - intros L. apply Rmax_lub; [lra|]. auto.
Qed.

(** Behind a leader that is nearer than the wanted gap the speed falls. *)
Lemma idm_brakes p v0 s0 th a b delta v u d :
  idm_real p v0 s0 th a b delta -> 0 <= v -> 0 <= d -> 0 <= u ->
  effective_gap d <= wanted_gap s0 th a b v u ->
  exists r, next_speed (S := XR) default_time_delta (Fin v) (idm_accel p (Fin v) (Fin u) (Fin d)) = Fin r /\
    r <= v /\ (0 < v -> r < v).
Proof.
  intros H Hv Hd Hu Hg. eexists. split; [now apply idm_next_real; eauto|].
  destruct H as [E1 E2 E3 E4 E5 E6 P1 P2 P3 P4 P5 P6]. unfold idm_next.
  set (q := interaction s0 th a b v u d).
  assert (Hq : 1 <= q).
  { unfold q, interaction. destruct (Req_EM_T d (-1)); [lra|]. destruct (Req_EM_T u (-1)); [lra|].
    pose proof (effective_gap_pos d Hd). apply (Rmult_le_reg_r (effective_gap d)); auto.
    unfold Rdiv. rewrite Rmult_assoc, Rinv_l by lra. lra. }
  assert (Hqq : 1 <= q * q) by nra.
  assert (Hx : 0 < v -> 0 < v / v0).
  { intros Hp. unfold Rdiv. apply Rmult_lt_0_compat; auto. now apply Rinv_0_lt_compat. }
  pose proof (rpow_nonneg (v / v0) delta) as N.
  split.
  - apply Rmax_lub; auto. nra.
  - intros Hp. pose proof (rpow_pos (v / v0) delta (Hx Hp)).
    apply Rmax_lub_lt; auto. nra.
Qed.

(** A larger gap or a faster leader never lowers the speed. *)
Lemma interaction_mono s0 th a b v u u' d d' : 0 <= s0 -> 0 <= v -> 0 < a -> 0 < b ->
  0 <= u <= u' -> 0 < d <= d' -> 
  0 <= interaction s0 th a b v u' d' <= interaction s0 th a b v u d.
Proof.
  intros H0 Hv Ha Hb Hu Hd. unfold interaction.
  destruct (Req_EM_T d' (-1)); [lra|]. destruct (Req_EM_T u' (-1)); [lra|].
  destruct (Req_EM_T d (-1)); [lra|]. destruct (Req_EM_T u (-1)); [lra|].
  assert (W : wanted_gap s0 th a b v u' <= wanted_gap s0 th a b v u).
  { unfold wanted_gap. apply Rplus_le_compat_l. apply Rle_max_compat_l. apply Rplus_le_compat_l.
    pose proof (sqrt_ab_pos a b Ha Hb). unfold Rdiv. apply Rmult_le_compat_r.
    - left. apply Rinv_0_lt_compat. lra.
    - nra. }
  pose proof (wanted_gap_nonneg s0 th a b v u' H0) as W0.
  assert (G : effective_gap d <= effective_gap d' /\ 0 < effective_gap d).
  { unfold effective_gap. destruct (Req_EM_T d 0), (Req_EM_T d' 0); lra. }
  destruct G as [G1 G2].
  assert (I1 : 0 < / effective_gap d') by (apply Rinv_0_lt_compat; lra).
  assert (I2 : / effective_gap d' <= / effective_gap d) by (apply Rinv_le_contravar; lra).
  unfold Rdiv. split; [nra|]. apply Rmult_le_compat; lra.
Qed.

Lemma idm_monotone p v0 s0 th a b delta v u u' d d' :
  idm_real p v0 s0 th a b delta -> 0 <= v -> 0 <= u <= u' -> 0 < d <= d' ->
  exists r r',
    next_speed (S := XR) default_time_delta (Fin v) (idm_accel p (Fin v) (Fin u) (Fin d)) = Fin r /\
    next_speed (S := XR) default_time_delta (Fin v) (idm_accel p (Fin v) (Fin u') (Fin d')) = Fin r' /\
    r <= r'.
Proof.
  intros H Hv Hu Hd. eexists _, _. split; [now apply idm_next_real; eauto|].
  split; [now apply idm_next_real; eauto|].
  destruct H as [E1 E2 E3 E4 E5 E6 P1 P2 P3 P4 P5 P6]. unfold idm_next.
  pose proof (interaction_mono s0 th a b v u u' d d' P2 Hv P4 P5 Hu Hd) as [I1 I2].
  apply Rle_max_compat_l.
  set (q := interaction s0 th a b v u d) in *. set (q' := interaction s0 th a b v u' d') in *.
  assert (q' * q' <= q * q) by nra. nra.
Qed.

(** At zero speed nothing but the gap matters; with a gap above s0 the object starts. *)
Lemma idm_starts p v0 s0 th a b delta u d :
  idm_real p v0 s0 th a b delta -> 0 <= u -> s0 < d ->
  exists r, next_speed (S := XR) default_time_delta (Fin 0) (idm_accel p (Fin 0) (Fin u) (Fin d)) = Fin r /\
    0 < r.
Proof.
  intros H Hu Hd. eexists. split; [apply idm_next_real; eauto; lra|].
  destruct H as [E1 E2 E3 E4 E5 E6 P1 P2 P3 P4 P5 P6]. unfold idm_next.
  assert (R0 : rpow (0 / v0) delta = 0).
  { unfold nonneg_pow. replace (0 / v0) with 0 by (field; lra). destruct (Rlt_dec 0 0); lra. }
  rewrite R0.
  assert (I : interaction s0 th a b 0 u d = s0 / d).
  { unfold interaction. destruct (Req_EM_T d (-1)); [lra|]. destruct (Req_EM_T u (-1)); [lra|].
    unfold wanted_gap, effective_gap. destruct (Req_EM_T d 0); [lra|].
    pose proof (sqrt_ab_pos a b P4 P5).
    replace (0 * th + 0 * (0 - u) / (2 * sqrt (a * b))) with 0 by (field; lra).
    rewrite Rmax_left by lra. now rewrite Rplus_0_r. }
  rewrite I.
  assert (Q : 0 <= s0 / d < 1).
  { split.
    - unfold Rdiv. apply Rmult_le_pos; auto. left. apply Rinv_0_lt_compat. lra.
    - apply (Rmult_lt_reg_r d); [lra|]. unfold Rdiv. rewrite Rmult_assoc, Rinv_l by lra. lra. }
  eapply Rlt_le_trans; [|apply Rmax_r]. set (q := s0 / d) in *.
  assert (q * q < 1) by nra. nra.
Qed.
