(** C41: speeds chosen by the IDM route policy. *)
From Coq Require Import List ZArith Reals Lra Lia Bool.
From Verif.Lib Require Import Base JaxIndex Scalar XR.
From Verif.Model Require Import Operations State Dynamics Geometry Discretizer Metrics Waypoint.
From Verif.Props Require Import ExR.
From Verif.Spec Require Import StateSpec GeomSpec WaypointSpec.
From Verif.Proofs Require Import P_Metrics P_IDM P_Lead P_IDMRun.
From Verif.Props Require Import ExW.
Import ListNotations.
Open Scope R_scope.

(** The policy gives every object a speed, whenever the logged trajectories are long
    enough for the lookahead (with the default parameters: always). *)
Theorem C41_speed_total n T (p : idm_params (S := XR)) s :
  wf_state (S := XR) n T s ->
  lookahead_from_current_position p = true \/ (max_lookahead p <= T)%nat ->
  exists sv, idm_update_speed p s = Ok sv /\ length sv = n.
Proof. exact (idm_update_total n T p s). Qed.

(** Whatever the rest of the scene contains (also infinities and NaNs), a valid object
    of real speed v gets a real speed between 0 and v + max_accel * 0.1 s. *)
Theorem C41_speed_bounds p v0 s0 th a b delta s cur sv i x ok me vx vy :
  idm_real p v0 s0 th a b delta ->
  idm_update_speed (S := XR) p s = Ok sv -> current_sim s = Ok cur ->
  nth_error sv i = Some (x, ok) -> nth_error cur i = Some me ->
  p_valid me = true -> p_vx me = Fin vx -> p_vy me = Fin vy ->
  exists r, x = Fin r /\ 0 <= r <= sqrt (vx * vx + vy * vy) + a * (1 / 10).
Proof. exact (idm_speed_bounds p v0 s0 th a b delta s cur sv i x ok me vx vy). Qed.

(** The speed is exactly the one of the published car-following law for the leader of
    the scene, cut at 0. *)
Theorem C41_speed_law p v0 s0 th a b delta D s cur sv i me f :
  idm_real p v0 s0 th a b delta ->
  lookahead_from_current_position p = true -> additional_lookahead_distance p = Fin D -> 0 <= D ->
  idm_update_speed (S := XR) p s = Ok sv -> current_sim s = Ok cur ->
  (forall j q, nth_error cur j = Some q -> p_valid q = true -> exists g, is_frame q g) ->
  nth_error cur i = Some me -> p_valid me = true -> is_frame me f ->
  exists u d, leader cur D (additional_headway_points p) i u d /\
    nth_error sv i = Some (Fin (Rmax 0 (rspeed f + (1 / 10) * idm_law v0 s0 th a b delta (rspeed f) u d)), true).
Proof. exact (idm_exact p v0 s0 th a b delta D s cur sv i me f). Qed.

(** On a free road the speed never passes the larger of the desired and the current
    speed; below the desired speed it does not fall, above it it does not rise.  The
    step must be short enough: 0.1 * max_accel * delta <= desired speed (0.8 <= 30 for
    the defaults). *)
Theorem C41_free_road p v0 s0 th a b delta D s cur sv i me f :
  idm_real p v0 s0 th a b delta ->
  lookahead_from_current_position p = true -> additional_lookahead_distance p = Fin D -> 0 <= D ->
  idm_update_speed (S := XR) p s = Ok sv -> current_sim s = Ok cur ->
  (forall j q, nth_error cur j = Some q -> p_valid q = true -> exists g, is_frame q g) ->
  nth_error cur i = Some me -> p_valid me = true -> is_frame me f ->
  (forall j k, ~ in_the_way cur D (additional_headway_points p) i j k) ->
  a * delta * (1 / 10) <= v0 ->
  exists r, nth_error sv i = Some (Fin r, true) /\
    r <= Rmax v0 (rspeed f) /\ (rspeed f <= v0 -> rspeed f <= r <= v0) /\ (v0 <= rspeed f -> r <= rspeed f).
Proof. exact (idm_free_road p v0 s0 th a b delta D s cur sv i me f). Qed.

(** When the first blocked check point is not farther than the wanted gap the object
    brakes (or stays stopped). *)
Theorem C41_brakes_inside_wanted_gap p v0 s0 th a b delta D s cur sv i me f :
  idm_real p v0 s0 th a b delta ->
  lookahead_from_current_position p = true -> additional_lookahead_distance p = Fin D -> 0 <= D ->
  idm_update_speed (S := XR) p s = Ok sv -> current_sim s = Ok cur ->
  (forall j q, nth_error cur j = Some q -> p_valid q = true -> exists g, is_frame q g) ->
  nth_error cur i = Some me -> p_valid me = true -> is_frame me f ->
  forall k0 u, first_hit (in_the_way cur D (additional_headway_points p) i) k0 ->
    smallest (fun j => in_the_way cur D (additional_headway_points p) i j k0)
      (fun j r => exists q g, nth_error cur j = Some q /\ is_frame q g /\ r = rspeed g) u ->
    effective_gap (D * INR k0 / INR (additional_headway_points p)) <= wanted_gap s0 th a b (rspeed f) u ->
    exists r, nth_error sv i = Some (Fin r, true) /\ r <= rspeed f /\ (0 < rspeed f -> r < rspeed f).
Proof. exact (idm_blocked p v0 s0 th a b delta D s cur sv i me f). Qed.

(** A larger gap and a faster leader never lead to a lower speed. *)
Theorem C41_monotone p v0 s0 th a b delta v u u' d d' :
  idm_real p v0 s0 th a b delta -> 0 <= v -> 0 <= u <= u' -> 0 < d <= d' ->
  exists r r',
    next_speed (S := XR) default_time_delta (Fin v) (idm_accel p (Fin v) (Fin u) (Fin d)) = Fin r /\
    next_speed (S := XR) default_time_delta (Fin v) (idm_accel p (Fin v) (Fin u') (Fin d')) = Fin r' /\
    r <= r'.
Proof. exact (idm_monotone p v0 s0 th a b delta v u u' d d'). Qed.

(** A stopped object whose leader is farther than the minimum spacing starts moving. *)
Theorem C41_starts p v0 s0 th a b delta u d :
  idm_real p v0 s0 th a b delta -> 0 <= u -> s0 < d ->
  exists r, next_speed (S := XR) default_time_delta (Fin 0) (idm_accel p (Fin 0) (Fin u) (Fin d)) = Fin r /\
    0 < r.
Proof. exact (idm_starts p v0 s0 th a b delta u d). Qed.

(* ---------------- examples ---------------- *)

(** A car at 10 m/s, a stopped car 8 m in front of it. *)
Definition queue := [(0, 10); (8, 0)].

Lemma queue_leader u d : leader (cars queue) 10 10 0 u d -> u = 0 /\ 0 <= d <= 5.
Proof.
  intros [(Hn & _)|(k0 & ((j & Hj) & Hb) & -> & ((j1 & Hj1 & (q & g & Hq & Hg & ->)) & _))].
  - destruct (Hn 1%nat 5%nat). apply (scene_in_the_way queue 10 10 0 1 5 0 10 8 0 eq_refl eq_refl).
    simpl INR. repeat split; try lia. apply Rabs_def1; lra.
  - assert (Hk : (k0 <= 5)%nat).
    { destruct (Nat.le_gt_cases k0 5); auto. destruct (Hb 5%nat 1%nat); auto.
      apply (scene_in_the_way queue 10 10 0 1 5 0 10 8 0 eq_refl eq_refl).
      simpl INR. repeat split; try lia. apply Rabs_def1; lra. }
    split.
    + pose proof Hj1 as (_ & Nj & _). destruct j1 as [|[|j1]]; [congruence| |destruct j1; discriminate].
      cbn in Hq. apply Some_inj in Hq. subst q. rewrite (is_frame_inj _ _ _ Hg (rpt_frame 8 0)).
      apply wframe_speed. lra.
    + apply le_INR in Hk. pose proof (pos_INR k0). simpl INR in *. lra.
Qed.

Lemma queue_update : exists sv, idm_update_speed (S := XR) default_idm (scene queue) = Ok sv.
Proof.
  destruct (C41_speed_total 2 1 default_idm (scene queue)) as (sv & H & _); eauto.
  apply (scene_wf queue). discriminate.
Qed.

(** The policy's max_decel does not bound its deceleration: this car, with
    max_decel = 4 m/s^2, loses more than 3.6 m/s in 0.1 s. *)
Theorem C41_max_decel_bounds_braking_refuted : exists (s : state (S := XR)) cur sv me f r,
  idm_update_speed default_idm s = Ok sv /\ current_sim s = Ok cur /\
  nth_error cur 0 = Some me /\ p_valid me = true /\ is_frame me f /\
  nth_error sv 0 = Some (Fin r, true) /\ max_decel (S := XR) default_idm = Fin 4 /\
  4 * (1 / 10) < rspeed f - r.
Proof.
  destruct queue_update as [sv H].
  destruct (C41_speed_law default_idm 30 2 2 2 4 4 10 (scene queue) (cars queue) sv 0 (rpt 0 10) (wframe 0 10))
    as (u & d & Ld & E); auto using default_idm_real, default_idm_distance, scene_cur, rpt_frame; try lra.
  { apply cars_frames. }
  exists (scene queue), (cars queue), sv, (rpt 0 10), (wframe 0 10). eexists.
  split; [exact H|]. split; [apply scene_cur|]. split; [reflexivity|]. split; [reflexivity|].
  split; [apply rpt_frame|]. split; [exact E|]. split; [apply default_idm_real|].
  apply queue_leader in Ld as [-> Hd]. rewrite wframe_speed by lra.
  unfold idm_law. destruct (Req_EM_T d (-1)); [lra|]. cbv zeta.
  assert (G : 0 < effective_gap d <= 5) by (unfold effective_gap; destruct (Req_EM_T d 0); lra).
  assert (W : 22 <= wanted_gap 2 2 2 4 10 0).
  { unfold wanted_gap. pose proof (sqrt_ab_pos 2 4 ltac:(lra) ltac:(lra)) as Sq.
    assert (0 <= 10 * (10 - 0) / (2 * sqrt (2 * 4))).
    { unfold Rdiv. apply Rmult_le_pos; [lra|]. left. apply Rinv_0_lt_compat. lra. }
    pose proof (Rmax_r 0 (10 * 2 + 10 * (10 - 0) / (2 * sqrt (2 * 4)))). lra. }
  assert (Q : 44 / 10 <= wanted_gap 2 2 2 4 10 0 / effective_gap d).
  { apply (Rmult_le_reg_r (effective_gap d)); [lra|]. unfold Rdiv at 2.
    rewrite Rmult_assoc, Rinv_l by lra. lra. }
  set (q := wanted_gap 2 2 2 4 10 0 / effective_gap d) in *.
  pose proof (rpow_nonneg (10 / 30) 4) as Pw.
  assert (q * q >= 19) by nra.
  assert (Rmax 0 (10 + 1 / 10 * (2 * (1 - nonneg_pow (10 / 30) 4 - q * q))) <= 7); [|lra].
  apply Rmax_lub; lra.
Qed.

(** Non-vacuity of the free-road theorem: the other car is 50 m away; of the braking
    theorem: the car above. *)
Example C41_free_road_example :
  let l := [(0, 10); (50, 0)] in
  exists sv r, idm_update_speed (S := XR) default_idm (scene l) = Ok sv /\
    nth_error sv 0 = Some (Fin r, true) /\ 10 <= r <= 30.
Proof.
  intros l. destruct (C41_speed_total 2 1 default_idm (scene l)) as (sv & H & _); auto.
  { apply (scene_wf l). discriminate. }
  destruct (C41_free_road default_idm 30 2 2 2 4 4 10 (scene l) (cars l) sv 0 (rpt 0 10) (wframe 0 10))
    as (r & E & _ & K & _); auto using default_idm_real, default_idm_distance, scene_cur, rpt_frame; try lra.
  { apply cars_frames. }
  { intros j k Hk. pose proof Hk as (Lk & Nj & pi & pj & fi & fj & _ & Ej & _).
    destruct j as [|[|j]]; [congruence| |destruct j; discriminate].
    apply (scene_in_the_way l 10 10 0 1 k 0 10 50 0 eq_refl eq_refl) in Hk as (_ & _ & Hk).
    apply Rabs_def2 in Hk. cbn [additional_headway_points default_idm] in Lk.
    apply le_INR in Lk. simpl INR in *. lra. }
  exists sv, r. split; auto. split; auto. rewrite wframe_speed in K by lra. apply K. lra.
Qed.

Example C41_brakes_example : exists sv r,
  idm_update_speed (S := XR) default_idm (scene queue) = Ok sv /\
  nth_error sv 0 = Some (Fin r, true) /\ r < 10.
Proof.
  destruct queue_update as [sv H]. exists sv.
  assert (W5 : in_the_way (cars queue) 10 10 0 1 5).
  { apply (scene_in_the_way queue 10 10 0 1 5 0 10 8 0 eq_refl eq_refl).
    simpl INR. repeat split; try lia. apply Rabs_def1; lra. }
  destruct (C41_brakes_inside_wanted_gap default_idm 30 2 2 2 4 4 10 (scene queue) (cars queue) sv 0 (rpt 0 10) (wframe 0 10))
    with (k0 := 5%nat) (u := 0) as (r & E & _ & K);
    auto using default_idm_real, default_idm_distance, scene_cur, rpt_frame; try lra.
  - apply cars_frames.
  - split; [eauto|]. intros t j Ht Hj. pose proof Hj as (_ & Nj & pi & pj & fi & fj & _ & Ej & _).
    destruct j as [|[|j]]; [congruence| |destruct j; discriminate].
    apply (scene_in_the_way queue 10 10 0 1 t 0 10 8 0 eq_refl eq_refl) in Hj as (_ & _ & Hj).
    apply Rabs_def2 in Hj. assert (Ht' : (t <= 4)%nat) by lia. apply le_INR in Ht'. simpl INR in *. lra.
  - split.
    + exists 1%nat. split; auto. exists (rpt 8 0), (wframe 8 0). split; [reflexivity|]. split; [apply rpt_frame|].
      rewrite wframe_speed; lra.
    + intros j r Hj (q & g & _ & _ & ->). apply rspeed_nonneg.
  - rewrite wframe_speed by lra. unfold effective_gap, wanted_gap. cbn [additional_headway_points default_idm].
    simpl INR. destruct (Req_EM_T _ 0); [lra|].
    pose proof (Rmax_r 0 (10 * 2 + 10 * (10 - 0) / (2 * sqrt (2 * 4)))).
    pose proof (sqrt_ab_pos 2 4 ltac:(lra) ltac:(lra)) as Sq.
    assert (0 <= 10 * (10 - 0) / (2 * sqrt (2 * 4))).
    { unfold Rdiv. apply Rmult_le_pos; [lra|]. left. apply Rinv_0_lt_compat. lra. }
    lra.
  - rewrite wframe_speed in K by lra. exists r. repeat split; auto. apply K. lra.
Qed.

Print Assumptions C41_speed_total.
Print Assumptions C41_speed_bounds.
Print Assumptions C41_speed_law.
Print Assumptions C41_free_road.
Print Assumptions C41_brakes_inside_wanted_gap.
Print Assumptions C41_monotone.
Print Assumptions C41_starts.
Print Assumptions C41_max_decel_bounds_braking_refuted.
