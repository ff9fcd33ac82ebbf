(** C14: the delta models invert their own motion. *)
From Coq Require Import List ZArith Reals Lra Lia Bool.
From Verif.Lib Require Import Base JaxIndex Scalar XR.
From Verif.Model Require Import Operations State Dynamics BaseEnv Dyn_State Dyn_Delta.
From Verif.Spec Require Import StateSpec GeomSpec DynSpec.
From Verif.Proofs Require Import Core P_Delta.
From Verif.Props Require Import ExR.
Import ListNotations.
Open Scope R_scope.

(** DeltaGlobal: taking the inverse action between frames t and t+1 and applying
    it to frame t moves the object by the displacement limited per axis, turns it
    to the heading of frame t+1 (modulo whole turns) and gives it the velocity
    displacement / dt. *)
Theorem C14_delta_global_inverse_then_forward
  n T tr ms (t : nat) dt mx my myaw acts cur us i p0 p1 k0 k1 :
  dt <> 0 -> 0 <= mx -> 0 <= my -> rect n T tr -> (t + 1 < T)%nat -> (i < n)%nat ->
  d_inverse (DeltaGlobal (dparams dt mx my myaw)) tr ms (Z.of_nat t) = Ok acts ->
  dynamic_index tr (Z.of_nat t) = Ok cur ->
  d_update (DeltaGlobal (dparams dt mx my myaw)) acts cur = Ok us ->
  at2 tr i t = Some p0 -> at2 tr i (t + 1) = Some p1 ->
  has_kin p0 k0 -> has_kin p1 k1 -> p_valid p0 = true -> p_valid p1 = true ->
  let ex := clamp (- mx) mx (kx k1 - kx k0) in
  let ey := clamp (- my) my (ky k1 - ky k0) in
  exists u k, nth_error us i = Some u /\ upd_kin u k /\ u_valid u = true /\
    kx k = kx k0 + ex /\ ky k = ky k0 + ey /\ same_angle (kyaw k) (kyaw k1) /\
    kvx k = ex / dt /\ kvy k = ey / dt.
Proof. exact (global_invert n T tr ms t dt mx my myaw acts cur us i p0 p1 k0 k1). Qed.

(** Hence exact recovery of the next pose when the displacement is within the
    limits. *)
Theorem C14_delta_global_exact
  n T tr ms (t : nat) dt mx my myaw acts cur us i p0 p1 k0 k1 :
  dt <> 0 -> 0 <= mx -> 0 <= my -> rect n T tr -> (t + 1 < T)%nat -> (i < n)%nat ->
  d_inverse (DeltaGlobal (dparams dt mx my myaw)) tr ms (Z.of_nat t) = Ok acts ->
  dynamic_index tr (Z.of_nat t) = Ok cur ->
  d_update (DeltaGlobal (dparams dt mx my myaw)) acts cur = Ok us ->
  at2 tr i t = Some p0 -> at2 tr i (t + 1) = Some p1 ->
  has_kin p0 k0 -> has_kin p1 k1 -> p_valid p0 = true -> p_valid p1 = true ->
  Rabs (kx k1 - kx k0) <= mx -> Rabs (ky k1 - ky k0) <= my ->
  exists u k, nth_error us i = Some u /\ upd_kin u k /\ u_valid u = true /\
    kx k = kx k1 /\ ky k = ky k1 /\ same_angle (kyaw k) (kyaw k1) /\
    kvx k = (kx k1 - kx k0) / dt /\ kvy k = (ky k1 - ky k0) / dt.
Proof. exact (global_exact n T tr ms t dt mx my myaw acts cur us i p0 p1 k0 k1). Qed.

(** DeltaLocal: exact recovery when the displacement is within the limits in both
    the global frame and the frame of the vehicle (the code clips in both). *)
Theorem C14_delta_local_exact
  n T tr ms (t : nat) dt mx my myaw acts cur us i p0 p1 k0 k1 :
  dt <> 0 -> 0 <= mx -> 0 <= my -> rect n T tr -> (t + 1 < T)%nat -> (i < n)%nat ->
  d_inverse (DeltaLocal (dparams dt mx my myaw)) tr ms (Z.of_nat t) = Ok acts ->
  dynamic_index tr (Z.of_nat t) = Ok cur ->
  d_update (DeltaLocal (dparams dt mx my myaw)) acts cur = Ok us ->
  at2 tr i t = Some p0 -> at2 tr i (t + 1) = Some p1 ->
  has_kin p0 k0 -> has_kin p1 k1 -> p_valid p0 = true -> p_valid p1 = true ->
  let dx := kx k1 - kx k0 in
  let dy := ky k1 - ky k0 in
  Rabs dx <= mx -> Rabs dy <= my ->
  Rabs (cos (kyaw k0) * dx + sin (kyaw k0) * dy) <= mx ->
  Rabs (- sin (kyaw k0) * dx + cos (kyaw k0) * dy) <= my ->
  exists u k, nth_error us i = Some u /\ upd_kin u k /\ u_valid u = true /\
    kx k = kx k1 /\ ky k = ky k1 /\ same_angle (kyaw k) (kyaw k1) /\
    kvx k = dx / dt /\ kvy k = dy / dt.
Proof. exact (local_invert n T tr ms t dt mx my myaw acts cur us i p0 p1 k0 k1). Qed.

(** The extra clipping in the global frame matters: a displacement within the
    limits in the vehicle's own frame need not be recovered. *)
Theorem C14_local_frame_limits_alone_refuted :
  exists (p0 p1 : pt (S := XR)) k0 k1 u,
    has_kin p0 k0 /\ has_kin p1 k1 /\ p_valid p0 = true /\ p_valid p1 = true /\
    let dx := kx k1 - kx k0 in
    let dy := ky k1 - ky k0 in
    Rabs (cos (kyaw k0) * dx + sin (kyaw k0) * dy) <= 6 /\
    Rabs (- sin (kyaw k0) * dx + cos (kyaw k0) * dy) <= 1 /\
    d_inverse (DeltaLocal (dparams (1 / 10) 6 1 PI)) [[p0; p1]] [] 0
      = Ok [delta_local_inverse1 (dparams (1 / 10) 6 1 PI) p0 p1 p0] /\
    d_update (DeltaLocal (dparams (1 / 10) 6 1 PI))
      [delta_local_inverse1 (dparams (1 / 10) 6 1 PI) p0 p1 p0] [p0] = Ok [u] /\
    u_y u <> p_y p1.
Proof. exact local_limits_refuted. Qed.

Example C14_ex :
  let tr := [[rpt 0 10; rpt 1 10; rpt 2 10]] in
  let d := DeltaGlobal (dparams (1 / 10) 6 6 PI) in
  rect 1 3 tr /\ (exists acts cur us, d_inverse d tr [] 1 = Ok acts /\
    dynamic_index tr 1 = Ok cur /\ d_update d acts cur = Ok us) /\
  at2 tr 0 1 = Some (rpt 1 10) /\ at2 tr 0 2 = Some (rpt 2 10) /\
  Rabs (kx (rkin 2 10) - kx (rkin 1 10)) <= 6 /\ Rabs (ky (rkin 2 10) - ky (rkin 1 10)) <= 6.
Proof.
  cbv zeta. split; [split; [reflexivity | intros r [<-|[]]; reflexivity]|].
  split; [do 3 eexists; repeat split; reflexivity|]. split; [reflexivity|]. split; [reflexivity|].
  simpl. split; apply Rabs_le; lra.
Qed.

Example C14_ex_local :
  let tr := [[rpt 0 10; rpt 1 10; rpt 2 10]] in
  let d := DeltaLocal (dparams (1 / 10) 6 6 PI) in
  (exists acts cur us, d_inverse d tr [] 1 = Ok acts /\
    dynamic_index tr 1 = Ok cur /\ d_update d acts cur = Ok us) /\
  Rabs (cos 0 * (2 - 1) + sin 0 * (0 - 0)) <= 6 /\ Rabs (- sin 0 * (2 - 1) + cos 0 * (0 - 0)) <= 6.
Proof.
  cbv zeta. split; [do 3 eexists; repeat split; reflexivity|].
  rewrite cos_0, sin_0. split; apply Rabs_le; lra.
Qed.

Print Assumptions C14_delta_global_inverse_then_forward.
Print Assumptions C14_delta_global_exact.
Print Assumptions C14_delta_local_exact.
Print Assumptions C14_local_frame_limits_alone_refuted.
