(** C15: inverse actions respect the published action spec. *)
From Coq Require Import List ZArith Reals Lra Lia Bool.
From Verif.Lib Require Import Base JaxIndex Scalar XR.
From Verif.Model Require Import Operations State Dynamics BaseEnv Dyn_State Dyn_Delta Dyn_Bicycle Comfort.
From Verif.Spec Require Import StateSpec GeomSpec DynSpec.
From Verif.Proofs Require Import Core P_Actions P_Delta P_Bicycle.
From Verif.Props Require Import ExR.
Import ListNotations.
Open Scope R_scope.

(** For every pair of consecutive finite frames, valid or not, the inverse action
    of each object lies within the published bounds, is valid exactly when both
    frames are, and is zero when it is not. *)
Theorem C15_delta_global_in_spec n T tr ms (t : nat) dt mx my myaw acts i p0 p1 k0 k1 :
  0 <= mx -> 0 <= my -> PI <= myaw -> rect n T tr -> (t + 1 < T)%nat -> (i < n)%nat ->
  d_inverse (DeltaGlobal (dparams dt mx my myaw)) tr ms (Z.of_nat t) = Ok acts ->
  at2 tr i t = Some p0 -> at2 tr i (t + 1) = Some p1 -> has_kin p0 k0 -> has_kin p1 k1 ->
  exists a, nth_error acts i = Some a /\
    in_spec (delta_spec (dparams dt mx my myaw)) (a_data a) /\
    a_valid a = p_valid p0 && p_valid p1 /\
    (a_valid a = false -> a_data a = [Fin 0; Fin 0; Fin 0]).
Proof. exact (spec_delta_global n T tr ms t dt mx my myaw acts i p0 p1 k0 k1). Qed.

Theorem C15_delta_local_in_spec n T tr ms (t : nat) dt mx my myaw acts i p0 p1 k0 k1 :
  0 <= mx -> 0 <= my -> PI <= myaw -> rect n T tr -> (t + 1 < T)%nat -> (i < n)%nat ->
  d_inverse (DeltaLocal (dparams dt mx my myaw)) tr ms (Z.of_nat t) = Ok acts ->
  at2 tr i t = Some p0 -> at2 tr i (t + 1) = Some p1 -> has_kin p0 k0 -> has_kin p1 k1 ->
  exists a, nth_error acts i = Some a /\
    in_spec (delta_spec (dparams dt mx my myaw)) (a_data a) /\
    a_valid a = p_valid p0 && p_valid p1 /\
    (a_valid a = false -> a_data a = [Fin 0; Fin 0; Fin 0]).
Proof. exact (spec_delta_local n T tr ms t dt mx my myaw acts i p0 p1 k0 k1). Qed.

Theorem C15_bicycle_in_spec n T tr metas (t : nat) dt ma ms (nrm : bool) acts i p0 p1 k0 k1 :
  0 < dt -> 0 < ma -> 0 < ms -> rect n T tr -> (t + 1 < T)%nat -> (i < n)%nat ->
  d_inverse (InvertibleBicycleModel (bparams dt ma ms nrm)) tr metas (Z.of_nat t) = Ok acts ->
  at2 tr i t = Some p0 -> at2 tr i (t + 1) = Some p1 -> has_kin p0 k0 -> has_kin p1 k1 ->
  exists a, nth_error acts i = Some a /\
    in_spec (bicycle_spec (bparams dt ma ms nrm)) (a_data a) /\
    a_valid a = p_valid p0 && p_valid p1 /\
    (a_valid a = false -> a_data a = [Fin 0; Fin 0]).
Proof. exact (spec_bicycle n T tr metas t dt ma ms nrm acts i p0 p1 k0 k1). Qed.

Theorem C15_state_in_spec n T (tr : traj (S := XR)) ms (t : nat) acts i p k :
  rect n T tr -> (t + 1 < T)%nat -> (i < n)%nat ->
  d_inverse StateDynamics tr ms (Z.of_nat t) = Ok acts ->
  at2 tr i (t + 1) = Some p -> has_kin p k ->
  exists a, nth_error acts i = Some a /\ in_spec state_spec (a_data a) /\ a_valid a = p_valid p.
Proof. exact (spec_state n T tr ms t acts i p k). Qed.

(** A yaw limit below PI is published by action_spec but never enforced. *)
Theorem C15_yaw_limit_refuted dt mx my myaw :
  0 <= mx -> 0 <= my -> 0 <= myaw < PI ->
  exists (p0 p1 : pt (S := XR)) k0 k1 ag al, has_kin p0 k0 /\ has_kin p1 k1 /\
    p_valid p0 = true /\ p_valid p1 = true /\
    d_inverse (DeltaGlobal (dparams dt mx my myaw)) [[p0; p1]] [] 0 = Ok [ag] /\
    d_inverse (DeltaLocal (dparams dt mx my myaw)) [[p0; p1]] [] 0 = Ok [al] /\
    ~ in_spec (delta_spec (dparams dt mx my myaw)) (a_data ag) /\
    ~ in_spec (delta_spec (dparams dt mx my myaw)) (a_data al).
Proof. exact (spec_yaw_refuted dt mx my myaw). Qed.

(** The defaults satisfy the hypotheses. *)
Example C15_defaults :
  delta_default = dparams (1 / 10) (6 / 1) (6 / 1) PI /\ 0 <= 6 / 1 /\ PI <= PI /\
  bicycle_default = bparams (1 / 10) (6 / 1) (3 / 10) false.
Proof. split; [reflexivity|]. split; [lra|]. split; [lra|reflexivity]. Qed.

(** A displacement far outside the limits is clipped into them. *)
Example C15_ex :
  let tr := [[rpt 0 10; rpt 100 10]] in
  rect 1 2 tr /\ (0 + 1 < 2)%nat /\ at2 tr 0 0 = Some (rpt 0 10) /\ at2 tr 0 (0 + 1) = Some (rpt 100 10) /\
  has_kin (rpt 0 10) (rkin 0 10) /\ has_kin (rpt 100 10) (rkin 100 10) /\
  (exists acts, d_inverse (DeltaGlobal (dparams (1 / 10) 6 6 PI)) tr [] (Z.of_nat 0) = Ok acts) /\
  (exists acts, d_inverse (DeltaLocal (dparams (1 / 10) 6 6 PI)) tr [] (Z.of_nat 0) = Ok acts) /\
  (exists acts, d_inverse (InvertibleBicycleModel (bparams (1 / 10) 6 (3 / 10) true)) tr [] (Z.of_nat 0) = Ok acts) /\
  (exists acts, d_inverse (S := XR) StateDynamics tr [] (Z.of_nat 0) = Ok acts).
Proof.
  cbv zeta. split; [split; [reflexivity | intros r [<-|[]]; reflexivity]|].
  split; [lia|]. split; [reflexivity|]. split; [reflexivity|].
  split; [apply rpt_kin|]. split; [apply rpt_kin|].
  repeat split; eexists; reflexivity.
Qed.

Print Assumptions C15_delta_global_in_spec.
Print Assumptions C15_delta_local_in_spec.
Print Assumptions C15_bicycle_in_spec.
Print Assumptions C15_state_in_spec.
Print Assumptions C15_yaw_limit_refuted.
