(** C17: the bicycle model recovers the action that was applied. *)
From Coq Require Import List ZArith Reals Lra Lia Bool.
From Verif.Lib Require Import Base JaxIndex Scalar XR.
From Verif.Model Require Import Operations State Dynamics BaseEnv Dyn_State Dyn_Delta Dyn_Bicycle Comfort.
From Verif.Spec Require Import StateSpec GeomSpec DynSpec.
From Verif.Proofs Require Import Core P_Actions P_Delta P_Bicycle.
From Verif.Props Require Import ExR.
Import ListNotations.
Open Scope R_scope.

(** Apply an in-range action to a present, controlled object, then invert the two
    frames of the simulated trajectory: the action comes back exactly, if the
    object moves at 0.6 m/s or more before and after, and turns by less than half
    a turn. *)
Theorem C17_bicycle_recovers_action dt ma ms (nrm : bool) n T c s acts s' mask (t : nat) i
  (a : act (S := XR)) p k0 ra rs metas inv :
  0 < dt -> 0 < ma -> 0 < ms ->
  wf_state n T s -> env_step (InvertibleBicycleModel (bparams dt ma ms nrm)) c s acts = Ok s' ->
  env_control_mask s c = Ok mask -> s_t s = Z.of_nat t -> (t + 1 < T)%nat ->
  nth_error mask i = Some true -> nth_error acts i = Some a ->
  a_data a = [Fin ra; Fin rs] ->
  at2 (s_sim s) i t = Some p -> p_valid p = true -> has_kin p k0 ->
  let acc := if nrm then ra * ma else ra in
  let st := if nrm then rs * ms else rs in
  Rabs acc <= ma -> Rabs st <= ms ->
  6 / 10 <= speed k0 -> 6 / 10 <= speed k0 + acc * dt ->
  - PI <= st * (speed k0 * dt + 1 / 2 * acc * (dt * dt)) < PI ->
  d_inverse (InvertibleBicycleModel (bparams dt ma ms nrm)) (s_sim s') metas (Z.of_nat t) = Ok inv ->
  nth_error inv i = Some (mkact [Fin ra; Fin rs] true).
Proof. exact (recover_action dt ma ms nrm n T c s acts s' mask t i a p k0 ra rs metas inv). Qed.

(** Below 0.6 m/s the steering is not recovered: zero is reported. *)
Theorem C17_no_steering_at_low_speed dt ma ms p0 p1 k0 k1 :
  dt <> 0 -> 0 <= ma -> 0 <= ms -> has_kin p0 k0 -> has_kin p1 k1 ->
  speed k0 < 6 / 10 \/ speed k1 < 6 / 10 -> p_valid p0 = true -> p_valid p1 = true ->
  bicycle_inverse_action (bparams dt ma ms false) p0 p1
  = mkact [Fin (clamp (- ma) ma ((speed k1 - speed k0) / dt)); Fin 0] true.
Proof. exact (recover_low dt ma ms p0 p1 k0 k1). Qed.

Example C17_ex : exists s' inv,
  env_step (InvertibleBicycleModel (bparams (1 / 10) 6 (3 / 10) false)) rcfg rstart
    [mkact (S := XR) [Fin 2; Fin (1 / 10)] true] = Ok s' /\
  d_inverse (InvertibleBicycleModel (bparams (1 / 10) 6 (3 / 10) false)) (s_sim s') [] 0 = Ok inv /\
  nth_error inv 0 = Some (mkact [Fin 2; Fin (1 / 10)] true).
Proof.
  destruct (env_step_total 1 3 (InvertibleBicycleModel (bparams (1 / 10) 6 (3 / 10) false)) rcfg rstart
    [mkact (S := XR) [Fin 2; Fin (1 / 10)] true] (fun a => (2 <= length (a_data a))%nat) rstart_wf) as [s' H];
    [discriminate | apply bicycle_total | reflexivity | repeat constructor |].
  destruct (step_keeps 1 3 _ _ _ _ _ _ 0 0 (rpt 0 10) rstart_wf H rmask) as (W & _);
    [reflexivity | lia | reflexivity | reflexivity |].
  destruct (bicycle_inverse_Ok (bparams (1 / 10) 6 (3 / 10) false) 1 3 (s_sim s') [] 0) as (inv & HI & _);
    [apply W | lia |].
  exists s', inv. split; [exact H|]. split; [exact HI|].
  assert (3 < PI) by (pose proof PI_4; pose proof (PI2_3_2); lra).
  eapply (C17_bicycle_recovers_action (1 / 10) 6 (3 / 10) false 1 3 rcfg rstart) with (k0 := rkin 0 10);
    try (exact HI) ; try (exact H); try reflexivity; try lra; try lia;
    [exact rstart_wf | apply rpt_kin | | | | |].
  - rewrite Rabs_pos_eq; lra.
  - rewrite Rabs_pos_eq; lra.
  - rewrite rspeed; lra.
  - rewrite rspeed; lra.
  - rewrite rspeed; lra.
Qed.

Print Assumptions C17_bicycle_recovers_action.
Print Assumptions C17_no_steering_at_low_speed.
