(** C16: the bicycle model respects its limits. *)
From Coq Require Import List ZArith Reals Lra Lia Bool.
From Verif.Lib Require Import Base JaxIndex Scalar XR.
From Verif.Model Require Import Operations State Dynamics BaseEnv Dyn_State Dyn_Delta Dyn_Bicycle Comfort.
From Verif.Spec Require Import StateSpec GeomSpec DynSpec.
From Verif.Proofs Require Import Core P_Actions P_Delta P_Bicycle.
From Verif.Props Require Import ExR.
Import ListNotations.
Open Scope R_scope.

(** One environment step of a controlled object under InvertibleBicycleModel, for
    every action without NaN (infinite components included): the speed changes by
    at most max_accel * dt, the new heading is normalised, the new velocity lies
    on the line of the new heading, and, if the old velocity was along the old
    heading, the heading turns by at most max_steering times the distance
    travelled. *)
Theorem C16_bicycle_limits dt ma ms (nrm : bool) n T c s acts s' mask (t : nat) i
  (a : act (S := XR)) p k0 (xa xs : xr) (rest : list xr) :
  0 <= dt -> 0 <= ma -> 0 <= ms ->
  wf_state n T s -> env_step (InvertibleBicycleModel (bparams dt ma ms nrm)) c s acts = Ok s' ->
  env_control_mask s c = Ok mask -> s_t s = Z.of_nat t -> (t + 1 < T)%nat ->
  nth_error mask i = Some true -> nth_error acts i = Some a ->
  a_data a = xa :: xs :: rest -> xa <> NaN -> xs <> NaN ->
  at2 (s_sim s) i t = Some p -> has_kin p k0 ->
  exists p' k, at2 (s_sim s') i (t + 1) = Some p' /\ has_kin p' k /\
    Rabs (speed k - speed k0) <= ma * dt /\
    normalised (kyaw k) /\
    (exists v, kvx k = v * cos (kyaw k) /\ kvy k = v * sin (kyaw k)) /\
    (kvx k0 = speed k0 * cos (kyaw k0) -> kvy k0 = speed k0 * sin (kyaw k0) ->
     exists delta, same_angle (kyaw k) (kyaw k0 + delta) /\ Rabs delta <= ms * dist k0 k).
Proof. exact (bicycle_limits dt ma ms nrm n T c s acts s' mask t i a p k0 xa xs rest). Qed.

(** The exact motion, for finite actions: constant acceleration along the heading,
    controls clamped to the limits. *)
Theorem C16_bicycle_motion dt ma ms (nrm : bool) n T c s acts s' mask (t : nat) i
  (a : act (S := XR)) p k0 ra rs :
  0 <= ma -> 0 <= ms ->
  wf_state n T s -> env_step (InvertibleBicycleModel (bparams dt ma ms nrm)) c s acts = Ok s' ->
  env_control_mask s c = Ok mask -> s_t s = Z.of_nat t -> (t + 1 < T)%nat ->
  nth_error mask i = Some true -> nth_error acts i = Some a ->
  a_data a = [Fin ra; Fin rs] ->
  at2 (s_sim s) i t = Some p -> has_kin p k0 ->
  let acc := if nrm then clamp (- 1) 1 ra * ma else clamp (- ma) ma ra in
  let st := if nrm then clamp (- 1) 1 rs * ms else clamp (- ms) ms rs in
  let d := speed k0 * dt + 1 / 2 * acc * (dt * dt) in
  exists p' k, at2 (s_sim s') i (t + 1) = Some p' /\ has_kin p' k /\
    kx k = kx k0 + kvx k0 * dt + 1 / 2 * acc * cos (kyaw k0) * (dt * dt) /\
    ky k = ky k0 + kvy k0 * dt + 1 / 2 * acc * sin (kyaw k0) * (dt * dt) /\
    normalised (kyaw k) /\ same_angle (kyaw k) (kyaw k0 + st * d) /\
    kvx k = (speed k0 + acc * dt) * cos (kyaw k) /\
    kvy k = (speed k0 + acc * dt) * sin (kyaw k).
Proof. exact (bicycle_motion dt ma ms nrm n T c s acts s' mask t i a p k0 ra rs). Qed.

(** An action outside the limits acts like the nearest action within them. *)
Theorem C16_out_of_range_action_is_clamped (dt ma ms : R) (nrm : bool) ra rs v p :
  0 <= ma -> 0 <= ms ->
  let ba := if nrm then 1 else ma in let bs := if nrm then 1 else ms in
  bicycle_update (bparams dt ma ms nrm) (mkact (S := XR) [Fin ra; Fin rs] v) p
  = bicycle_update (bparams dt ma ms nrm)
      (mkact (S := XR) [Fin (clamp (- ba) ba ra); Fin (clamp (- bs) bs rs)] v) p.
Proof. exact (bicycle_clip_same dt ma ms nrm ra rs v p). Qed.

(** The bound is on the speed, not on the velocity vector: a vehicle that braked
    from standstill moves backwards, and the next step with zero action turns its
    velocity around, a change of 1.2 m/s where max_accel * dt is 0.6. *)
Theorem C16_velocity_vector_limit_refuted :
  exists (p : pt (S := XR)) k0 u k, has_kin p k0 /\ p_valid p = true /\
    bicycle_update (bparams (1 / 10) 6 (3 / 10) false) (mkact (S := XR) [Fin 0; Fin 0] true) p = Ok u /\
    upd_kin u k /\ (kvx k0 = - (6 / 10) /\ kvx k = 6 / 10 /\ Rabs (kvx k - kvx k0) > 6 * (1 / 10)) /\
    exists p' u', bicycle_update (bparams (1 / 10) 6 (3 / 10) false)
        (mkact (S := XR) [Fin (-6); Fin 0] true) p' = Ok u' /\
      p_valid p' = true /\ p_vx p' = Fin 0 /\ p_vy p' = Fin 0 /\
      u_vx u' = p_vx p /\ u_vy u' = p_vy p /\ u_yaw u' = p_yaw p /\ u_x u' = p_x p /\ u_y u' = p_y p.
Proof. exact velocity_flip. Qed.

Example C16_ex : forall xa xs, exists s',
  env_step (InvertibleBicycleModel (bparams (1 / 10) 6 (3 / 10) false)) rcfg rstart
    [mkact (S := XR) [xa; xs] true] = Ok s' /\
  wf_state 1 3 rstart /\ env_control_mask rstart rcfg = Ok [true] /\ s_t rstart = Z.of_nat 0 /\
  at2 (s_sim rstart) 0 0 = Some (rpt 0 10) /\ has_kin (rpt 0 10) (rkin 0 10) /\
  kvx (rkin 0 10) = speed (rkin 0 10) * cos (kyaw (rkin 0 10)) /\
  kvy (rkin 0 10) = speed (rkin 0 10) * sin (kyaw (rkin 0 10)).
Proof.
  intros xa xs.
  destruct (env_step_total 1 3 (InvertibleBicycleModel (bparams (1 / 10) 6 (3 / 10) false)) rcfg rstart
    [mkact (S := XR) [xa; xs] true] (fun a => (2 <= length (a_data a))%nat) rstart_wf) as [s' H];
    [discriminate | apply bicycle_total | reflexivity | repeat constructor |].
  exists s'. split; [exact H|]. split; [exact rstart_wf|]. repeat (split; [reflexivity|]).
  split; [apply rpt_kin|]. rewrite rspeed by lra. simpl. rewrite cos_0, sin_0. split; ring.
Qed.

Print Assumptions C16_bicycle_limits.
Print Assumptions C16_bicycle_motion.
Print Assumptions C16_out_of_range_action_is_clamped.
Print Assumptions C16_velocity_vector_limit_refuted.
