(** C18: motion produced by the bicycle model is reported as feasible. *)
From Coq Require Import List ZArith Reals Lra Lia Bool.
From Verif.Lib Require Import Base JaxIndex Scalar XR.
From Verif.Model Require Import Operations State Dynamics BaseEnv Dyn_State Dyn_Delta Dyn_Bicycle Comfort.
From Verif.Spec Require Import StateSpec GeomSpec DynSpec.
From Verif.Proofs Require Import Core P_Actions P_Delta P_Bicycle.
From Verif.Props Require Import ExR.
Import ListNotations.
Open Scope R_scope.

(** After an environment step with the default bicycle model and any action
    without NaN, the default kinematic infeasibility metric is 0 for every
    controlled object; it is valid if the object was present. *)
Theorem C18_bicycle_motion_is_feasible n T c s acts s' mask (t : nat) i
  (a : act (S := XR)) p k0 (xa xs : xr) (rest : list xr) rs :
  wf_state n T s -> env_step (InvertibleBicycleModel bicycle_default) c s acts = Ok s' ->
  env_control_mask s c = Ok mask -> s_t s = Z.of_nat t -> (t + 1 < T)%nat ->
  nth_error mask i = Some true -> nth_error acts i = Some a ->
  a_data a = xa :: xs :: rest -> xa <> NaN -> xs <> NaN ->
  at2 (s_sim s) i t = Some p -> has_kin p k0 ->
  kim_compute kim_default s' = Ok rs ->
  exists r, nth_error rs i = Some r /\ mr_value r = Fin 0 /\ (p_valid p = true -> mr_valid r = true).
Proof. exact (kim_default_zero n T c s acts s' mask t i a p k0 xa xs rest rs). Qed.

(** The same for every bicycle model whose limits are within the metric's
    thresholds and that cannot stop from 0.6 m/s within one step. *)
Theorem C18_general dt ma ms (nrm : bool) ka ks n T c s acts s' mask (t : nat) i
  (a : act (S := XR)) p k0 (xa xs : xr) (rest : list xr) rs :
  0 < dt -> 0 <= ma -> ma * dt <= 6 / 10 -> ma <= ka + 1 / 1000 -> 0 <= ms <= ks + 1 / 1000 ->
  wf_state n T s -> env_step (InvertibleBicycleModel (bparams dt ma ms nrm)) c s acts = Ok s' ->
  env_control_mask s c = Ok mask -> s_t s = Z.of_nat t -> (t + 1 < T)%nat ->
  nth_error mask i = Some true -> nth_error acts i = Some a ->
  a_data a = xa :: xs :: rest -> xa <> NaN -> xs <> NaN ->
  at2 (s_sim s) i t = Some p -> has_kin p k0 ->
  kim_compute (kparams dt ka ks) s' = Ok rs ->
  exists r, nth_error rs i = Some r /\ mr_value r = Fin 0 /\ (p_valid p = true -> mr_valid r = true).
Proof. exact (kim_after_step dt ma ms nrm ka ks n T c s acts s' mask t i a p k0 xa xs rest rs). Qed.

(** The metric does report something: a jump in speed beyond the threshold. *)
Theorem C18_metric_flags_infeasible_motion :
  exists r, kim_compute kim_default
      (mkstate [[rpt 0 10; rpt 1 12]] [[rpt 0 10; rpt 1 12]] [] [] 1 None None) = Ok [r] /\
    mr_value r = Fin 1 /\ mr_valid r = true.
Proof. exact kim_flags. Qed.

Example C18_ex : forall xa xs, exists s' rs,
  env_step (InvertibleBicycleModel bicycle_default) rcfg rstart
    [mkact (S := XR) [xa; xs] true] = Ok s' /\
  kim_compute kim_default s' = Ok rs.
Proof.
  intros xa xs.
  destruct (env_step_total 1 3 (InvertibleBicycleModel bicycle_default) rcfg rstart
    [mkact (S := XR) [xa; xs] true] (fun a => (2 <= length (a_data a))%nat) rstart_wf) as [s' H];
    [discriminate | apply bicycle_total | reflexivity | repeat constructor |].
  destruct (step_keeps 1 3 _ _ _ _ _ _ 0 0 (rpt 0 10) rstart_wf H rmask) as (W & E & _);
    [reflexivity | lia | reflexivity | reflexivity |].
  destruct (compute_inverse_Ok 1 3 (s_sim s') 0 (km_dt kim_default) true) as (ia & HI & _);
    [apply W | lia |].
  exists s'. eexists. split; [exact H|].
  unfold kim_compute, compute_kinematics_infeasibility. rewrite E.
  change (Z.of_nat (0 + 1) - 1)%Z with (Z.of_nat 0). rewrite HI. reflexivity.
Qed.

Print Assumptions C18_bicycle_motion_is_feasible.
Print Assumptions C18_general.
Print Assumptions C18_metric_flags_infeasible_motion.
