(** C10: actions of uncontrolled objects are irrelevant. *)
From Coq Require Import List ZArith QArith Lia Bool.
From Verif.Lib Require Import Base JaxIndex Scalar QScalar.
From Verif.Model Require Import Operations State Dynamics BaseEnv Dyn_State Dyn_Delta Dyn_Bicycle.
From Verif.Spec Require Import StateSpec.
From Verif.Proofs Require Import Core Episode P_Step P_Replay P_Actions.
From Verif.Props Require Import Ex.
Import ListNotations.
Open Scope nat_scope.

(** Two actions agreeing on the controlled objects give the same next state. *)
Theorem C10_only_controlled_actions_matter {S : Scalar} n T d c s a a' s1 s2 mask :
  wf_state n T s -> dyn_local d ->
  env_step d c s a = Ok s1 -> env_step d c s a' = Ok s2 ->
  env_control_mask s c = Ok mask ->
  (forall i, nth_error mask i = Some true -> nth_error a i = nth_error a' i) ->
  s1 = s2.
Proof. exact (step_noninterference n T d c s a a' s1 s2 mask). Qed.

(** What happens to object i does not depend on the actions of the others. *)
Theorem C10_objects_do_not_interfere {S : Scalar} n T d c s a a' s1 s2 mask i :
  wf_state n T s -> dyn_local d ->
  env_step d c s a = Ok s1 -> env_step d c s a' = Ok s2 ->
  env_control_mask s c = Ok mask -> i < n ->
  (nth_error mask i = Some true -> nth_error a i = nth_error a' i) ->
  forall k, at2 (s_sim s1) i k = at2 (s_sim s2) i k.
Proof. exact (step_object_noninterference n T d c s a a' s1 s2 mask i). Qed.

(** The same over whole episodes. *)
Theorem C10_episodes {S : Scalar} n T d c s acts acts' s1 s2 :
  wf_scenario n T s -> dyn_local d -> 1 <= c_init_steps c ->
  c_init_steps c + length acts <= T ->
  Forall2 (agree_on_controlled c s) acts acts' ->
  run_episode d c s acts = Ok s1 -> run_episode d c s acts' = Ok s2 -> s1 = s2.
Proof. exact (episode_noninterference n T d c s acts acts' s1 s2). Qed.

(** Every shipped dynamics model is per-object. *)
Theorem C10_shipped_dynamics_local {S : Scalar} q r :
  dyn_local StateDynamics /\ dyn_local (DeltaGlobal q) /\ dyn_local (DeltaLocal q) /\
  dyn_local (InvertibleBicycleModel r).
Proof.
  exact (conj (per_object_local _ _) (conj (per_object_local _ _)
          (conj (per_object_local _ _) (per_object_local _ _)))).
Qed.

(** Different actions for uncontrolled objects 1 and 2 of the example. *)
Example C10_ex :
  let acts' := [ [sact 100 0; sact 0 0; sact 5 9]; [sact 101 0; sact 1 1; sact 2 2] ] in
  Forall2 (agree_on_controlled (ex_cfg SDC false) ex_state) ex_acts acts' /\
  is_ok (run_episode StateDynamics (ex_cfg SDC false) ex_state ex_acts) = true /\
  is_ok (run_episode StateDynamics (ex_cfg SDC false) ex_state acts') = true.
Proof.
  split; [|split; vm_compute; reflexivity].
  assert (K : forall i, in_control (ex_cfg SDC false) ex_state i -> i = 0).
  { intros [|[|[|i]]] (m & E1 & E2); auto; simpl in E1.
    - injection E1 as <-; discriminate.
    - injection E1 as <-; discriminate.
    - destruct i; discriminate. }
  repeat constructor; intros i Hi; apply K in Hi; subst; reflexivity.
Qed.

Print Assumptions C10_only_controlled_actions_matter.
Print Assumptions C10_objects_do_not_interfere.
Print Assumptions C10_episodes.
Print Assumptions C10_shipped_dynamics_local.
