(** C13: replaying the log with the expert. *)
From Coq Require Import List ZArith Reals Lra Lia Bool.
From Verif.Lib Require Import Base JaxIndex Scalar QScalar XR.
From Verif.Model Require Import Operations State Dynamics BaseEnv Dyn_State Dyn_Delta Expert.
From Verif.Spec Require Import StateSpec GeomSpec DynSpec.
From Verif.Proofs Require Import Core P_Expert P_Delta.
From Verif.Props Require Import Ex ExR.
Import ListNotations.
Open Scope R_scope.

(** With StateDynamics, for every number type: closed-loop expert control over any
    number of steps gives every object, controlled or not, the logged position,
    heading, velocity and timestamp at every step. *)
Theorem C13_expert_replays_log {S : Scalar} n T c s k s' i t :
  (wf_scenario n T s ->
  run_policy StateDynamics c (infer_expert_action StateDynamics) s k = Ok s' ->
  1 <= c_init_steps c -> c_init_steps c + k <= T -> i < n -> t < c_init_steps c + k ->
  exists p l, at2 (s_sim s') i t = Some p /\ at2 (s_log s) i t = Some l /\
    same_pose p l /\ p_ts p = p_ts l)%nat.
Proof. exact (expert_replay n T c s k s' i t). Qed.

(** The closed loop never fails. *)
Theorem C13_expert_never_fails {S : Scalar} n T c s k :
  (wf_scenario n T s -> c_max_num_objects c = n -> c_controlled c <> NON_SDC ->
  1 <= c_init_steps c -> c_init_steps c + k <= T ->
  exists s', run_policy StateDynamics c (infer_expert_action StateDynamics) s k = Ok s')%nat.
Proof. exact (expert_runs n T c s k). Qed.

(** With DeltaGlobal, over the reals: an object that is present in the log, with
    per-step displacements within the limits, has the logged position and heading
    (modulo whole turns) at every step. *)
Theorem C13_expert_replays_log_delta dt mx my myaw n T c s k s' i (kl : nat -> kin) :
  dt <> 0 -> 0 <= mx -> 0 <= my ->
  wf_scenario n T s ->
  run_policy (DeltaGlobal (dparams dt mx my myaw)) c
    (infer_expert_action (DeltaGlobal (dparams dt mx my myaw))) s k = Ok s' ->
  (1 <= c_init_steps c)%nat -> (c_init_steps c + k <= T)%nat -> (i < n)%nat ->
  (forall t, (c_init_steps c - 1 <= t < c_init_steps c + k)%nat ->
     exists l, at2 (s_log s) i t = Some l /\ p_valid l = true /\ has_kin l (kl t)) ->
  (forall t, (c_init_steps c <= t < c_init_steps c + k)%nat ->
     Rabs (kx (kl t) - kx (kl (t - 1)%nat)) <= mx /\ Rabs (ky (kl t) - ky (kl (t - 1)%nat)) <= my) ->
  forall t, (c_init_steps c - 1 <= t < c_init_steps c + k)%nat ->
    exists p kp, at2 (s_sim s') i t = Some p /\ p_valid p = true /\ has_kin p kp /\
      kx kp = kx (kl t) /\ ky kp = ky (kl t) /\ same_angle (kyaw kp) (kyaw (kl t)).
Proof. exact (expert_delta_replay dt mx my myaw n T c s k s' i kl). Qed.

Theorem C13_expert_delta_never_fails dt mx my myaw n T c (s : state (S := XR)) k :
  wf_scenario n T s -> c_max_num_objects c = n -> c_controlled c <> NON_SDC ->
  (1 <= c_init_steps c)%nat -> (c_init_steps c + k <= T)%nat ->
  exists s', run_policy (DeltaGlobal (dparams dt mx my myaw)) c
    (infer_expert_action (DeltaGlobal (dparams dt mx my myaw))) s k = Ok s'.
Proof. exact (expert_delta_runs dt mx my myaw n T c s k). Qed.

(** Three objects, one leaving and one entering, two closed-loop steps. *)
Example C13_ex :
  wf_scenario 3 4 ex_state /\
  is_ok (run_policy (S := QS) StateDynamics (ex_cfg VALID false) (infer_expert_action StateDynamics) ex_state 2) = true.
Proof. split; [exact ex_wf|]. vm_compute. reflexivity. Qed.

(** One vehicle driving 1 m per step, limit 6 m, two closed-loop steps. *)
Example C13_ex_delta :
  exists s', run_policy (DeltaGlobal (dparams (1 / 10) 6 6 PI)) rcfg
      (infer_expert_action (DeltaGlobal (dparams (1 / 10) 6 6 PI))) rscn 2 = Ok s' /\
    exists p kp, at2 (s_sim s') 0 2 = Some p /\ p_valid p = true /\ has_kin p kp /\ kx kp = 2 /\ ky kp = 0.
Proof.
  destruct (C13_expert_delta_never_fails (1 / 10) 6 6 PI 1 3 rcfg rscn 2) as [s' H];
    [exact rscn_wf | reflexivity | discriminate | simpl; lia | simpl; lia |].
  exists s'. split; [exact H|].
  destruct (C13_expert_replays_log_delta (1 / 10) 6 6 PI 1 3 rcfg rscn 2 s' 0 (fun t => rkin (INR t) 10))
    with (t := 2%nat) as (p & kp & E & V & K & X & Y & _);
    [lra | lra | lra | exact rscn_wf | exact H | simpl; lia | simpl; lia | lia | | | simpl; lia |].
  - simpl. intros t Ht. assert (t = 0 \/ t = 1 \/ t = 2)%nat as [-> | [-> | ->]] by lia;
      (eexists; split; [reflexivity|]; split; [reflexivity|]); repeat split.
  - simpl. intros t Ht. assert (t = 1 \/ t = 2)%nat as [-> | ->] by lia; simpl;
      split; apply Rabs_le; lra.
  - exists p, kp. split; [exact E|]. split; [exact V|]. split; [exact K|]. split; [rewrite X; simpl; ring|rewrite Y; reflexivity].
Qed.

Print Assumptions C13_expert_replays_log.
Print Assumptions C13_expert_never_fails.
Print Assumptions C13_expert_replays_log_delta.
Print Assumptions C13_expert_delta_never_fails.
