(** C05: stepping a finished episode. *)
From Coq Require Import List ZArith Lia Bool.
From Verif.Lib Require Import Base JaxIndex Scalar.
From Verif.Model Require Import Operations State Dynamics BaseEnv Dyn_State.
From Verif.Spec Require Import StateSpec.
From Verif.Proofs Require Import Core P_Step.
From Verif.Props Require Import Ex.
Import ListNotations.

(** Any number of steps on a finished state: it stays finished, the scenario is
    unchanged and no frame other than the last one changes. *)
Theorem C05_only_last_frame_changes {S : Scalar} n T d c s acts s' :
  wf_state n T s -> is_done s = true -> env_steps d c s acts = Ok s' ->
  same_scenario s s' /\ is_done s' = true /\
  (forall i k, i < n -> k <> T - 1 -> at2 (s_sim s') i k = at2 (s_sim s) i k).
Proof. exact (steps_finished n T d c s acts s'). Qed.

Theorem C05_clock_keeps_running {S : Scalar} n T d c s a s' :
  wf_state n T s -> is_done s = true -> env_step d c s a = Ok s' ->
  s_t s' = (s_t s + 1)%Z.
Proof. intros W D H. exact (proj1 (proj2 (proj2 (step_finished n T d c s a s' W D H)))). Qed.

(** The last frame of a controlled object is overwritten with the new action. *)
Theorem C05_last_frame_is_overwritten {S : Scalar} n T c s a s' mask i x y yaw vx vy v :
  wf_state n T s -> is_done s = true -> env_step StateDynamics c s a = Ok s' ->
  env_control_mask s c = Ok mask -> nth_error mask i = Some true ->
  nth_error a i = Some (mkact [x; y; yaw; vx; vy] v) ->
  exists p, at2 (s_sim s') i (T - 1) = Some p /\
    p_x p = x /\ p_y p = y /\ p_yaw p = yaw /\ p_vx p = vx /\ p_vy p = vy.
Proof. exact (finished_overwrites n T c s a s' mask i x y yaw vx vy v). Qed.

(** So the expectation that a finished episode's record is immutable is false:
    a state reached by a legal episode, finished, whose record changes. *)
Theorem C05_finished_record_immutable_refuted :
  exists s s', run_episode StateDynamics (ex_cfg SDC false) ex_state ex_acts = Ok s /\
    is_done s = true /\
    env_step StateDynamics (ex_cfg SDC false) s (hd [] ex_acts) = Ok s' /\
    at2 (s_sim s') 0 3 <> at2 (s_sim s) 0 3.
Proof.
  exists (ex_run SDC false ex_acts).
  exists (get ex_state (env_step StateDynamics (ex_cfg SDC false)
            (ex_run SDC false ex_acts) (hd [] ex_acts))).
  split; [apply ex_run_ok; vm_compute; reflexivity|]. split; [vm_compute; reflexivity|].
  split; [apply is_ok_get; vm_compute; reflexivity|].
  apply xval_neq. vm_compute. reflexivity.
Qed.

Print Assumptions C05_only_last_frame_changes.
Print Assumptions C05_clock_keeps_running.
Print Assumptions C05_last_frame_is_overwritten.
Print Assumptions C05_finished_record_immutable_refuted.
