(** C07: uncontrolled objects replay the log. *)
From Coq Require Import List ZArith QArith Lia Bool.
From Verif.Lib Require Import Base JaxIndex Scalar QScalar.
From Verif.Model Require Import Operations State Dynamics BaseEnv Dyn_State Dyn_Delta Dyn_Bicycle.
From Verif.Spec Require Import StateSpec.
From Verif.Proofs Require Import Core Episode P_Step P_Replay P_Actions.
From Verif.Props Require Import Ex.
Import ListNotations.
Open Scope nat_scope.

(** Position, heading, velocity and timestamp of an uncontrolled object equal
    the log's at every recorded step, for every action history. *)
Theorem C07_uncontrolled_replay_log {S : Scalar} n T d c s acts s' i t :
  wf_scenario n T s -> run_episode d c s acts = Ok s' ->
  1 <= c_init_steps c -> c_init_steps c + length acts <= T ->
  i < n -> ~ in_control c s i -> t < c_init_steps c + length acts ->
  exists p l, at2 (s_sim s') i t = Some p /\ at2 (s_log s) i t = Some l /\
    same_pose p l /\ p_ts p = p_ts l.
Proof. exact (replay_lemma n T d c s acts s' i t). Qed.

(** Timestamps come from the log for controlled objects too. *)
Theorem C07_timestamps_replay_log {S : Scalar} n T d c s acts s' i t :
  wf_scenario n T s -> run_episode d c s acts = Ok s' ->
  1 <= c_init_steps c -> c_init_steps c + length acts <= T ->
  i < n -> t < c_init_steps c + length acts ->
  exists p l, at2 (s_sim s') i t = Some p /\ at2 (s_log s) i t = Some l /\
    p_ts p = p_ts l.
Proof. exact (timestamps_lemma n T d c s acts s' i t). Qed.

(** z, length, width and height of every object stay at their value at the last
    warm-up step. *)
Theorem C07_height_and_size_frozen {S : Scalar} n T d c s acts s' i t :
  wf_scenario n T s -> run_episode d c s acts = Ok s' ->
  1 <= c_init_steps c -> c_init_steps c + length acts <= T -> i < n ->
  c_init_steps c - 1 <= t -> t < c_init_steps c + length acts ->
  exists p l, at2 (s_sim s') i t = Some p /\
    at2 (s_log s) i (c_init_steps c - 1) = Some l /\
    p_z p = p_z l /\ p_len p = p_len l /\ p_wid p = p_wid l /\ p_hei p = p_hei l.
Proof. exact (frozen_lemma n T d c s acts s' i t). Qed.

(** So an uncontrolled object does not replay the whole logged frame. *)
Theorem C07_full_frame_replay_refuted :
  exists s s' p l, wf_scenario 3 4 s /\
    run_episode StateDynamics (ex_cfg SDC false) s ex_acts = Ok s' /\
    ~ in_control (ex_cfg SDC false) s 1 /\
    at2 (s_sim s') 1 2 = Some p /\ at2 (s_log s) 1 2 = Some l /\
    p_valid p = true /\ p_valid l = true /\ p_z p <> p_z l /\ p_len p <> p_len l.
Proof.
  exists ex_state, (ex_run SDC false ex_acts).
  destruct (at2 (s_sim (ex_run SDC false ex_acts)) 1 2) as [p|] eqn:E.
  2:{ exfalso. assert (K : pvalid (at2 (s_sim (ex_run SDC false ex_acts)) 1 2) = true)
        by (vm_compute; reflexivity). rewrite E in K. discriminate. }
  assert (P : forall A (f : pt -> A) (d : A),
            f p = match at2 (s_sim (ex_run SDC false ex_acts)) 1 2 with Some x => f x | None => d end)
    by (intros; rewrite E; reflexivity).
  exists p, (expt 1 2 true).
  split; [exact ex_wf|]. split; [apply ex_run_ok; vm_compute; reflexivity|].
  split; [intros (m & E1 & E2); simpl in E1; injection E1 as <-; discriminate|].
  split; [reflexivity|]. split; [reflexivity|].
  split; [rewrite (P _ p_valid false); vm_compute; reflexivity|]. split; [reflexivity|].
  split.
  - rewrite (P _ (fun x => p_z x) f0). vm_compute. discriminate.
  - rewrite (P _ (fun x => p_len x) f0). vm_compute. discriminate.
Qed.

Example C07_ex :
  wf_scenario 3 4 ex_state /\
  is_ok (run_episode StateDynamics (ex_cfg SDC false) ex_state ex_acts) = true /\
  ~ in_control (ex_cfg SDC false) ex_state 1 /\ in_control (ex_cfg SDC false) ex_state 0.
Proof.
  split; [exact ex_wf|]. split; [vm_compute; reflexivity|].
  split; [intros (m & E1 & E2); simpl in E1; injection E1 as <-; discriminate|].
  eexists; split; [reflexivity|reflexivity].
Qed.

Print Assumptions C07_uncontrolled_replay_log.
Print Assumptions C07_timestamps_replay_log.
Print Assumptions C07_height_and_size_frozen.
Print Assumptions C07_full_frame_replay_refuted.
