(** C04: history is immutable over whole episodes. *)
From Coq Require Import List ZArith Lia Bool.
From Verif.Lib Require Import Base JaxIndex Scalar.
From Verif.Model Require Import Operations State Dynamics BaseEnv Dyn_State.
From Verif.Spec Require Import StateSpec.
From Verif.Proofs Require Import Core Episode.
From Verif.Props Require Import Ex.
Import ListNotations.

(** Frames recorded after the actions [l1] are the same after [l1 ++ l2]. *)
Theorem C04_recorded_frames_never_change {S : Scalar} n T d c s l1 l2 s1 s' :
  wf_scenario n T s ->
  run_episode d c s l1 = Ok s1 -> run_episode d c s (l1 ++ l2) = Ok s' ->
  c_init_steps c + length (l1 ++ l2) <= T ->
  forall i t, i < n -> t < c_init_steps c + length l1 ->
    at2 (s_sim s') i t = at2 (s_sim s1) i t.
Proof. exact (episode_prefix n T d c s l1 l2 s1 s'). Qed.

(** The scenario is never touched, warm-up frames stay equal to the log, frames
    after the current step stay invalid. *)
Theorem C04_warmup_and_future {S : Scalar} n T d c s acts s' :
  wf_scenario n T s -> run_episode d c s acts = Ok s' ->
  c_init_steps c + length acts <= T ->
  wf_state n T s' /\ same_scenario s s' /\ c_max_num_objects c = n /\
  s_t s' = (Z.of_nat (c_init_steps c + length acts) - 1)%Z /\
  (forall i t, i < n -> t < c_init_steps c -> at2 (s_sim s') i t = at2 (s_log s) i t) /\
  (forall i t, i < n -> c_init_steps c + length acts <= t -> t < T ->
     at2 (s_sim s') i t = Some invalid_pt).
Proof. exact (episode_basic n T d c s acts s'). Qed.

Example C04_ex :
  exists s1 s', run_episode StateDynamics (ex_cfg MODELED false) ex_state [hd [] ex_acts] = Ok s1 /\
    run_episode StateDynamics (ex_cfg MODELED false) ex_state ([hd [] ex_acts] ++ tl ex_acts) = Ok s' /\
    c_init_steps (ex_cfg MODELED false) + length ([hd [] ex_acts] ++ tl ex_acts) <= 4.
Proof.
  eexists. eexists. split; [apply ex_run_ok; vm_compute; reflexivity|].
  split; [apply ex_run_ok; vm_compute; reflexivity|].
  simpl. lia.
Qed.

Print Assumptions C04_recorded_frames_never_change.
Print Assumptions C04_warmup_and_future.
