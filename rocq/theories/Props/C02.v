(** C02: reset depends only on the log. *)
From Coq Require Import List ZArith Lia Bool.
From Verif.Lib Require Import Base JaxIndex Scalar.
From Verif.Model Require Import Operations State Dynamics BaseEnv Dyn_State.
From Verif.Spec Require Import StateSpec.
From Verif.Proofs Require Import Core Episode P_Reset.
From Verif.Props Require Import Ex.
Import ListNotations.

(** For every scenario with the configured number of objects and at least
    init_steps frames, reset succeeds, copies the log on the first init_steps
    frames, marks the rest invalid, sets the clock and keeps everything else. *)
Theorem C02_reset_exact {S : Scalar} n T c s :
  wf_scenario n T s -> c_max_num_objects c = n -> c_init_steps c <= T ->
  exists s', env_reset c s = Ok s' /\ wf_state n T s' /\ same_scenario s s' /\
    s_t s' = (Z.of_nat (c_init_steps c) - 1)%Z /\
    (forall i t, i < n -> t < c_init_steps c ->
       at2 (s_sim s') i t = at2 (s_log s) i t) /\
    (forall i t, i < n -> c_init_steps c <= t -> t < T ->
       at2 (s_sim s') i t =
       Some (mkpt fm1 fm1 fm1 fm1 fm1 fm1 false (-1) fm1 fm1 fm1)).
Proof. exact (reset_exact n T c s). Qed.

(** The result depends neither on the incoming simulated trajectory nor on the
    incoming timestep. *)
Theorem C02_reset_ignores_simulation {S : Scalar} c s s' :
  same_scenario s s' -> env_reset c s' = env_reset c s.
Proof. exact (same_scenario_reset c s s'). Qed.

(** Resetting in the middle of an episode, or twice, gives the initial state. *)
Theorem C02_reset_mid_episode {S : Scalar} n T d c s acts s' :
  wf_scenario n T s -> run_episode d c s acts = Ok s' ->
  c_init_steps c + length acts <= T ->
  env_reset c s' = env_reset c s.
Proof.
  intros W H L. apply same_scenario_reset.
  exact (proj1 (proj2 (episode_basic n T d c s acts s' W H L))).
Qed.

Theorem C02_reset_wrong_object_count {S : Scalar} c s :
  length (s_log s) <> c_max_num_objects c -> env_reset c s = Err AssertionError.
Proof. exact (reset_wrong_count c s). Qed.

Theorem C02_reset_log_too_short {S : Scalar} n T c s :
  wf_scenario n T s -> c_max_num_objects c = n -> T < c_init_steps c ->
  env_reset c s = Err TypeError.
Proof. exact (reset_too_long n T c s). Qed.

Example C02_ex :
  wf_scenario 3 4 ex_state /\
  c_max_num_objects (ex_cfg SDC false) = 3 /\ c_init_steps (ex_cfg SDC false) <= 4 /\
  is_ok (env_reset (ex_cfg SDC false) ex_state) = true /\
  is_ok (run_episode Dyn_State.StateDynamics (ex_cfg SDC false) ex_state ex_acts) = true.
Proof.
  split; [exact ex_wf|]. split; [reflexivity|]. split; [simpl; lia|].
  split; vm_compute; reflexivity.
Qed.

Print Assumptions C02_reset_exact.
Print Assumptions C02_reset_ignores_simulation.
Print Assumptions C02_reset_mid_episode.
Print Assumptions C02_reset_wrong_object_count.
Print Assumptions C02_reset_log_too_short.
