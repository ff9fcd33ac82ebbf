(** C06: episode clock and truncation. *)
From Coq Require Import List ZArith Lia Bool.
From Verif.Lib Require Import Base JaxIndex Scalar.
From Verif.Model Require Import Operations State Dynamics BaseEnv Dyn_State.
From Verif.Spec Require Import StateSpec.
From Verif.Proofs Require Import Core P_Step.
From Verif.Props Require Import Ex.
Import ListNotations.

(** After any number of steps, including steps beyond the end. *)
Theorem C06_clock {S : Scalar} n T d c s acts s' :
  wf_scenario n T s -> run_episode d c s acts = Ok s' ->
  s_t s' = (Z.of_nat (c_init_steps c) - 1 + Z.of_nat (length acts))%Z /\
  remaining_timesteps s'
    = (Z.of_nat T - Z.of_nat (c_init_steps c) - Z.of_nat (length acts))%Z /\
  (truncation s' = true <-> T - c_init_steps c <= length acts) /\
  termination s' = false.
Proof. exact (clock_lemma n T d c s acts s'). Qed.

(** On every state, reachable or not. *)
Theorem C06_end_signals_agree {S : Scalar} (s : state) :
  truncation s = is_done s /\ (is_done s = true <-> (remaining_timesteps s <= 0)%Z).
Proof. exact (done_agree s). Qed.

Example C06_ex :
  exists s, run_episode StateDynamics (ex_cfg SDC false) ex_state ex_acts = Ok s /\
    truncation s = true /\ s_t s = 3%Z /\
  exists s1, run_episode StateDynamics (ex_cfg SDC false) ex_state [hd [] ex_acts] = Ok s1 /\
    truncation s1 = false.
Proof.
  exists (ex_run SDC false ex_acts).
  split; [apply ex_run_ok; vm_compute; reflexivity|].
  split; [vm_compute; reflexivity|]. split; [vm_compute; reflexivity|].
  exists (ex_run SDC false [hd [] ex_acts]).
  split; [apply ex_run_ok; vm_compute; reflexivity|]. vm_compute; reflexivity.
Qed.

Print Assumptions C06_clock.
Print Assumptions C06_end_signals_agree.
