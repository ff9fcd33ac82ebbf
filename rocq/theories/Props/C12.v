(** C12: the control mask. *)
From Coq Require Import List ZArith QArith Lia Bool.
From Verif.Lib Require Import Base JaxIndex Scalar QScalar.
From Verif.Model Require Import Operations State Dynamics BaseEnv Dyn_State Dyn_Delta Dyn_Bicycle.
From Verif.Spec Require Import StateSpec.
From Verif.Proofs Require Import Core Episode P_Step P_Replay P_Actions.
From Verif.Props Require Import Ex.
Import ListNotations.
Open Scope nat_scope.

(** get_control_mask returns the metadata flags and rejects other types. *)
Theorem C12_get_control_mask (ms : list meta) :
  get_control_mask ms SDC = Ok (map m_is_sdc ms) /\
  get_control_mask ms MODELED = Ok (map m_is_modeled ms) /\
  get_control_mask ms VALID = Ok (map m_is_valid ms) /\
  get_control_mask ms NON_SDC = Err ValueError.
Proof. exact (conj eq_refl (conj eq_refl (conj eq_refl eq_refl))). Qed.

(** At every state of an episode the mask of the environment is the one given by
    the scenario alone: metadata flags, or validity in the log at the last
    warm-up step for ObjectType.VALID without injection. *)
Theorem C12_mask_is_determined_by_scenario {S : Scalar} n T d c s acts s' mask :
  wf_scenario n T s -> run_episode d c s acts = Ok s' ->
  1 <= c_init_steps c -> c_init_steps c + length acts <= T ->
  env_control_mask s' c = Ok mask ->
  length mask = n /\
  forall i b, nth_error mask i = Some b -> (b = true <-> in_control c s i).
Proof. exact (mask_lemma n T d c s acts s' mask). Qed.

Theorem C12_mask_constant_over_episode {S : Scalar} n T d c s acts s0 s' :
  wf_scenario n T s -> run_episode d c s acts = Ok s' -> env_reset c s = Ok s0 ->
  1 <= c_init_steps c -> c_init_steps c + length acts <= T ->
  env_control_mask s' c = env_control_mask s0 c.
Proof. exact (mask_constant n T d c s acts s0 s'). Qed.

Theorem C12_controlled_objects_stay_valid {S : Scalar} n T d c s acts s' i t :
  wf_scenario n T s -> run_episode d c s acts = Ok s' ->
  1 <= c_init_steps c -> c_init_steps c + length acts <= T -> i < n ->
  c_controlled c = VALID -> c_allow_new_objects c = false -> in_control c s i ->
  c_init_steps c - 1 <= t -> t < c_init_steps c + length acts ->
  sim_valid s' i t.
Proof. exact (controlled_stay_valid n T d c s acts s' i t). Qed.

Example C12_ex :
  env_control_mask (ex_run VALID false ex_acts) (ex_cfg VALID false) = Ok [true; true; false] /\
  env_control_mask (ex_run VALID true ex_acts) (ex_cfg VALID true) = Ok [true; true; true] /\
  env_control_mask (ex_run SDC true ex_acts) (ex_cfg SDC true) = Ok [true; false; false] /\
  in_control (ex_cfg VALID false) ex_state 1 /\ ~ in_control (ex_cfg VALID false) ex_state 2.
Proof.
  split; [vm_compute; reflexivity|]. split; [vm_compute; reflexivity|].
  split; [vm_compute; reflexivity|].
  split; [eexists; split; reflexivity|]. intros (p & E1 & E2).
  apply (f_equal pvalid) in E1. change (false = p_valid p) in E1. congruence.
Qed.

Print Assumptions C12_get_control_mask.
Print Assumptions C12_mask_is_determined_by_scenario.
Print Assumptions C12_mask_constant_over_episode.
Print Assumptions C12_controlled_objects_stay_valid.
