(** C08: validity transitions without object injection. *)
From Coq Require Import List ZArith QArith Lia Bool.
From Verif.Lib Require Import Base JaxIndex Scalar QScalar.
From Verif.Model Require Import Operations State Dynamics BaseEnv Dyn_State Dyn_Delta Dyn_Bicycle.
From Verif.Spec Require Import StateSpec.
From Verif.Proofs Require Import Core Episode P_Step P_Replay P_Actions.
From Verif.Props Require Import Ex.
Import ListNotations.
Open Scope nat_scope.

(** A controlled object is valid at every step from the end of warm-up on
    exactly when the log has it at the end of warm-up. *)
Theorem C08_controlled_validity {S : Scalar} n T d c s acts s' i t :
  wf_scenario n T s -> run_episode d c s acts = Ok s' ->
  1 <= c_init_steps c -> c_init_steps c + length acts <= T -> i < n ->
  c_allow_new_objects c = false -> in_control c s i ->
  c_init_steps c - 1 <= t -> t < c_init_steps c + length acts ->
  (sim_valid s' i t <-> log_valid s i (c_init_steps c - 1)).
Proof. exact (valid_noinj_controlled n T d c s acts s' i t). Qed.

(** An uncontrolled object is valid exactly while the log has had it at every
    step since the end of warm-up. *)
Theorem C08_uncontrolled_validity {S : Scalar} n T d c s acts s' i t :
  wf_scenario n T s -> run_episode d c s acts = Ok s' ->
  1 <= c_init_steps c -> c_init_steps c + length acts <= T -> i < n ->
  c_allow_new_objects c = false -> ~ in_control c s i ->
  c_init_steps c - 1 <= t -> t < c_init_steps c + length acts ->
  (sim_valid s' i t <-> (forall u, c_init_steps c - 1 <= u <= t -> log_valid s i u)).
Proof. exact (valid_noinj_uncontrolled n T d c s acts s' i t). Qed.

(** Hence no object, controlled or not, ever appears after warm-up. *)
Theorem C08_no_object_appears {S : Scalar} n T d c s acts s' i t :
  wf_scenario n T s -> run_episode d c s acts = Ok s' ->
  1 <= c_init_steps c -> c_init_steps c + length acts <= T -> i < n ->
  c_allow_new_objects c = false -> ~ log_valid s i (c_init_steps c - 1) ->
  c_init_steps c - 1 <= t -> t < c_init_steps c + length acts -> ~ sim_valid s' i t.
Proof. exact (no_object_appears n T d c s acts s' i t). Qed.

(** Object 1 leaves at step 3, object 2 is not there at the end of warm-up; the
    controlled object 1 stays when driven. *)
Example C08_ex :
  let s := ex_run SDC false ex_acts in
  let s1 := ex_run MODELED false ex_acts in
  map (fun t => pvalid (at2 (s_sim s) 1 t)) [1;2;3] = [true; true; false] /\
  map (fun t => pvalid (at2 (s_sim s) 2 t)) [1;2;3] = [false; false; false] /\
  map (fun t => pvalid (at2 (s_sim s1) 1 t)) [1;2;3] = [true; true; true].
Proof. vm_compute. repeat split. Qed.

Print Assumptions C08_controlled_validity.
Print Assumptions C08_uncontrolled_validity.
Print Assumptions C08_no_object_appears.
