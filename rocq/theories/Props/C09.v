(** C09: validity transitions with object injection. *)
From Coq Require Import List ZArith QArith Lia Bool.
From Verif.Lib Require Import Base JaxIndex Scalar QScalar.
From Verif.Model Require Import Operations State Dynamics BaseEnv Dyn_State Dyn_Delta Dyn_Bicycle.
From Verif.Spec Require Import StateSpec.
From Verif.Proofs Require Import Core Episode P_Step P_Replay P_Actions.
From Verif.Props Require Import Ex.
Import ListNotations.
Open Scope nat_scope.

(** One step: an object that is controlled and currently valid stays valid,
    every other object takes the validity of the log. *)
Theorem C09_step_validity {S : Scalar} n T d c s a s' mask (t : nat) i cur nxt b :
  wf_state n T s -> env_step d c s a = Ok s' -> env_control_mask s c = Ok mask ->
  s_t s = Z.of_nat t -> t + 1 < T -> c_allow_new_objects c = true ->
  nth_error mask i = Some b -> at2 (s_sim s) i t = Some cur ->
  at2 (s_log s) i (t + 1) = Some nxt ->
  exists p, at2 (s_sim s') i (t + 1) = Some p /\
    p_valid p = if b && p_valid cur then true else p_valid nxt.
Proof. exact (inj_step n T d c s a s' mask t i cur nxt b). Qed.

(** Whole episodes: uncontrolled objects follow the log's validity ... *)
Theorem C09_uncontrolled_validity {S : Scalar} n T d c s acts s' i t :
  wf_scenario n T s -> run_episode d c s acts = Ok s' ->
  1 <= c_init_steps c -> c_init_steps c + length acts <= T -> i < n ->
  c_allow_new_objects c = true -> ~ in_control c s i ->
  c_init_steps c - 1 <= t -> t < c_init_steps c + length acts ->
  (sim_valid s' i t <-> log_valid s i t).
Proof. exact (valid_inj_uncontrolled n T d c s acts s' i t). Qed.

(** ... controlled ones appear when the log first has them and never leave. *)
Theorem C09_controlled_validity {S : Scalar} n T d c s acts s' i t :
  wf_scenario n T s -> run_episode d c s acts = Ok s' ->
  1 <= c_init_steps c -> c_init_steps c + length acts <= T -> i < n ->
  c_allow_new_objects c = true -> in_control c s i ->
  c_init_steps c - 1 <= t -> t < c_init_steps c + length acts ->
  (sim_valid s' i t <-> (exists u, c_init_steps c - 1 <= u <= t /\ log_valid s i u)).
Proof. exact (valid_inj_controlled n T d c s acts s' i t). Qed.

(** A controlled object entering the scene does not enter at its logged pose. *)
Theorem C09_injected_at_logged_pose_refuted :
  exists s s' p l, wf_scenario 3 4 s /\
    run_episode StateDynamics (ex_cfg VALID true) s [hd [] ex_acts] = Ok s' /\
    in_control (ex_cfg VALID true) s 2 /\
    ~ sim_valid s' 2 1 /\ at2 (s_sim s') 2 2 = Some p /\ p_valid p = true /\
    at2 (s_log s) 2 2 = Some l /\ p_valid l = true /\ p_x p <> p_x l.
Proof.
  set (r := ex_run VALID true [hd [] ex_acts]).
  exists ex_state, r.
  destruct (at2 (s_sim r) 2 2) as [p|] eqn:E.
  2:{ exfalso. assert (K : pvalid (at2 (s_sim r) 2 2) = true)
        by (vm_compute; reflexivity). rewrite E in K. discriminate. }
  assert (P : forall A (f : pt -> A) (d : A),
            f p = match at2 (s_sim r) 2 2 with Some x => f x | None => d end)
    by (intros; rewrite E; reflexivity).
  exists p, (expt 2 2 true).
  split; [exact ex_wf|]. split; [apply ex_run_ok; vm_compute; reflexivity|].
  split; [eexists; split; reflexivity|].
  split.
  { intros (x & Ex & Vx). assert (K : pvalid (at2 (s_sim r) 2 1) = false) by (vm_compute; reflexivity).
    rewrite Ex in K. simpl in K. congruence. }
  split; [reflexivity|]. split; [rewrite (P _ p_valid false); vm_compute; reflexivity|].
  split; [reflexivity|]. split; [reflexivity|].
  rewrite (P _ (fun x => p_x x) f0). vm_compute. discriminate.
Qed.

Example C09_ex :
  let s := ex_run SDC true ex_acts in
  let s1 := ex_run VALID true ex_acts in
  map (fun t => pvalid (at2 (s_sim s) 1 t)) [1;2;3] = [true; true; false] /\
  map (fun t => pvalid (at2 (s_sim s) 2 t)) [1;2;3] = [false; true; true] /\
  map (fun t => pvalid (at2 (s_sim s1) 1 t)) [1;2;3] = [true; true; true].
Proof. vm_compute. repeat split. Qed.

Print Assumptions C09_step_validity.
Print Assumptions C09_uncontrolled_validity.
Print Assumptions C09_controlled_validity.
Print Assumptions C09_injected_at_logged_pose_refuted.
