(** C03: a step writes exactly one new frame. *)
From Coq Require Import List ZArith Lia Bool.
From Verif.Lib Require Import Base JaxIndex Scalar.
From Verif.Model Require Import Operations State Dynamics BaseEnv Dyn_State Dyn_Delta Dyn_Bicycle.
From Verif.Spec Require Import StateSpec.
From Verif.Proofs Require Import Core P_Step P_Actions.
From Verif.Props Require Import Ex.
Import ListNotations.

(** Any dynamics model [d], any action, any configuration. *)
Theorem C03_step_writes_one_frame {S : Scalar} n T d c s a s' :
  wf_state n T s -> env_step d c s a = Ok s' ->
  (0 <= s_t s + 1 < Z.of_nat T)%Z ->
  wf_state n T s' /\ same_scenario s s' /\ s_t s' = (s_t s + 1)%Z /\
  (forall i k, i < n -> Z.of_nat k <> (s_t s + 1)%Z ->
     at2 (s_sim s') i k = at2 (s_sim s) i k).
Proof. exact (step_one_frame n T d c s a s'). Qed.

(** A controlled object's new frame carries the pose and velocity computed by
    the dynamics model from the current frame. *)
Theorem C03_controlled_pose_is_dynamics {S : Scalar} n T d c s a s' mask (t : nat) :
  wf_state n T s -> env_step d c s a = Ok s' -> env_control_mask s c = Ok mask ->
  s_t s = Z.of_nat t -> t + 1 < T ->
  exists cur us,
    length cur = n /\ (forall i, i < n -> nth_error cur i = at2 (s_sim s) i t) /\
    d_update d a cur = Ok us /\
    (forall i u, nth_error mask i = Some true -> nth_error us i = Some u ->
       exists p, at2 (s_sim s') i (t + 1) = Some p /\
         p_x p = u_x u /\ p_y p = u_y u /\ p_yaw p = u_yaw u /\
         p_vx p = u_vx u /\ p_vy p = u_vy u).
Proof. exact (step_controlled_pose n T d c s a s' mask t). Qed.

(** The step never fails for a dynamics model that accepts the actions ... *)
Theorem C03_step_total {S : Scalar} n T d c s a ok :
  wf_state n T s -> c_controlled c <> NON_SDC -> dyn_total d ok ->
  length a = n -> Forall ok a -> exists s', env_step d c s a = Ok s'.
Proof. exact (env_step_total n T d c s a ok). Qed.

(** ... and the shipped models accept every action of their action dimension. *)
Theorem C03_shipped_dynamics_total {S : Scalar} q r :
  dyn_total StateDynamics (fun a => 5 <= length (a_data a)) /\
  dyn_total (DeltaGlobal q) (fun a => length (a_data a) = 3) /\
  dyn_total (DeltaLocal q) (fun a => length (a_data a) = 3) /\
  dyn_total (InvertibleBicycleModel r) (fun a => 2 <= length (a_data a)).
Proof.
  exact (conj state_total (conj (delta_global_total q)
           (conj (delta_local_total q) (bicycle_total r)))).
Qed.

Theorem C03_step_rejects_wrong_count {S : Scalar} n T d c s a :
  wf_state n T s -> c_controlled c <> NON_SDC -> length a <> n ->
  env_step d c s a = Err AssertionError.
Proof. exact (step_bad_count n T d c s a). Qed.

Theorem C03_step_rejects_non_sdc {S : Scalar} d c s a :
  c_controlled c = NON_SDC -> env_step d c s a = Err ValueError.
Proof. exact (step_bad_type d c s a). Qed.

(** A reachable state meets the hypotheses, and the written frame does change. *)
Example C03_ex :
  exists s s', run_episode StateDynamics (ex_cfg SDC false) ex_state [hd [] ex_acts] = Ok s /\
    env_step StateDynamics (ex_cfg SDC false) s (nth 1 ex_acts []) = Ok s' /\
    (0 <= s_t s + 1 < 4)%Z /\ at2 (s_sim s') 0 3 <> at2 (s_sim s) 0 3.
Proof.
  exists (ex_run SDC false [hd [] ex_acts]).
  exists (get ex_state (env_step StateDynamics (ex_cfg SDC false)
            (ex_run SDC false [hd [] ex_acts]) (nth 1 ex_acts []))).
  split; [apply ex_run_ok; vm_compute; reflexivity|].
  split; [apply is_ok_get; vm_compute; reflexivity|].
  split; [vm_compute; split; congruence|].
  apply xval_neq. vm_compute. reflexivity.
Qed.

Print Assumptions C03_step_writes_one_frame.
Print Assumptions C03_controlled_pose_is_dynamics.
Print Assumptions C03_step_total.
Print Assumptions C03_shipped_dynamics_total.
Print Assumptions C03_step_rejects_wrong_count.
Print Assumptions C03_step_rejects_non_sdc.
