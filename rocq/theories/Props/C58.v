(** C58: Observation.for_obj. *)
From Coq Require Import String.
From Coq Require Import List ZArith Bool Lia.
From Verif.Lib Require Import Base JaxIndex Scalar QScalar.
From Verif.Model Require Import Operations State Dynamics BaseEnv Dyn_State Pose Roadgraph Observation Config.
From Verif.Spec Require Import StateSpec ObsSpec.
From Verif.Proofs Require Import P_ForObj.
From Verif.Props Require Import Ex ExO.
Import ListNotations.
Local Open Scope nat_scope.

(** Documented: the idx-th object's view.  Actual, without batch dimensions: the
    trajectories of all observers, cut to time step idx of the window. *)
Theorem C58_unbatched {S : Scalar} n k (o : observation) (idx : nat) trs :
  (forall v, In v o -> rect n k (v_traj v)) -> idx < k ->
  for_obj_trajectory o (Z.of_nat idx) = Ok trs ->
  length trs = length o /\
  forall i v tr, nth_error o i = Some v -> nth_error trs i = Some tr ->
    rect n 1 tr /\ forall j, j < n -> at2 tr j 0 = at2 (v_traj v) j idx.
Proof. exact (for_obj_unbatched n k o idx trs). Qed.

Theorem C58_unbatched_total {S : Scalar} n k (o : observation) (idx : nat) :
  (forall v, In v o -> rect n k (v_traj v)) -> 1 <= k ->
  exists trs, for_obj_trajectory o (Z.of_nat idx) = Ok trs.
Proof. exact (for_obj_unbatched_total n k o idx). Qed.

(** With one batch dimension: the idx-th scenario of the batch, with all observers. *)
Theorem C58_batched {S : Scalar} (os : list observation) (idx : nat) : idx < length os ->
  exists o, nth_error os idx = Some o /\ for_obj_batched os (Z.of_nat idx) = Ok [o].
Proof. exact (for_obj_batch os idx). Qed.

(** An observation of three observers over two steps. *)
Definition obs : observation := get [] (observation_from_state (o_state 9) 2 2 FRAME_GLOBAL).
Definition slices : list traj := get [] (for_obj_trajectory obs 1).
Example C58_example :
  length obs = 3 /\ map (fun v => length (hd [] (v_traj v))) obs = [2; 2; 2] /\
  length slices = 3 /\ map (fun tr => map (@length pt) tr) slices = [[1; 1; 1]; [1; 1; 1]; [1; 1; 1]].
Proof. repeat split; vm_compute; reflexivity. Qed.

(** So for_obj(1) is not the view of object 1 and the poses no longer match the
    trajectories: one pose, three observers. *)
Theorem C58_own_view_refuted :
  exists (s : state (S := QS)) o trs poses,
    observation_from_state s 2 2 FRAME_GLOBAL = Ok o /\ length o = 3 /\
    for_obj_trajectory o 1 = Ok trs /\ for_obj_yaw o 1 = Ok poses /\
    length poses = 1 /\ length trs = 3 /\
    forall v, nth_error o 1 = Some v -> ~ In (v_traj v) trs.
Proof.
  exists (o_state 9), obs, slices, (get [] (for_obj_yaw obs 1)).
  split; [apply is_ok_get; vm_compute; reflexivity|]. split; [vm_compute; reflexivity|].
  split; [apply is_ok_get; vm_compute; reflexivity|]. split; [apply is_ok_get; vm_compute; reflexivity|].
  split; [vm_compute; reflexivity|]. split; [vm_compute; reflexivity|].
  intros v Hv Hin. apply (in_map (fun tr => map (@length pt) tr)) in Hin.
  replace (map (fun tr : traj => map (@length pt) tr) slices) with [[1; 1; 1]; [1; 1; 1]; [1; 1; 1]] in Hin
    by (symmetry; apply C58_example).
  assert (E : option_map (fun v => map (@length pt) (v_traj v)) (nth_error obs 1) = Some [2; 2; 2]) by (vm_compute; reflexivity).
  rewrite Hv in E. cbn [option_map] in E. apply (f_equal (fun o => match o with Some l => l | None => [] end)) in E.
  cbv beta iota in E.
  assert (D : ~ In [2; 2; 2] [[1; 1; 1]; [1; 1; 1]; [1; 1; 1]]) by (cbn [In]; intuition discriminate).
  apply D. rewrite <- E. exact Hin.
Qed.

Print Assumptions C58_unbatched.
Print Assumptions C58_unbatched_total.
Print Assumptions C58_batched.
Print Assumptions C58_own_view_refuted.
