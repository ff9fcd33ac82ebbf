(** C65: which shapes and element types the data types, and forward, accept. *)
From Coq Require Import List ZArith Bool Lia.
From Verif.Lib Require Import Base.
From Verif.Model Require Import Batch Validate.
From Verif.Spec Require Import ValidateSpec.
From Verif.Proofs Require Import P_Batch P_Validate.
Import ListNotations.
Open Scope nat_scope.

(* ---------------- validate ---------------- *)

(** Trajectory, metadata, road graph, traffic lights and trajectory updates: validate
    accepts exactly the objects whose fields all have one shape and the documented
    kind of element each. *)
Theorem C65_same_shape_types (t : ttraj) (m : tmeta) (r : troad) (l : tlights) (u : tupd) :
  (traj_validate t = Ok tt <-> exists d, is_trajectory d t) /\
  (meta_validate m = Ok tt <-> exists d, is_metadata d m) /\
  (road_validate r = Ok tt <-> exists d, is_roadgraph d r) /\
  (lights_validate l = Ok tt <-> exists d, is_lights d l) /\
  (upd_validate u = Ok tt <-> exists d, is_update d u).
Proof.
  exact (conj (traj_ok t) (conj (meta_ok m) (conj (road_ok r) (conj (lights_ok l) (upd_ok u))))).
Qed.

(** Anything else is an AssertionError. *)
Theorem C65_refusal_is_assertion_error (t : ttraj) (m : tmeta) (r : troad) (l : tlights) (u : tupd) e :
  traj_validate t = Err e \/ meta_validate m = Err e \/ road_validate r = Err e \/
  lights_validate l = Err e \/ upd_validate u = Err e -> e = AssertionError.
Proof.
  unfold traj_validate, meta_validate, road_validate, lights_validate, upd_validate,
    assert_equal_shape, assert_type, guard, bind.
  intros [H|[H|[H|[H|H]]]];
    repeat (match type of H with context [if ?b then _ else _] => destruct b end); congruence.
Qed.

(** Paths with at least one point each: in addition one on_route flag per path. *)
Theorem C65_paths (r : tpaths) : last (t_shape (tp_x r)) 0 <> 0 ->
  paths_validate r = Ok tt <-> exists batch points, is_paths batch points r.
Proof. exact (paths_ok r). Qed.

(** MaskedArray: a boolean mask whose shape is a prefix of the value's. *)
Theorem C65_masked_array (value valid : tensor) :
  masked_validate value valid = Ok tt <->
  e_kind (t_type valid) = Kbool /\ starts_with (t_shape valid) (t_shape value).
Proof. exact (masked_ok value valid). Qed.

(** Action: a boolean mask of shape (..., 1) and data of any type and shape that starts
    with the same leading axes. *)
Theorem C65_action (data valid : tensor) :
  act_validate data valid = Ok tt <->
  e_kind (t_type valid) = Kbool /\ exists p, t_shape valid = p ++ [1] /\ starts_with p (t_shape data).
Proof. exact (act_ok data valid). Qed.

(** ObjectPose2D: all fields start with the shape of delta_yaw. *)
Theorem C65_pose (p : tpose) :
  pose_validate p = Ok tt <->
  exists d, floats d (to_delta_yaw p) /\
    Forall (fun t => e_kind (t_type t) = Kfloat /\ starts_with d (t_shape t))
           [to_xy p; to_yaw p; to_matrix p] /\
    e_kind (t_type (to_valid p)) = Kbool /\ starts_with d (t_shape (to_valid p)).
Proof. exact (pose_ok p). Qed.

(** Observation of shape [p]: p + (n, t) frames, p + (m) metadata and ego flags,
    p + (r) road points, p + (l, t') lights and p + (a, b) paths - the sizes are not
    compared with each other. *)
Theorem C65_observation (o : tobs) :
  obs_validate o = Ok tt <->
  exists p n t m r l t',
    to_shape (ob_pose o) = p /\ tt_shape (ob_traj o) = p ++ [n; t] /\
    tm_shape (ob_meta o) = p ++ [m] /\ flags (p ++ [m]) (ob_is_ego o) /\
    tr_shape (ob_road o) = p ++ [r] /\ tl_shape (ob_lights o) = p ++ [l; t'] /\
    (forall q, ob_paths o = Some q -> exists a b, tp_shape q = p ++ [a; b]).
Proof. exact (obs_ok o). Qed.

(** SimulatorState: the batch shape is a prefix of every other field's shape, and
    nothing more. *)
Theorem C65_state (s : tstate) : tm_shape (ts_meta s) <> [] ->
  state_validate s = Ok tt <->
  exists p n, tm_shape (ts_meta s) = p ++ [n] /\
    starts_with p (tt_shape (ts_sim s)) /\ starts_with p (tt_shape (ts_log s)) /\
    starts_with p (tl_shape (ts_lights s)) /\ starts_with p (t_shape (ts_timestep s)) /\
    (forall r, ts_road s = Some r -> starts_with p (tr_shape r)).
Proof. exact (state_ok s). Qed.

(** Trajectory.zeros is valid, of the requested shape, for every shape. *)
Theorem C65_zeros (d : list nat) : is_trajectory d (traj_zeros d) /\ traj_validate (traj_zeros d) = Ok tt.
Proof.
  assert (H : is_trajectory d (traj_zeros d)) by (repeat split).
  split; [exact H|]. apply traj_ok. eauto.
Qed.

Definition ex_f0 (d : list nat) := mkT d (mket Kfloat 32).
Definition ex_b0 (d : list nat) := mkT d (mket Kbool 8).

(* ---------------- forward ---------------- *)

(** On trajectories of shape B + (n, T) and control flags B + (n), which actions
    forward accepts (the result is the whole trajectory): always flags of shape
    B + (n, 1), and for the state model at least five floating columns per object, ... *)
Theorem C65_forward_state (data valid : tensor) B n T : 1 <= T ->
  forward_shapes MState data valid (B ++ [n; T]) (B ++ [n; T]) (B ++ [n]) = Ok (B ++ [n; T]) <->
  flags (B ++ [n; 1]) valid /\ exists w, 5 <= w /\ floats (B ++ [n; w]) data.
Proof. exact (state_forward data valid B n T). Qed.

(** ... for global displacements exactly three columns per object, ... *)
Theorem C65_forward_delta_global (data valid : tensor) B n T : 1 <= T ->
  forward_shapes MDeltaGlobal data valid (B ++ [n; T]) (B ++ [n; T]) (B ++ [n]) = Ok (B ++ [n; T]) <->
  flags (B ++ [n; 1]) valid /\ t_shape data = B ++ [n; 3].
Proof. exact (delta_forward data valid B n T). Qed.

(** ... for local displacements at least three, ... *)
Theorem C65_forward_delta_local (data valid : tensor) B n T : 1 <= T ->
  forward_shapes MDeltaLocal data valid (B ++ [n; T]) (B ++ [n; T]) (B ++ [n]) = Ok (B ++ [n; T]) <->
  flags (B ++ [n; 1]) valid /\ exists w, 3 <= w /\ t_shape data = B ++ [n; w].
Proof. exact (delta_local_forward data valid B n T). Qed.

(** ... and for the bicycle model at least two, but not necessarily one row per
    object: leading axes that stretch to B + (n) are enough. *)
Theorem C65_forward_bicycle (data valid : tensor) B n T : 1 <= T ->
  forward_shapes MBicycle data valid (B ++ [n; T]) (B ++ [n; T]) (B ++ [n]) = Ok (B ++ [n; T]) <->
  flags (B ++ [n; 1]) valid /\
  exists q w, 2 <= w /\ t_shape data = q ++ [w] /\ stretches_to q (B ++ [n]).
Proof. exact (bicycle_forward data valid B n T). Qed.

(** Frames without any time step are refused by every model. *)
Theorem C65_forward_no_frames m data valid sim ref ctrl :
  last sim 0 = 0 -> exists e, forward_shapes m data valid sim ref ctrl = Err e.
Proof.
  intros H. unfold forward_shapes. rewrite H.
  destruct (guard (dims_eqb _ _) _); cbn [bind]; [|eauto].
  destruct (assert_equal_shape_prefix _ _); cbn [bind]; [|eauto].
  rewrite andb_false_r. cbn. eauto.
Qed.

(** Floating instead of boolean flags, everything else being acceptable: a TypeError
    where the model combines them with the current flags, an AssertionError in the state
    model. *)
Theorem C65_forward_floating_flags m data valid0 valid sim ref ctrl r :
  forward_shapes m data valid0 sim ref ctrl = Ok r ->
  t_shape valid = t_shape valid0 -> e_kind (t_type valid) = Kfloat ->
  forward_shapes m data valid sim ref ctrl =
    Err (match m with MState => AssertionError | _ => TypeError end).
Proof.
  intros H E K. destruct m; [now apply (state_flags_forward data valid0 valid sim ref ctrl r)| | |];
    (eapply float_flags_forward; [|exact H|exact E|exact K]; discriminate).
Qed.
Example C65_ex_floating_flags :
  forward_shapes MDeltaGlobal (ex_f0 [4; 3]) (ex_b0 [4; 1]) [4; 9] [4; 9] [4] = Ok [4; 9] /\
  forward_shapes MDeltaGlobal (ex_f0 [4; 3]) (ex_f0 [4; 1]) [4; 9] [4; 9] [4] = Err TypeError.
Proof. split; reflexivity. Qed.

(* ---------------- what validate does not promise ---------------- *)

Definition ex_f (d : list nat) := mkT d (mket Kfloat 32).
Definition ex_i (d : list nat) := mkT d (mket Kint 32).
Definition ex_b (d : list nat) := mkT d (mket Kbool 8).

(** "A valid trajectory holds float32 numbers" is false: any floating type passes. *)
Theorem C65_valid_means_float32_refuted :
  exists t, traj_validate t = Ok tt /\ ~ is_float32 (tt_x t).
Proof.
  exists (mktt (mkT [2; 3] (mket Kfloat 16)) (ex_f [2; 3]) (ex_f [2; 3]) (ex_f [2; 3]) (ex_f [2; 3]) (ex_f [2; 3])
            (ex_b [2; 3]) (ex_i [2; 3]) (ex_f [2; 3]) (ex_f [2; 3]) (ex_f [2; 3])).
  split; [reflexivity|]. unfold is_float32. cbn. congruence.
Qed.

(** "The parts of a valid state are valid" is false: only x is looked at, and only
    its batch axes. *)
Definition ex_meta (d : list nat) : tmeta :=
  mktm (ex_i d) (ex_i d) (ex_b d) (ex_b d) (ex_b d) (ex_b d) (ex_b d).
Definition ex_lights (d : list nat) : tlights :=
  mktl (ex_f d) (ex_f d) (ex_f d) (ex_i d) (ex_i d) (ex_b d).
Definition ex_road (d : list nat) : troad :=
  mktr (ex_f d) (ex_f d) (ex_f d) (ex_f d) (ex_f d) (ex_f d) (ex_i d) (ex_i d) (ex_b d).
Theorem C65_valid_state_has_valid_parts_refuted :
  exists s, state_validate s = Ok tt /\ traj_validate (ts_sim s) = Err AssertionError /\
    tt_shape (ts_sim s) <> tt_shape (ts_log s).
Proof.
  exists (mkts (mktt (ex_f [2; 3; 9]) (ex_f [7]) (ex_f [7]) (ex_f [7]) (ex_f [7]) (ex_f [7]) (ex_f [7]) (ex_f [7])
                  (ex_f [7]) (ex_f [7]) (ex_f [7]))
            (traj_zeros [2; 4; 8]) (ex_lights [2; 1; 9]) (ex_meta [2; 5]) (ex_i [2]) None (Some (ex_road [2; 6]))).
  repeat split. cbn. congruence.
Qed.

(** "A valid observation has metadata for the objects of its trajectory" is false. *)
Definition ex_obs : tobs :=
  mktob (traj_zeros [1; 4; 2]) (ex_b [1; 3])
    (mktpo (ex_f [1; 2]) (ex_f [1]) (ex_f [1; 3; 3]) (ex_f [1]) (ex_b [1]))
    (ex_meta [1; 3]) (ex_road [1; 20]) (ex_lights [1; 6; 2]) None.
Theorem C65_valid_observation_agrees_on_objects_refuted :
  exists o n t m, obs_validate o = Ok tt /\
    tt_shape (ob_traj o) = ob_shape o ++ [n; t] /\ tm_shape (ob_meta o) = ob_shape o ++ [m] /\ n <> m.
Proof. exists ex_obs, 4, 2, 3. repeat split. lia. Qed.

(** "forward takes one action per object" is false of the bicycle model: data that
    validate refuses, a single action for three objects, is accepted and drives all
    of them; the other models refuse it. *)
Theorem C65_one_action_per_object_refuted :
  exists data valid, act_validate data valid = Err AssertionError /\
    forward_shapes MBicycle data valid [3; 9] [3; 9] [3] = Ok [3; 9] /\
    forall m, m <> MBicycle -> exists e, forward_shapes m data valid [3; 9] [3; 9] [3] = Err e.
Proof.
  exists (ex_f [1; 5]), (ex_b [3; 1]). split; [reflexivity|]. split; [reflexivity|].
  intros [] N; try congruence; eexists; reflexivity.
Qed.

(* ---------------- examples ---------------- *)

Example C65_ex_valid : traj_validate (traj_zeros [2; 3; 91]) = Ok tt /\ meta_validate (ex_meta [2; 3]) = Ok tt /\
  road_validate (ex_road [2; 100]) = Ok tt /\ lights_validate (ex_lights [2; 16; 91]) = Ok tt /\
  paths_validate (mktp (ex_f [4; 7]) (ex_f [4; 7]) (ex_f [4; 7]) (ex_i [4; 7]) (ex_b [4; 7]) (ex_f [4; 7]) (ex_b [4; 1]))
    = Ok tt /\
  masked_validate (ex_f [3; 2]) (ex_b [3]) = Ok tt /\ act_validate (ex_f [3; 2]) (ex_b [3; 1]) = Ok tt.
Proof. repeat split. Qed.
Example C65_ex_refused :
  meta_validate (mktm (ex_i [3]) (ex_i [3]) (ex_b [3]) (ex_b [2]) (ex_b [3]) (ex_b [3]) (ex_b [3])) = Err AssertionError /\
  lights_validate (mktl (ex_f [3]) (ex_f [3]) (ex_f [3]) (ex_f [3]) (ex_i [3]) (ex_b [3])) = Err AssertionError /\
  masked_validate (ex_f [3; 2]) (ex_b [3; 1]) = Err AssertionError /\
  act_validate (ex_f [3; 2]) (ex_b [3; 2]) = Err AssertionError.
Proof. repeat split. Qed.
Example C65_ex_forward :
  forward_shapes MState (ex_f [2; 3; 5]) (ex_b [2; 3; 1]) [2; 3; 91] [2; 3; 91] [2; 3] = Ok [2; 3; 91] /\
  forward_shapes MState (ex_i [2; 3; 5]) (ex_b [2; 3; 1]) [2; 3; 91] [2; 3; 91] [2; 3] = Err AssertionError /\
  forward_shapes MDeltaGlobal (ex_f [3; 4]) (ex_b [3; 1]) [3; 9] [3; 9] [3] = Err ValueError /\
  forward_shapes MDeltaGlobal (ex_f [3; 6]) (ex_b [3; 1]) [3; 9] [3; 9] [3] = Err AssertionError /\
  forward_shapes MDeltaLocal (ex_f [3; 4]) (ex_b [3; 1]) [3; 9] [3; 9] [3] = Ok [3; 9] /\
  forward_shapes MBicycle (ex_f [2]) (ex_b [3; 1]) [3; 9] [3; 9] [3] = Ok [3; 9] /\
  stretches_to [1] [3] /\ ~ stretches_to [2] [3].
Proof.
  do 6 (split; [reflexivity|]). split.
  - split; [cbn; lia|]. intros [|i] H; cbn in *; [auto|lia].
  - intros [_ H]. specialize (H 0 ltac:(cbn; lia)). cbn in H. lia.
Qed.

Print Assumptions C65_same_shape_types.
Print Assumptions C65_refusal_is_assertion_error.
Print Assumptions C65_paths.
Print Assumptions C65_masked_array.
Print Assumptions C65_action.
Print Assumptions C65_pose.
Print Assumptions C65_observation.
Print Assumptions C65_state.
Print Assumptions C65_zeros.
Print Assumptions C65_forward_state.
Print Assumptions C65_forward_delta_global.
Print Assumptions C65_forward_delta_local.
Print Assumptions C65_forward_bicycle.
Print Assumptions C65_forward_no_frames.
Print Assumptions C65_forward_floating_flags.
Print Assumptions C65_valid_means_float32_refuted.
Print Assumptions C65_valid_state_has_valid_parts_refuted.
Print Assumptions C65_valid_observation_agrees_on_objects_refuted.
Print Assumptions C65_one_action_per_object_refuted.
