(** Model of the validate methods of waymax/datatypes and of what
    waymax/dynamics/abstract_dynamics.py accepts, at the level of shapes and
    element types: an array is its shape and the kind of its elements. *)
From Coq Require Import List ZArith Bool.
From Verif.Lib Require Import Base.
From Verif.Model Require Import Batch.
Import ListNotations.
Open Scope nat_scope.

(** Element types: floating point, integer (signed or not) or boolean, with a width
    in bits. *)
Inductive kind := Kfloat | Kint | Kbool.
Record etype := mket { e_kind : kind; e_bits : nat }.
Record tensor := mkT { t_shape : list nat; t_type : etype }.

Definition kind_eqb (a b : kind) : bool :=
  match a, b with Kfloat, Kfloat | Kint, Kint | Kbool, Kbool => true | _, _ => false end.

(* ---------------- chex (library behaviour) ---------------- *)

(** chex.assert_equal_shape *)
Definition assert_equal_shape (l : list (list nat)) : res unit :=
  guard (forallb (dims_eqb (hd [] l)) l) AssertionError.

(** chex.assert_equal_shape_prefix: compares shape[:k]; a shape of lower rank is
    compared as it is. *)
Definition assert_equal_shape_prefix (l : list (list nat)) (k : nat) : res unit :=
  assert_equal_shape (map (firstn k) l).

(** chex.assert_type: a floating type accepts any floating type, an integer type
    any integer type. *)
Definition assert_type (l : list tensor) (ks : list kind) : res unit :=
  guard (forallb (fun b => b) (map2 (fun t k => kind_eqb (e_kind (t_type t)) k) l ks))
    AssertionError.

(** chex.assert_rank *)
Definition assert_rank (sh : list nat) (k : nat) : res unit :=
  guard (length sh =? k) AssertionError.

(* ---------------- datatypes ---------------- *)

(** object_state.py:126-165, Trajectory. *)
Record ttraj := mktt {
  tt_x : tensor; tt_y : tensor; tt_z : tensor; tt_vel_x : tensor; tt_vel_y : tensor;
  tt_yaw : tensor; tt_valid : tensor; tt_timestamp : tensor; tt_length : tensor;
  tt_width : tensor; tt_height : tensor }.

(** object_state.py:168-170, shape. *)
Definition tt_shape (t : ttraj) : list nat := t_shape (tt_x t).

(** object_state.py:249-291, Trajectory.validate. *)
Definition traj_validate (t : ttraj) : res unit :=
  let l := [tt_x t; tt_y t; tt_z t; tt_vel_x t; tt_vel_y t; tt_yaw t; tt_valid t;
            tt_timestamp t; tt_length t; tt_width t; tt_height t] in
  let* _ := assert_equal_shape (map t_shape l) in
  assert_type l [Kfloat; Kfloat; Kfloat; Kfloat; Kfloat; Kfloat; Kbool; Kint;
                 Kfloat; Kfloat; Kfloat].

(** object_state.py:231-247, Trajectory.zeros. *)
Definition traj_zeros (sh : list nat) : ttraj :=
  let f := mkT sh (mket Kfloat 32) in
  mktt f f f f f f (mkT sh (mket Kbool 8)) (mkT sh (mket Kint 32)) f f f.

(** object_state.py:42-78, ObjectMetadata. *)
Record tmeta := mktm {
  tm_ids : tensor; tm_types : tensor; tm_is_sdc : tensor; tm_is_modeled : tensor;
  tm_is_valid : tensor; tm_interest : tensor; tm_is_controlled : tensor }.

(** object_state.py:81-83, shape. *)
Definition tm_shape (m : tmeta) : list nat := t_shape (tm_ids m).

(** object_state.py:93-123, ObjectMetadata.validate. *)
Definition meta_validate (m : tmeta) : res unit :=
  let l := [tm_ids m; tm_types m; tm_is_sdc m; tm_is_modeled m; tm_is_valid m;
            tm_interest m; tm_is_controlled m] in
  let* _ := assert_equal_shape (map t_shape l) in
  assert_type l [Kint; Kint; Kbool; Kbool; Kbool; Kbool; Kbool].

(** roadgraph.py:66-103, RoadgraphPoints. *)
Record troad := mktr {
  tr_x : tensor; tr_y : tensor; tr_z : tensor; tr_dx : tensor; tr_dy : tensor;
  tr_dz : tensor; tr_types : tensor; tr_ids : tensor; tr_valid : tensor }.
Definition tr_shape (r : troad) : list nat := t_shape (tr_x r).

(** roadgraph.py:132-168, RoadgraphPoints.validate. *)
Definition road_validate (r : troad) : res unit :=
  let l := [tr_x r; tr_y r; tr_z r; tr_dx r; tr_dy r; tr_dz r; tr_types r; tr_ids r;
            tr_valid r] in
  let* _ := assert_equal_shape (map t_shape l) in
  assert_type l [Kfloat; Kfloat; Kfloat; Kfloat; Kfloat; Kfloat; Kint; Kint; Kbool].

(** traffic_lights.py:41-70, TrafficLights. *)
Record tlights := mktl {
  tl_x : tensor; tl_y : tensor; tl_z : tensor; tl_state : tensor; tl_lanes : tensor;
  tl_valid : tensor }.
Definition tl_shape (r : tlights) : list nat := t_shape (tl_x r).

(** traffic_lights.py:89-104, TrafficLights.validate. *)
Definition lights_validate (r : tlights) : res unit :=
  let l := [tl_x r; tl_y r; tl_z r; tl_state r; tl_lanes r; tl_valid r] in
  let* _ := assert_equal_shape (map t_shape l) in
  assert_type l [Kfloat; Kfloat; Kfloat; Kint; Kint; Kbool].

(** route.py:25-62, Paths. *)
Record tpaths := mktp {
  tp_x : tensor; tp_y : tensor; tp_z : tensor; tp_ids : tensor; tp_valid : tensor;
  tp_arc : tensor; tp_on_route : tensor }.
Definition tp_shape (r : tpaths) : list nat := t_shape (tp_x r).

(** The shape of x[..., a:b]; an array without axes is an IndexError. *)
Definition slice_cols (sh : list nat) (a b : nat) : res (list nat) :=
  match sh with
  | [] => Err IndexError
  | _ => Ok (removelast sh ++ [Nat.min b (last sh 0) - a])
  end.

(** route.py:87-117, Paths.validate. *)
Definition paths_validate (r : tpaths) : res unit :=
  let* x1 := slice_cols (t_shape (tp_x r)) 0 1 in
  let* _ := assert_equal_shape [x1; t_shape (tp_on_route r)] in
  let l := [tp_x r; tp_y r; tp_z r; tp_ids r; tp_valid r; tp_arc r] in
  let* _ := assert_equal_shape (map t_shape l) in
  assert_type (l ++ [tp_on_route r]) [Kfloat; Kfloat; Kfloat; Kint; Kbool; Kfloat; Kbool].

(** array.py:49-52, MaskedArray.validate, of value and valid. *)
Definition masked_validate (value valid : tensor) : res unit :=
  let* _ := assert_equal_shape_prefix [t_shape value; t_shape valid] (length (t_shape valid)) in
  assert_type [valid] [Kbool].

(** action.py:48-52, Action.validate, of data and valid.  The shape of valid indexed at
    -1 is an IndexError for a scalar; the prefix length is then -1, which drops the
    last axis of data. *)
Definition act_validate (data valid : tensor) : res unit :=
  let v := t_shape valid in
  match v with
  | [] => if dims_eqb (removelast (t_shape data)) [] then Err IndexError else Err AssertionError
  | _ =>
      let* _ := assert_equal_shape_prefix [t_shape data; v] (length v - 1) in
      let* _ := guard (last v 0 =? 1) AssertionError in
      assert_type [valid] [Kbool]
  end.

(** action.py:56-76, TrajectoryUpdate. *)
Record tupd := mktu {
  tu_x : tensor; tu_y : tensor; tu_yaw : tensor; tu_vel_x : tensor; tu_vel_y : tensor;
  tu_valid : tensor }.

(** action.py:85-101, TrajectoryUpdate.validate. *)
Definition upd_validate (u : tupd) : res unit :=
  let l := [tu_x u; tu_y u; tu_yaw u; tu_vel_x u; tu_vel_y u; tu_valid u] in
  let* _ := assert_equal_shape (map t_shape l) in
  assert_type l [Kfloat; Kfloat; Kfloat; Kfloat; Kfloat; Kbool].

(** observation.py:40-78, ObjectPose2D. *)
Record tpose := mktpo {
  to_xy : tensor; to_yaw : tensor; to_matrix : tensor; to_delta_yaw : tensor;
  to_valid : tensor }.
Definition to_shape (p : tpose) : list nat := t_shape (to_delta_yaw p).

(** observation.py:161-182, ObjectPose2D.validate. *)
Definition pose_validate (p : tpose) : res unit :=
  let l := [to_xy p; to_yaw p; to_matrix p; to_delta_yaw p; to_valid p] in
  let* _ := assert_equal_shape_prefix (map t_shape l) (length (to_shape p)) in
  assert_type l [Kfloat; Kfloat; Kfloat; Kfloat; Kbool].

(** observation.py:186-224, Observation. *)
Record tobs := mktob {
  ob_traj : ttraj; ob_is_ego : tensor; ob_pose : tpose; ob_meta : tmeta;
  ob_road : troad; ob_lights : tlights; ob_paths : option tpaths }.

(** observation.py:228-231, shape. *)
Definition ob_shape (o : tobs) : list nat := to_shape (ob_pose o).

(** observation.py:262-286, Observation.validate. *)
Definition obs_validate (o : tobs) : res unit :=
  let rank := length (ob_shape o) in
  let* _ := assert_equal_shape_prefix
              [tt_shape (ob_traj o); to_shape (ob_pose o); tm_shape (ob_meta o);
               tr_shape (ob_road o); tl_shape (ob_lights o)] rank in
  let* _ := assert_equal_shape [tm_shape (ob_meta o); t_shape (ob_is_ego o)] in
  let* _ := assert_type [ob_is_ego o] [Kbool] in
  let* _ := assert_rank (tt_shape (ob_traj o)) (rank + 2) in
  let* _ := assert_rank (to_shape (ob_pose o)) rank in
  let* _ := assert_rank (tm_shape (ob_meta o)) (rank + 1) in
  let* _ := assert_rank (tr_shape (ob_road o)) (rank + 1) in
  let* _ := assert_rank (tl_shape (ob_lights o)) (rank + 2) in
  match ob_paths o with
  | None => Ok tt
  | Some p =>
      let* _ := assert_equal_shape_prefix [tt_shape (ob_traj o); tp_shape p] rank in
      assert_rank (tp_shape p) (rank + 2)
  end.

(** simulator_state.py:43-78, SimulatorState and its shape. *)
Record tstate := mkts {
  ts_sim : ttraj; ts_log : ttraj; ts_lights : tlights; ts_meta : tmeta;
  ts_timestep : tensor; ts_paths : option tpaths; ts_road : option troad }.
Definition ts_shape (s : tstate) : list nat := removelast (tm_shape (ts_meta s)).

(** simulator_state.py:118-129, SimulatorState.validate. *)
Definition state_validate (s : tstate) : res unit :=
  assert_equal_shape_prefix
    ([tt_shape (ts_sim s); tt_shape (ts_log s); tl_shape (ts_lights s);
      tm_shape (ts_meta s); t_shape (ts_timestep s)]
     ++ match ts_road s with Some r => [tr_shape r] | None => [] end)
    (length (ts_shape s)).

(* ---------------- dynamics ---------------- *)

(** Elementwise arithmetic: the shapes broadcast (TypeError otherwise), and a
    floating operand makes the result floating.  Only used where one operand is. *)
Definition float_op (a b : tensor) : res tensor :=
  match bdims (t_shape a) (t_shape b) with
  | Some d => Ok (mkT d (mket Kfloat 32))
  | None => Err TypeError
  end.

(** a & b on a boolean array [a]: not defined on floating arrays, and an integer
    array makes the result an integer array. *)
Definition and_op (a b : tensor) : res tensor :=
  match e_kind (t_type b) with
  | Kfloat => Err TypeError
  | k => match bdims (t_shape a) (t_shape b) with
         | Some d => Ok (mkT d (mket k 32))
         | None => Err TypeError
         end
  end.

(** An array of kind floating and the given shape; x / dt, cos x, ... *)
Definition floating (sh : list nat) : tensor := mkT sh (mket Kfloat 32).

(** The shipped models: compute_update of an action (data, valid) on the current
    frame, all of whose numbers have the kind and shape of [cur] and whose valid
    flags are [curv]. *)
Inductive model := MState | MDeltaGlobal | MDeltaLocal | MBicycle.

(** state_dynamics.py:40-68. *)
Definition state_shapes (data valid : tensor) : res tupd :=
  let col a := let* sh := slice_cols (t_shape data) a (a + 1) in Ok (mkT sh (t_type data)) in
  let* x := col 0 in let* y := col 1 in let* yaw := col 2 in
  let* vx := col 3 in let* vy := col 4 in
  Ok (mktu x y yaw vx vy valid).

(** delta.py:68-95: jnp.split into three equal parts. *)
Definition delta_shapes (data valid cur curv : tensor) : res tupd :=
  match t_shape data with
  | [] => Err ValueError
  | sh =>
      let w := last sh 0 in
      let* _ := guard (w mod 3 =? 0) ValueError in
      let part := mkT (removelast sh ++ [w / 3]) (t_type data) in
      let* x := float_op cur part in
      let* v := and_op curv valid in
      Ok (mktu x x x (floating (t_shape part)) (floating (t_shape part)) v)
  end.

(** delta.py:157-195: the rotation matrices have shape (..., num_objects, 2, 2) and
    multiply the first two columns; the result is concatenated with the third. *)
Definition delta_local_shapes (data valid cur curv : tensor) : res tupd :=
  let* two := slice_cols (t_shape data) 0 2 in
  let* third := slice_cols (t_shape data) 2 3 in
  let* _ := guard (last two 0 =? 2) TypeError in
  match bdims (removelast (t_shape cur)) (removelast (t_shape data)) with
  | None => Err TypeError
  | Some d =>
      let* _ := guard (dims_eqb d (removelast third)) TypeError in
      let data' := floating (d ++ [2 + last third 0]) in
      let* valid' := and_op curv valid in
      delta_shapes data' valid' cur curv
  end.

(** bicycle_model.py:162-229: columns 0 and 1 are read (fewer columns are an error:
    clamped indexing of a JAX array is not modelled), and everything else is
    elementwise. *)
Definition bicycle_shapes (data valid cur curv : tensor) : res tupd :=
  match t_shape data with
  | [] => Err IndexError
  | sh =>
      let* _ := guard (2 <=? last sh 0) AssertionError in
      let* x := float_op cur (floating (removelast sh ++ [1])) in
      let* v := and_op curv valid in
      Ok (mktu x x x x x v)
  end.

Definition model_shapes (m : model) (data valid cur curv : tensor) : res tupd :=
  match m with
  | MState => state_shapes data valid
  | MDeltaGlobal => delta_shapes data valid cur curv
  | MDeltaLocal => delta_local_shapes data valid cur curv
  | MBicycle => bicycle_shapes data valid cur curv
  end.

(** abstract_dynamics.py:36-85 and 175-252, forward up to the writing of the new
    frame, for one scalar timestep: the shape of the result.  [sim] and [ref] are the
    shapes of two valid trajectories, [ctrl] of is_controlled. *)
Definition forward_shapes (m : model) (data valid : tensor) (sim ref ctrl : list nat)
  : res (list nat) :=
  let ashape := removelast (t_shape valid) in
  let* _ := guard (dims_eqb (removelast sim) ashape) AssertionError in
  let* _ := assert_equal_shape_prefix [sim; ref; ctrl; ashape] (length ctrl) in
  let* _ := guard ((1 <=? length sim) && (1 <=? last sim 0)) TypeError in
  let cur := removelast sim ++ [1] in
  let* u := model_shapes m data valid (floating cur) (mkT cur (mket Kbool 8)) in
  let* _ := upd_validate u in
  let* _ := guard ((1 <=? length ref) && (1 <=? last ref 0)) TypeError in
  let next := removelast ref ++ [1] in
  let* _ := assert_equal_shape [ctrl ++ [1]; t_shape (tu_x u); next] in
  let* _ := guard (dims_eqb cur next) TypeError in
  Ok sim.
