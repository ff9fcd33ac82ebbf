(** Model of waymax/datatypes/observation.py.  An Observation of shape
    (num_observations,) is the list of its per-observer slices; the leaves of
    shape (num_observations, num_objects, ...) are per observer.  Batch
    dimensions are left out. *)
From Coq Require Import List ZArith Bool.
From Verif.Lib Require Import Base JaxIndex Scalar.
From Verif.Model Require Import Operations State Geometry Pose Roadgraph.
Import ListNotations.

(** config.py:20-29, CoordinateFrame. *)
Inductive coordinate_frame := FRAME_SDC | FRAME_OBJECT | FRAME_GLOBAL.

Section Observation.
  Context {S : Scalar}.
  Local Open Scope F_scope.

  (** observation.py:186-232, Observation for one observer. *)
  Record view := mkview {
    v_traj : traj; v_is_ego : list bool; v_pose : pose2d; v_meta : list meta;
    v_rg : list rgpt; v_tls : list (list tlight); v_paths : list path }.
  Definition observation := list view.

  (** observation.py:289-330, transform_trajectory at one entry. *)
  Definition transform_pt (ps : pose2d) (p : pt) : pt :=
    let xy := transform_point (ps_mat ps) (p_x p, p_y p) in
    let v := transform_direction (ps_mat ps) (p_vx p, p_vy p) in
    mkpt (fst xy) (snd xy) (p_z p) (fst v) (snd v) (p_yaw p + ps_dyaw ps)
      (p_valid p && ps_valid ps) (p_ts p) (p_len p) (p_wid p) (p_hei p).
  Definition transform_trajectory (tr : traj) (ps : pose2d) : traj :=
    map (map (transform_pt ps)) tr.

  (** observation.py:333-366, transform_roadgraph_points. *)
  Definition transform_rgpt (ps : pose2d) (p : rgpt) : rgpt :=
    let xy := transform_point (ps_mat ps) (rg_x p, rg_y p) in
    let d := transform_direction (ps_mat ps) (rg_dx p, rg_dy p) in
    mkrg (fst xy) (snd xy) (rg_z p) (fst d) (snd d) (rg_dz p)
      (rg_type p) (rg_id p) (rg_valid p && ps_valid ps).

  (** observation.py:369-394, transform_traffic_lights. *)
  Definition transform_tlight (ps : pose2d) (p : tlight) : tlight :=
    let xy := transform_point (ps_mat ps) (tl_x p, tl_y p) in
    mktl (fst xy) (snd xy) (tl_z p) (tl_state p) (tl_lane p)
      (tl_valid p && ps_valid ps).

  (** observation.py:397-427, transform_observation for one observer; the SDC
      paths are not transformed by the code. *)
  Definition transform_view (v : view) (dst : pose2d) : view :=
    let pose := combine_two_object_pose_2d (v_pose v) dst in
    mkview (transform_trajectory (v_traj v) pose) (v_is_ego v) dst (v_meta v)
      (map (transform_rgpt pose) (v_rg v))
      (map (map (transform_tlight pose)) (v_tls v)) (v_paths v).
  Definition transform_observation (o : observation) (ps : list pose2d)
    : res observation :=
    let* _ := guard (length o =? length ps)%nat AssertionError in
    Ok (map2 transform_view o ps).

  (** observation.py:458-531, global_observation_from_state (with
      _tree_expand_and_repeat 534-538).  A state without roadgraph makes
      validate() read the shape of None. *)
  Definition global_observation_from_state (s : state) (obs_num_steps num_obj : nat)
    : res observation :=
    let start := (s_t s - Z.of_nat obs_num_steps + 1)%Z in
    let* tr := dynamic_slice (s_sim s) start obs_num_steps in
    let* tls := dynamic_slice (s_tls s) start obs_num_steps in
    let* rg := match s_rg s with Some rg => Ok rg | None => Err AttributeError end in
    Ok (repeat
      (mkview tr (map (fun _ => false) (s_meta s))
         (from_center_and_yaw (f0, f0) f0 true) (s_meta s) rg tls
         [mkpath [mkpp f0 f0 f0 0 false f0] false]) num_obj).

  (** jax.lax.top_k(is_sdc, k=1): the first SDC, or object 0 when there is none
      (observation.py:586, 640). *)
  Fixpoint first_sdc (k : nat) (ms : list meta) : option nat :=
    match ms with
    | [] => None
    | m :: r => if m_is_sdc m then Some k else first_sdc (Datatypes.S k) r
    end.
  Definition sdc_index (ms : list meta) : res nat :=
    match ms with
    | [] => Err ValueError
    | _ => Ok (match first_sdc 0 ms with Some k => k | None => 0%nat end)
    end.

  (** Pose of an object at its current frame (observation.py:560-562, 581-584). *)
  Definition pose_of_pt (p : pt) : pose2d :=
    from_center_and_yaw (p_x p, p_y p) (p_yaw p) (p_valid p).

  (** observation.py:564-579: is_ego is jnp.diag(jnp.arange(num_obj)) == 1, and
      the roadgraph is filtered around every object. *)
  Definition is_ego_row (num_obj i : nat) : list bool :=
    map (fun j => (if (i =? j)%nat then i else 0%nat) =? 1)%nat (seq 0 num_obj).
  Definition filter_view (num_obj topk : nat) (x : nat * (view * pt)) : res view :=
    let '(i, (v, p)) := x in
    let* rg := filter_topk_roadgraph_points (v_rg v) (p_x p, p_y p) topk in
    Ok (mkview (v_traj v) (is_ego_row num_obj i) (v_pose v) (v_meta v) rg
          (v_tls v) (v_paths v)).

  (** observation.py:541-605, observation_from_state. *)
  Definition observation_from_state (s : state) (obs_num_steps topk : nat)
    (frame : coordinate_frame) : res observation :=
    let* cur := current_sim s in
    let num_obj := length (s_sim s) in
    let* g := global_observation_from_state s obs_num_steps num_obj in
    let* gf := mapM (filter_view num_obj topk)
                 (combine (seq 0 num_obj) (combine g cur)) in
    match frame with
    | FRAME_OBJECT => transform_observation gf (map pose_of_pt cur)
    | FRAME_GLOBAL => Ok gf
    | FRAME_SDC =>
        let* i := sdc_index (s_meta s) in
        let* p := match nth_error cur i with Some p => Ok p | None => Err IndexError end in
        transform_observation gf (repeat (pose_of_pt p) num_obj)
    end.

  (** observation.py:609-676, sdc_observation_from_state. *)
  Definition sdc_observation_from_state (s : state) (obs_num_steps topk : nat)
    (frame : coordinate_frame) : res observation :=
    let* cur := current_sim s in
    let* i := sdc_index (s_meta s) in
    let* p := match nth_error cur i with Some p => Ok p | None => Err IndexError end in
    let* g := global_observation_from_state s obs_num_steps 1 in
    let* gf := mapM (fun v =>
        let* rg := filter_topk_roadgraph_points (v_rg v) (p_x p, p_y p) topk in
        Ok (mkview (v_traj v) (map m_is_sdc (s_meta s)) (v_pose v) (v_meta v) rg
              (v_tls v)
              (match s_paths s with Some ps => ps | None => v_paths v end))) g in
    match frame with
    | FRAME_OBJECT | FRAME_SDC => transform_observation gf [pose_of_pt p]
    | FRAME_GLOBAL => Ok gf
    end.

  (** observation.py:248-260, Observation.for_obj: the axis is len(shape) - 2.
      Without batch dimensions this is axis -1, the last axis of every leaf: the
      time axis of the trajectory leaves and the observer axis of the pose's
      yaw. *)
  Definition for_obj_trajectory (o : observation) (idx : Z) : res (list traj) :=
    mapM (fun v => dynamic_slice (v_traj v) idx 1) o.
  Definition for_obj_yaw (o : observation) (idx : Z) : res (list F) :=
    dyn_slice idx 1 (map (fun v => ps_yaw (v_pose v)) o).
  (** With one batch dimension it is axis 0, the batch axis of every leaf. *)
  Definition for_obj_batched (os : list observation) (idx : Z)
    : res (list observation) := dyn_slice idx 1 os.
End Observation.
