(** Model of waymax/agents on states with batch dimensions: sim_agent.py,
    waypoint_following_agent.py, constant_speed.py, expert.py and actor_core.py, and the inverse
    functions of waymax/dynamics that they call (Model/Batch.v has the batched state,
    Model/Actor.v and Model/Waypoint.v the same functions for one scenario, whose
    formulas for one object are used here). *)
From Coq Require Import List ZArith Bool.
From Verif.Lib Require Import Base JaxIndex Scalar.
From Verif.Model Require Import Operations State Dynamics Dyn_State Dyn_Delta Dyn_Bicycle
  Geometry Discretizer Metrics Actor Waypoint Batch BatchMetrics.
Import ListNotations.

(* ---------------- numpy / JAX library semantics ---------------- *)

(** x[..., jnp.newaxis, :] *)
Definition newaxis_2nd {A} (x : arr A) : arr A :=
  mkA (removelast (dims x) ++ [1; last (dims x) 0])
    (fun i => cell x (removelast (removelast i) ++ [last i 0])).

(** x[..., jnp.newaxis, :, :] *)
Definition newaxis_3rd {A} (x : arr A) : arr A :=
  let d := removelast (removelast (dims x)) in
  mkA (d ++ [1; last (removelast (dims x)) 0; last (dims x) 0])
    (fun i => cell x (removelast (removelast (removelast i)) ++ [last (removelast i) 0; last i 0])).

(** jnp.concatenate([x, y], axis=-1); the other axes must agree. *)
Definition b_concat {A} (x y : arr A) : res (arr A) :=
  let* _ := guard (dims_eqb (removelast (dims x)) (removelast (dims y))) TypeError in
  let k := last (dims x) 0 in
  Ok (mkA (removelast (dims x) ++ [k + last (dims y) 0])
        (fun i => if (last i 0 <? k)%nat then cell x i
                  else cell y (removelast i ++ [last i 0 - k]))).

(** A function from rows to rows of length [k], mapped (jax.vmap) over all axes but the
    last. *)
Definition vmap_rows {A C} (f : list A -> list C) (k : nat) (default : C) (x : arr A) : arr C :=
  mkA (removelast (dims x) ++ [k])
    (fun i => nth (last i 0) (f (row x (removelast i))) default).

(** jnp.expand_dims(jnp.eye(n, dtype=bool)[..., jnp.newaxis], axis=np.arange(r)). *)
Definition eye_mask (r n : nat) : arr bool :=
  mkA (repeat 1 r ++ [n; n; 1])
    (fun i => (last (removelast (removelast i)) 0 =? last (removelast i) 0)%nat).

Section BatchAgents.
  Context {S : Scalar}.

  (** jnp.cumsum(x, axis=-1). *)
  Definition b_cumsum (x : arr F) : arr F := vmap_rows cumsum (last (dims x) 0) f0 x.

  (* ---------------- dynamics: inverse ---------------- *)

  (** inverse on arrays: trajectory (..., num_objects, num_timesteps), metadata and a
      timestep; result (..., num_objects). *)
  Definition binverse := arr pt -> arr meta -> arr Z -> res (arr act).

  (** state_dynamics.py:70-99, StateDynamics.inverse. *)
  Definition b_state_inverse : binverse := fun tr _ timestep =>
    let* _ := guard (length (dims timestep) =? 0)%nat TypeError in
    let* sl := b_slice tr (amap (fun t => t + 1)%Z timestep) 1 in
    Ok (amap (fun p => mkact [p_x p; p_y p; p_yaw p; p_vx p; p_vy p] (p_valid p)) (drop_last sl)).

  (** delta.py:120-155, DeltaGlobal.inverse, and bicycle_model.py:231-264,
      InvertibleBicycleModel.inverse: elementwise on the two sliced frames; [f] is the
      computation for one object. *)
  Definition b_pair_inverse (f : pt -> pt -> act) : binverse := fun tr _ timestep =>
    let* _ := guard (length (dims timestep) =? 0)%nat TypeError in
    let* sl := b_slice tr timestep 2 in
    Ok (mkA (removelast (dims sl))
          (fun i => f (cell sl (i ++ [0%nat])) (cell sl (i ++ [1%nat])))).

  (** delta.py:198-241, DeltaLocal.inverse. *)
  Definition b_local_inverse (q : delta_params) : binverse := fun tr _ timestep =>
    let* _ := guard (length (dims timestep) =? 0)%nat TypeError in
    let* sl := b_slice tr timestep 2 in
    let* cur := b_slice tr timestep 1 in
    Ok (mkA (removelast (dims sl))
          (fun i => delta_local_inverse1 q (cell sl (i ++ [0%nat])) (cell sl (i ++ [1%nat]))
                      (cell cur (i ++ [0%nat])))).

  (* ---------------- actor_core.py ---------------- *)

  (** Parameters, states of an actor for a whole batch, and random keys. *)
  Context {P XB K : Type}.

  (** actor_core.py:36-60, WaymaxActorOutput on a batch. *)
  Record boutput := mkbout { bo_state : XB; bo_action : arr act; bo_controlled : arr bool }.

  (** actor_core.py:63-102, WaymaxActorCore on a batch. *)
  Record bactor := mkbactor {
    ba_init : option K -> bstate -> res XB;
    ba_select : P -> bstate -> XB -> option K -> res boutput }.

  (* ---------------- sim_agent.py ---------------- *)

  (** sim_agent.py:28-103, SimAgentActor; action.py:103-113, as_action joins the
      fields (..., num_objects, 1) along the last axis. *)
  Definition b_sim_agent (none : XB) (is_controlled : bstate -> arr bool)
    (update_trajectory : bstate -> res (arr upd)) : bactor :=
    mkbactor (fun _ _ => Ok none)
      (fun _ s _ _ =>
         let* us := update_trajectory s in
         Ok (mkbout none (amap as_action (drop_last us)) (is_controlled s))).

  (** sim_agent.py:24, _DEFAULT_CONTROL_FUNC, and expert.py:27, _IS_SDC_FUNC. *)
  Definition b_control_non_sdc (s : bstate) : arr bool := amap (fun m => negb (m_is_sdc m)) (b_meta s).
  Definition b_control_sdc (s : bstate) : arr bool := amap m_is_sdc (b_meta s).

  (** sim_agent.py:106-121, FrozenSimPolicy.update_trajectory. *)
  Definition b_frozen_update (s : bstate) : res (arr upd) :=
    let* cur := b_current_sim s in
    Ok (amap (fun p => mkupd (p_x p) (p_y p) (p_yaw p) (p_vx p) (p_vy p) (p_valid p)) cur).

  (* ---------------- expert.py, constant_speed.py: actors ---------------- *)

  (** expert.py:31-61, infer_expert_action. *)
  Definition b_infer_expert_action (inv : binverse) (s : bstate) : res (arr act) :=
    let* prev := b_slice (b_sim s) (b_t s) 1 in
    let* next := b_slice (b_log s) (amap (fun t => t + 1)%Z (b_t s)) 1 in
    let* both := b_concat prev next in
    inv both (b_meta s) (scalar 0%Z).

  (** expert.py:64-107, create_expert_actor. *)
  Definition b_expert_actor (none : XB) (inv : binverse) (is_controlled : bstate -> arr bool) : bactor :=
    mkbactor (fun _ _ => Ok none)
      (fun _ s _ _ =>
         let* a := b_infer_expert_action inv s in
         Ok (mkbout none a (is_controlled s))).

  (** constant_speed.py:48-98, create_constant_speed_actor. *)
  Definition b_constant_speed_actor (none : XB) (inv : binverse)
    (is_controlled : bstate -> arr bool) (speed : option F) : bactor :=
    mkbactor (fun _ _ => Ok none)
      (fun _ s _ _ =>
         let* t0 := b_slice (b_sim s) (b_t s) 1 in
         let ctrl := is_controlled s in
         let* t1 := amap2 (constant_speed_next speed) (newaxis ctrl) t0 in
         let* both := b_concat t0 t1 in
         let* acts := inv both (b_meta s) (scalar 0%Z) in
         Ok (mkbout none acts ctrl)).

  (* ---------------- waypoint_following_agent.py ---------------- *)

  (** waypoint_following_agent.py:68-182 and 511-578, update_trajectory of a
      WaypointFollowingPolicy: elementwise, but for the projection on the logged
      trajectory, which is mapped over all axes but the last. *)
  Definition b_waypoint_update (invalidate_on_end : bool)
    (update_speed : bstate -> res (arr (F * bool))) (s : bstate) : res (arr upd) :=
    let* sv := update_speed s in
    let* cur := b_current_sim s in
    let* x := amap2 pair cur (newaxis sv) in
    let* _ := guard (vmappable (removelast (dims x)) (dims (b_log s))) ValueError in
    let* _ := guard (negb (last (dims (b_log s)) 0 =? 0)%nat) ValueError in
    Ok (mkA (dims x) (fun i =>
          let '(c, (v, ok)) := cell x i in
          match next_by_projection invalidate_on_end default_time_delta
                  (row (b_log s) (removelast i)) c v ok with
          | Ok p => mkupd (p_x p) (p_y p) (p_yaw p) (p_vx p) (p_vy p) (p_valid p)
          | Err _ => mkupd f0 f0 f0 f0 f0 false
          end)).

  (** constant_speed.py:101-127, ConstantSpeedPolicy. *)
  Definition b_constant_update_speed (speed : F) (s : bstate) : res (arr (F * bool)) :=
    Ok (mkA (b_shape s ++ [last (dims (b_meta s)) 0%nat]) (fun _ => (speed, true))).
  Definition b_constant_speed_policy (speed : F) : bstate -> res (arr upd) :=
    b_waypoint_update true (b_constant_update_speed speed).

  (** waypoint_following_agent.py:479-509, _find_reference_traj_from_log_traj: mapped
      over all axes but the last. *)
  Definition b_reference_traj (at_ tr : arr pt) (num_pts : nat) : res (arr pt) :=
    let* _ := guard (dims_eqb (removelast (dims at_)) (removelast (dims tr))) AssertionError in
    let* _ := guard (num_pts <=? last (dims tr) 0)%nat TypeError in
    Ok (mkA (removelast (dims tr) ++ [num_pts]) (fun i =>
          let i' := removelast i in
          match reference_traj (cell at_ (i' ++ [0%nat])) (row tr i') num_pts with
          | Ok l => nth (last i 0%nat) l invalid_pt
          | Err _ => invalid_pt
          end)).

  (** waypoint_following_agent.py:303-326, the waypoints checked for collisions.
      Simplification: the points added by _add_headway_waypoints
      (waypoint_following_agent.py:598-643) are computed row by row. *)
  Definition b_lookahead_traj (p : idm_params) (log cur : arr pt) : res (arr pt) :=
    let* tr := if lookahead_from_current_position p then b_reference_traj cur cur 1
               else b_reference_traj cur log (max_lookahead p) in
    Ok (if (0 <? additional_headway_points p)%nat
        then vmap_rows
               (add_headway_waypoints (additional_lookahead_distance p) (additional_headway_points p))
               (last (dims tr) 0 + additional_headway_points p)%nat invalid_pt tr
        else tr).

  (** waypoint_following_agent.py:328-356, collision[..., i, j, t]. *)
  Definition b_collision (tr cur : arr pt) : res (arr bool) :=
    let n := b_num_objects cur in
    let* over := amap2 (fun w c => has_overlap (pt_box w) (pt_box c)) (newaxis_2nd tr) (newaxis_3rd cur) in
    let* valid := amap2 andb (amap p_valid (newaxis_2nd tr)) (amap p_valid (newaxis_3rd cur)) in
    let* valid := amap2 (fun v e => v && negb e) valid (eye_mask (length (dims cur) - 2) n) in
    amap2 (fun (v c : bool) => if v then c else false) valid over.

  (** waypoint_following_agent.py:358-367 and 399-435, _compute_lead_velocity with the
      speeds and validities of the objects. *)
  Definition b_lead_velocity (cur : arr pt) (coll : arr bool) : res (arr F) :=
    let* v := amap2 (fun (c : bool) v => if c then v else finf) coll (newaxis_3rd (amap obj_speed cur)) in
    let* v := amap2 (fun (ok : bool) v => if ok then v else finf) (newaxis_3rd (amap p_valid cur)) v in
    let per_t := reduce_2nd list_min v in
    let cum := b_cumsum (amap (fun v => if fisfinite v then v else f0) per_t) in
    let* cum := amap2 (fun v c => if fisfinite v then c else finf) per_t cum in
    Ok (amap (fun l => if fisfinite l then l else default_lead_velocity) (reduce_last list_min cum)).

  (** waypoint_following_agent.py:369-376 and 437-476, _compute_lead_distance. *)
  Definition b_lead_distance (tr cur : arr pt) (coll : arr bool) : res (arr F) :=
    let any := reduce_2nd (existsb (fun b => b)) coll in
    let* d := amap2 pt_dist3 cur tr in
    let* d := amap2 (fun (c : bool) d => if c then d else finf) any d in
    Ok (amap (fun l => if fisfinite l then l else default_lead_distance) (reduce_last list_min d)).

  (** waypoint_following_agent.py:239-397, IDMRoutePolicy.update_speed. *)
  Definition b_idm_update_speed (p : idm_params) (s : bstate) : res (arr (F * bool)) :=
    let* cur := b_current_sim s in
    let* _ := guard (dims_eqb (removelast (dims (b_log s))) (removelast (dims cur))) AssertionError in
    let* tr := b_lookahead_traj p (b_log s) cur in
    let* coll := b_collision tr cur in
    let* lead_vel := b_lead_velocity cur coll in
    let* lead_dist := b_lead_distance tr cur coll in
    let cur_speed := drop_last (amap obj_speed cur) in
    let* lead := amap2 pair lead_vel lead_dist in
    let* accel := amap2 (fun v l => idm_accel p v (fst l) (snd l)) cur_speed lead in
    amap2 (fun v a => (next_speed default_time_delta v a, true)) cur_speed accel.

  (** IDMRoutePolicy as a SimAgentActor. *)
  Definition b_idm_policy (p : idm_params) : bstate -> res (arr upd) :=
    b_waypoint_update (idm_invalidate_on_end p) (b_idm_update_speed p).
End BatchAgents.
Arguments boutput {S} XB.
Arguments bactor {S} P XB K.
