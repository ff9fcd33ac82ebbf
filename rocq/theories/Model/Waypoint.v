(** Model of waymax/agents/waypoint_following_agent.py and of ConstantSpeedPolicy in
    waymax/agents/constant_speed.py. *)
From Coq Require Import List ZArith Bool.
From Verif.Lib Require Import Base JaxIndex Scalar.
From Verif.Model Require Import Operations State Dynamics Geometry Discretizer Metrics Actor.
Import ListNotations.

Section Waypoint.
  Context {S : Scalar}.
  Local Open Scope F_scope.

  (** waypoint_following_agent.py:27-47, the module constants. *)
  Definition default_lead_distance : F := fm1.
  Definition default_lead_velocity : F := fm1.
  Definition minimum_lead_distance : F := flit 1 10.
  Definition default_time_delta : F := flit 1 10.
  Definition reached_end_threshold : F := flit 5 100.
  Definition distance_to_ref_threshold : F := flit 5 1.
  Definition static_speed_threshold : F := flit 1 1.

  (** object_state.py:197-202, Trajectory.speed at one entry. *)
  Definition obj_speed (p : pt) : F := if p_valid p then norm2 (p_vx p) (p_vy p) else fm1.

  (** jnp.argmax on an integer array: the first maximum. *)
  Fixpoint argmaxn_from (best best_i i : nat) (l : list nat) : nat :=
    match l with
    | [] => best_i
    | x :: l' => if (best <? x)%nat then argmaxn_from x i (Datatypes.S i) l'
                 else argmaxn_from best best_i (Datatypes.S i) l'
    end.
  Definition argmaxn (l : list nat) : nat :=
    match l with [] => 0%nat | x :: l' => argmaxn_from x 0 1 l' end.

  (** waypoint_following_agent.py:531-571, project_point_to_traj: projected point,
      heading, reached-the-end flag.  argmin of an empty axis raises. *)
  Definition project_point (extrapolate : bool) (xy : vec) (tr : list pt) : res (vec * F * bool) :=
    let dist := map (fun w => if p_valid w then norm2 (p_x w - fst xy) (p_y w - snd xy) else finf) tr in
    let idx := argmin dist in
    let last_idx := argmaxn (mapi (fun i w => if p_valid w then i else 0%nat) tr) in
    match nth_error tr idx, nth_error tr last_idx, nth_error dist idx with
    | Some src, Some last, Some d =>
        let reached := fltb (norm2 (p_x last - p_x src) (p_y last - p_y src)) reached_end_threshold
                       || fltb distance_to_ref_threshold d in
        let stop := negb extrapolate && reached in
        let dx := if stop then f0 else fcos (p_yaw src) in
        let dy := if stop then f0 else fsin (p_yaw src) in
        let inner := dx * (fst xy - p_x src) + dy * (snd xy - p_y src) in
        Ok ((dx * inner + p_x src, dy * inner + p_y src), p_yaw src, reached)
    | _, _, _ => Err ValueError
    end.

  (** waypoint_following_agent.py:91-182, _get_next_trajectory_by_projection for one
      object: logged waypoints, current frame, new speed and its validity. *)
  Definition next_by_projection (invalidate_on_end : bool) (dt : F) (log : list pt) (cur : pt)
    (speed : F) (speed_valid : bool) : res pt :=
    let cur_speed := obj_speed cur in
    let new_speed := if speed_valid then speed else cur_speed in
    let dist_travel := (new_speed + cur_speed) / f2 * dt in
    let nx := p_x cur + dist_travel * fcos (p_yaw cur) in
    let ny := p_y cur + dist_travel * fsin (p_yaw cur) in
    let* pr := project_point (negb invalidate_on_end) (nx, ny) log in
    let '(xy, yaw, reached) := pr in
    let dvx := if invalidate_on_end then f0 else p_vx cur in
    let dvy := if invalidate_on_end then f0 else p_vy cur in
    let vx := if reached then dvx else new_speed * fcos (p_yaw cur) in
    let vy := if reached then dvy else new_speed * fsin (p_yaw cur) in
    let valid := if invalidate_on_end
                 then speed_valid && negb (reached && fltb static_speed_threshold new_speed)
                 else speed_valid in
    if valid && p_valid cur
    then Ok (mkpt (fst xy) (snd xy) (p_z cur) vx vy yaw true (p_ts cur) (p_len cur) (p_wid cur) (p_hei cur))
    else Ok invalid_pt.

  (** waypoint_following_agent.py:68-89, update_trajectory from update_speed (speeds and
      validity per object). *)
  Definition waypoint_update (invalidate_on_end : bool) (update_speed : state -> res (list (F * bool)))
    (s : state) : res (list upd) :=
    let* sv := update_speed s in
    let* cur := current_sim s in
    let* _ := guard ((length cur =? length (s_log s)) && (length sv =? length cur))%nat ValueError in
    mapM (fun q => let '(log, c, v) := q in
                   let* p := next_by_projection invalidate_on_end default_time_delta log c (fst v) (snd v) in
                   Ok (mkupd (p_x p) (p_y p) (p_yaw p) (p_vx p) (p_vy p) (p_valid p)))
      (map3 (fun l c v => (l, c, v)) (s_log s) cur sv).

  (** constant_speed.py:112-127, ConstantSpeedPolicy.update_speed; the policy has
      invalidate_on_end=True (constant_speed.py:109). *)
  Definition constant_update_speed (speed : F) (s : state) : res (list (F * bool)) :=
    Ok (map (fun _ => (speed, true)) (s_log s)).
  Definition constant_speed_policy (speed : F) : state -> res (list upd) :=
    waypoint_update true (constant_update_speed speed).

  (** waypoint_following_agent.py:479-509, _find_reference_traj_from_log_traj, one
      object. *)
  Definition norm3 (dx dy dz : F) : F := fsqrt (dx * dx + dy * dy + dz * dz).
  Definition pt_dist3 (a b : pt) : F := norm3 (p_x a - p_x b) (p_y a - p_y b) (p_z a - p_z b).
  Definition reference_traj (at_ : pt) (tr : list pt) (num_pts : nat) : res (list pt) :=
    let dists := map (fun w => if p_valid w then pt_dist3 at_ w else finf) tr in
    dyn_slice (Z.of_nat (argmin dists)) num_pts tr.

  (** waypoint_following_agent.py:598-643, _add_headway_waypoints, one object.
      jnp.linspace(0, distance, n + 1)[k] is taken as distance * k / n. *)
  Definition spacing (distance : F) (num_points k : nat) : F :=
    distance * fofZ (Z.of_nat k) / fofZ (Z.of_nat num_points).
  Definition headway_point (distance : F) (num_points : nat) (p : pt) (k : nat) : pt :=
    mkpt (fcos (p_yaw p) * spacing distance num_points k + p_x p)
      (fsin (p_yaw p) * spacing distance num_points k + p_y p)
      (p_z p) (p_vx p) (p_vy p) (p_yaw p) (p_valid p) (p_ts p) (p_len p) (p_wid p) (p_hei p).
  Definition add_headway_waypoints (distance : F) (num_points : nat) (tr : list pt) : list pt :=
    match rev tr with
    | [] => []
    | last :: _ => tr ++ map (headway_point distance num_points last) (seq 1 num_points)
    end.

  (** jnp.cumsum. *)
  Fixpoint cumsum_from (acc : F) (l : list F) : list F :=
    match l with [] => [] | x :: l' => (acc + x) :: cumsum_from (acc + x) l' end.
  Definition cumsum (l : list F) : list F :=
    match l with [] => [] | x :: l' => x :: cumsum_from x l' end.

  (** waypoint_following_agent.py:399-435, _compute_lead_velocity for one agent:
      arrays over other objects and waypoints (broadcast by the caller). *)
  Definition collision_vels_at (speed : F) (collides valid : bool) : F :=
    if valid then (if collides then speed else finf) else finf.
  Definition compute_lead_velocity (speeds : list (list F)) (collisions valid : list (list bool))
    (num_waypoints : nat) : F :=
    let at_ := map3 (map3 collision_vels_at) speeds collisions valid in
    let per_t := map (fun t => list_min (map (fun r => nth t r finf) at_)) (seq 0 num_waypoints) in
    let mask := map fisfinite per_t in
    let cum := cumsum (map2 (fun (m : bool) v => if m then v else f0) mask per_t) in
    let lead := list_min (map2 (fun (m : bool) v => if m then v else finf) mask cum) in
    if fisfinite lead then lead else default_lead_velocity.

  (** waypoint_following_agent.py:437-476, _compute_lead_distance with
      use_arclength=False and a given current position (the only way it is called),
      one agent. *)
  Definition compute_lead_distance (future : list pt) (collides : list bool) (cur : pt) : F :=
    let d := map2 (fun p (c : bool) => if c then pt_dist3 cur p else finf) future collides in
    let lead := list_min d in
    if fisfinite lead then lead else default_lead_distance.

  (** waypoint_following_agent.py:204-237, IDMRoutePolicy's parameters. *)
  Record idm_params := mkidm {
    desired_vel : F; min_spacing_s0 : F; safe_time_headway : F;
    max_accel : F; max_decel : F; idm_delta : F;
    max_lookahead : nat; lookahead_from_current_position : bool;
    additional_headway_points : nat; additional_lookahead_distance : F;
    idm_invalidate_on_end : bool }.
  Definition default_idm : idm_params :=
    mkidm (flit 30 1) (flit 2 1) (flit 2 1) (flit 2 1) (flit 4 1) (flit 4 1)
      10 true 10 (flit 10 1) false.

  (** waypoint_following_agent.py:376-397, the IDM acceleration from the speed, the gap
      and the speed of the leader. *)
  Definition desired_gap (p : idm_params) (cur_speed lead_vel : F) : F :=
    min_spacing_s0 p + fmax f0 (cur_speed * safe_time_headway p
      + cur_speed * (cur_speed - lead_vel) / (f2 * fsqrt (max_accel p * max_decel p))).
  Definition idm_accel (p : idm_params) (cur_speed lead_vel lead_dist : F) : F :=
    let s_star := if feqb lead_dist default_lead_distance || feqb lead_vel default_lead_velocity
                  then f0 else desired_gap p cur_speed lead_vel in
    let lead_dist := if feqb lead_dist f0 then minimum_lead_distance else lead_dist in
    let r := s_star / lead_dist in
    max_accel p * (f1 - fpow (cur_speed / desired_vel p) (idm_delta p) - r * r).

  (** waypoint_following_agent.py:303-326, the waypoints of one object that are checked
      for collisions. *)
  Definition lookahead_traj (p : idm_params) (log : list pt) (cur : pt) : res (list pt) :=
    let* tr := if lookahead_from_current_position p then reference_traj cur [cur] 1
               else reference_traj cur log (max_lookahead p) in
    Ok (if (0 <? additional_headway_points p)%nat
        then add_headway_waypoints (additional_lookahead_distance p) (additional_headway_points p) tr
        else tr).

  (** waypoint_following_agent.py:328-356, does waypoint [w] of object [i] collide with
      the current frame [c] of object [j]. *)
  Definition collision (i : nat) (w : pt) (j : nat) (c : pt) : bool :=
    if p_valid w && p_valid c && negb (i =? j)%nat
    then has_overlap (pt_box w) (pt_box c) else false.

  (** waypoint_following_agent.py:328-397 for object [i] with checked waypoints [tr] and
      current frame [me], among the current frames [cur]. *)
  Definition object_lead (i : nat) (tr cur : list pt) (me : pt) : F * F :=
    let coll := mapi (fun j c => map (fun w => collision i w j c) tr) cur in
    let speeds := map (fun c => map (fun _ => obj_speed c) tr) cur in
    let valid := map (fun c => map (fun _ => p_valid c) tr) cur in
    let any := map (fun t => existsb (fun r => nth t r false) coll) (seq 0 (length tr)) in
    (compute_lead_velocity speeds coll valid (length tr), compute_lead_distance tr any me).
  Definition object_accel (p : idm_params) (i : nat) (tr cur : list pt) (me : pt) : F :=
    let (lead_vel, lead_dist) := object_lead i tr cur me in
    idm_accel p (obj_speed me) lead_vel lead_dist.

  (** waypoint_following_agent.py:258-268, speed from acceleration. *)
  Definition next_speed (dt cur_speed accel : F) : F :=
    let v := cur_speed + dt * accel in if fltb v f0 then f0 else v.

  (** waypoint_following_agent.py:239-268, IDMRoutePolicy.update_speed. *)
  Definition idm_update_speed (p : idm_params) (s : state) : res (list (F * bool)) :=
    let* cur := current_sim s in
    let* _ := guard (length cur =? length (s_log s))%nat AssertionError in
    let* trs := mapM (fun q => lookahead_traj p (fst q) (snd q)) (combine (s_log s) cur) in
    Ok (mapi (fun i q => (next_speed default_time_delta (obj_speed (snd q))
                            (object_accel p i (fst q) cur (snd q)), true))
          (combine trs cur)).

  (** IDMRoutePolicy as a SimAgentActor. *)
  Definition idm_policy (p : idm_params) : state -> res (list upd) :=
    waypoint_update (idm_invalidate_on_end p) (idm_update_speed p).
  Definition idm_actor {P X K} (none : X) (is_controlled : state -> list bool) (p : idm_params)
    : actor P X K := sim_agent none is_controlled (idm_policy p).
End Waypoint.
