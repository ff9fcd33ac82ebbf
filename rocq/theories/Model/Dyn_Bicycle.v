(** Model of waymax/dynamics/bicycle_model.py. *)
From Coq Require Import List ZArith Bool.
From Verif.Lib Require Import Base JaxIndex Scalar.
From Verif.Model Require Import Operations State Dynamics Geometry Dyn_State Dyn_Delta.
Import ListNotations.

Section Bicycle.
  Context {S : Scalar}.
  Local Open Scope F_scope.

  (** x ** 2 *)
  Definition fsq (x : F) : F := x * x.

  (** bicycle_model.py:43, _SPEED_LIMIT. *)
  Definition speed_limit : F := flit 6 10.

  (** sqrt(vel_x ** 2 + vel_y ** 2). *)
  Definition vel_norm (vx vy : F) : F := fsqrt (fsq vx + fsq vy).

  (** bicycle_model.py:46-112, compute_inverse of one object from the two sliced
      frames: (accel, steering, valid). *)
  Definition bicycle_inverse1 (dt : F) (estimate_yaw_with_velocity : bool)
    (p0 p1 : pt) : F * F * bool :=
    let valid := p_valid p0 && p_valid p1 in
    let speed := vel_norm (p_vx p0) (p_vy p0) in
    let new_speed := vel_norm (p_vx p1) (p_vy p1) in
    let accel := (new_speed - speed) / dt in
    let new_yaw := wrap_yaws (p_yaw p1) in
    let yaw := wrap_yaws (p_yaw p0) in
    let real_new_yaw := if estimate_yaw_with_velocity
                        then fatan2 (p_vy p1) (p_vx p1) else new_yaw in
    let real_new_yaw := where_ (fleb (fabs new_speed) speed_limit) new_yaw real_new_yaw in
    let delta_yaw := wrap_yaws (real_new_yaw - yaw) in
    let steering := delta_yaw / (speed * dt + fhalf * accel * fsq dt) in
    let steering := where_ (fltb (fabs speed) speed_limit) f0 steering in
    let steering := where_ (fltb (fabs new_speed) speed_limit) f0 steering in
    (where_ valid accel f0, where_ valid steering f0, valid).

  Definition compute_inverse (tr : traj) (timestep : Z) (dt : F)
    (estimate_yaw_with_velocity : bool) : res (list act) :=
    let* ps := two_frames tr timestep in
    Ok (map (fun pq =>
          let '(a, s, v) := bicycle_inverse1 dt estimate_yaw_with_velocity
                              (fst pq) (snd pq) in
          mkact [a; s] v) ps).

  (** bicycle_model.py:118-141, constructor parameters. *)
  Record bicycle_params := mkbp {
    bc_dt : F; bc_max_accel : F; bc_max_steering : F; bc_normalize : bool }.

  (** bicycle_model.py:120-123, the defaults. *)
  Definition bicycle_default : bicycle_params :=
    mkbp (flit 1 10) (flit 6 1) (flit 3 10) false.

  (** bicycle_model.py:143-160, action_spec: bounds are symmetric. *)
  Definition bicycle_bound_accel (q : bicycle_params) : F :=
    if bc_normalize q then f1 else bc_max_accel q.
  Definition bicycle_bound_steering (q : bicycle_params) : F :=
    if bc_normalize q then f1 else bc_max_steering q.

  Definition bicycle_spec (q : bicycle_params) : list F * list F :=
    ([- bicycle_bound_accel q; - bicycle_bound_steering q],
     [bicycle_bound_accel q; bicycle_bound_steering q]).

  (** bicycle_model.py:162-174, _clip_values. *)
  Definition bicycle_clip (q : bicycle_params) (a s : F) : F * F :=
    (fclip a (- bicycle_bound_accel q) (bicycle_bound_accel q),
     fclip s (- bicycle_bound_steering q) (bicycle_bound_steering q)).

  (** bicycle_model.py:176-229, compute_update of one object.  _clip_values reads
      columns 0 and 1; fewer columns are an error (clamped static indexing of a
      JAX array is not modelled). *)
  Definition bicycle_update (q : bicycle_params) (a : act) (p : pt) : res upd :=
    match a_data a with
    | raw_a :: raw_s :: _ =>
        let '(a0, s0) := bicycle_clip q raw_a raw_s in
        let accel := if bc_normalize q then a0 * bc_max_accel q else a0 in
        let steering := if bc_normalize q then s0 * bc_max_steering q else s0 in
        let t := bc_dt q in
        let speed := vel_norm (p_vx p) (p_vy p) in
        let new_x := p_x p + p_vx p * t + fhalf * accel * fcos (p_yaw p) * fsq t in
        let new_y := p_y p + p_vy p * t + fhalf * accel * fsin (p_yaw p) * fsq t in
        let delta_yaw := steering * (speed * t + fhalf * accel * fsq t) in
        let new_yaw := wrap_yaws (p_yaw p + delta_yaw) in
        let new_vel := speed + accel * t in
        Ok (mkupd new_x new_y new_yaw (new_vel * fcos new_yaw)
              (new_vel * fsin new_yaw) (p_valid p && a_valid a))
    | _ => Err AssertionError
    end.

  (** bicycle_model.py:231-264, inverse of one object. *)
  Definition bicycle_inverse_action (q : bicycle_params) (p0 p1 : pt) : act :=
    let '(a, s, v) := bicycle_inverse1 (bc_dt q) true p0 p1 in
    let '(a', s') := if bc_normalize q
                     then bicycle_clip q (a / bc_max_accel q) (s / bc_max_steering q)
                     else bicycle_clip q a s in
    mkact [a'; s'] v.

  Definition bicycle_inverse (q : bicycle_params) (tr : traj) (_ : list meta)
    (timestep : Z) : res (list act) :=
    let* ps := two_frames tr timestep in
    Ok (map (fun pq => bicycle_inverse_action q (fst pq) (snd pq)) ps).

  (** bicycle_model.py:115-264, InvertibleBicycleModel. *)
  Definition InvertibleBicycleModel (q : bicycle_params) : dynamics :=
    mkdyn (per_object (bicycle_update q)) (bicycle_inverse q).
End Bicycle.
