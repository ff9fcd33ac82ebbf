(** Model of waymax/datatypes/action.py and
    waymax/dynamics/abstract_dynamics.py. *)
From Coq Require Import List ZArith Bool.
From Verif.Lib Require Import Base JaxIndex Scalar.
From Verif.Model Require Import Operations State.
Import ListNotations.

Section Dynamics.
  Context {S : Scalar}.

  (** action.py:27-52, Action of one object. *)
  Record act := mkact { a_data : list F; a_valid : bool }.

  (** action.py:56-77, TrajectoryUpdate of one object. *)
  Record upd := mkupd {
    u_x : F; u_y : F; u_yaw : F; u_vx : F; u_vy : F; u_valid : bool }.

  (** action.py:103-113, as_action. *)
  Definition as_action (u : upd) : act :=
    mkact [u_x u; u_y u; u_yaw u; u_vx u; u_vy u] (u_valid u).

  (** abstract_dynamics.py:28-134, the overridable part of DynamicsModel:
      compute_update on the current frame, inverse on a trajectory. *)
  Record dynamics := mkdyn {
    d_update : list act -> list pt -> res (list upd);
    d_inverse : traj -> list meta -> Z -> res (list act) }.

  (** constant.py: TIME_INTERVAL = 0.1. *)
  Definition time_interval : F := flit 1 10.

  (** abstract_dynamics.py:183-187, constant velocity fallback of one object. *)
  Definition fallback_pt (cur : pt) : pt :=
    mkpt (p_x cur + p_vx cur * time_interval)%F
         (p_y cur + p_vy cur * time_interval)%F
         (p_z cur) (p_vx cur) (p_vy cur)
         (fatan2 (p_vy cur) (p_vx cur))
         (p_valid cur) (p_ts cur) (p_len cur) (p_wid cur) (p_hei cur).

  (** abstract_dynamics.py:224-237, next validity flag of one object. *)
  Definition next_valid (injection controlled : bool) (cur nxt : bool) : bool :=
    let exist_and_controlled := controlled && cur in
    let nv := if exist_and_controlled then cur else cur && nxt in
    if injection
    then (if exist_and_controlled then nv else nxt)
    else nv.

  (** abstract_dynamics.py:206-242, next frame of one object: controllable fields
      from the update or the reference, timestamp from the reference, the other
      fields (z, length, width, height) from the current simulated frame. *)
  Definition next_pt (injection use_fallback : bool) (u : upd) (cur nxt : pt)
    (controlled : bool) : pt :=
    let pick (fu : F) (ffb fnext : F) : F :=
      if use_fallback
      then (if controlled then (if u_valid u then fu else ffb) else fnext)
      else (if controlled then fu else fnext) in
    let fb := fallback_pt cur in
    mkpt (pick (u_x u) (p_x fb) (p_x nxt))
         (pick (u_y u) (p_y fb) (p_y nxt))
         (p_z cur)
         (pick (u_vx u) (p_vx fb) (p_vx nxt))
         (pick (u_vy u) (p_vy fb) (p_vy nxt))
         (pick (u_yaw u) (p_yaw fb) (p_yaw nxt))
         (next_valid injection controlled (p_valid cur) (p_valid nxt))
         (p_ts nxt)
         (p_len cur) (p_wid cur) (p_hei cur).

  (** abstract_dynamics.py:136-252. *)
  Definition apply_trajectory_update_to_state (us : list upd) (sim ref : traj)
    (is_controlled : list bool) (timestep : Z)
    (allow_object_injection use_fallback : bool) : res traj :=
    let* cur := dynamic_index sim timestep in
    let* nxt := dynamic_index ref (timestep + 1) in
    let* _ := guard ((length is_controlled =? length us)
                     && (length us =? length nxt))%nat AssertionError in
    let updated := map4 (next_pt allow_object_injection use_fallback)
                     us cur nxt is_controlled in
    update_by_slice_in_dim sim (map (fun p => [p]) updated)
      (timestep + 1) (Some 0%Z) (Some 1%nat).

  (** abstract_dynamics.py:36-85. *)
  Definition forward (d : dynamics) (action : list act) (sim ref : traj)
    (is_controlled : list bool) (timestep : Z) (allow_object_injection : bool)
    : res traj :=
    let* _ := guard ((length sim =? length action)
                     && (length sim =? length ref)
                     && (length sim =? length is_controlled))%nat
                    AssertionError in
    let* cur := dynamic_index sim timestep in
    let* us := d_update d action cur in
    apply_trajectory_update_to_state us sim ref is_controlled timestep
      allow_object_injection false.
End Dynamics.
