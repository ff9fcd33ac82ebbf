(** Model of waymax/datatypes: object_state.py, traffic_lights.py, route.py,
    roadgraph.py (data only) and simulator_state.py. *)
From Coq Require Import List ZArith Bool.
From Verif.Lib Require Import Base JaxIndex Scalar.
From Verif.Model Require Import Operations.
Import ListNotations.

(** config.py:144-150, ObjectType. *)
Inductive objtype := SDC | MODELED | VALID | NON_SDC.

(** object_state.py:47-124, ObjectMetadata of one object.  Integers are
    unbounded (int32 in the code). *)
Record meta := mkmeta {
  m_id : Z; m_type : Z; m_is_sdc : bool; m_is_modeled : bool;
  m_is_valid : bool; m_interest : bool; m_is_controlled : bool }.

Section State.
  Context {S : Scalar}.

  (** object_state.py:128-165, Trajectory at one object and one timestep (array
      of structs; validate() 262-291 makes all fields equally shaped). *)
  Record pt := mkpt {
    p_x : F; p_y : F; p_z : F; p_vx : F; p_vy : F; p_yaw : F;
    p_valid : bool; p_ts : Z; p_len : F; p_wid : F; p_hei : F }.

  (** A trajectory of shape (num_objects, num_timesteps). *)
  Definition traj := list (list pt).

  (** traffic_lights.py:41-64, one light at one timestep. *)
  Record tlight := mktl {
    tl_x : F; tl_y : F; tl_z : F; tl_state : Z; tl_lane : Z; tl_valid : bool }.

  (** route.py:26-57, one path point; a path has points and one on_route flag. *)
  Record pathpt := mkpp {
    pp_x : F; pp_y : F; pp_z : F; pp_id : Z; pp_valid : bool; pp_arc : F }.
  Record path := mkpath { path_pts : list pathpt; path_on_route : bool }.

  (** roadgraph.py:61-100, one road graph point. *)
  Record rgpt := mkrg {
    rg_x : F; rg_y : F; rg_z : F; rg_dx : F; rg_dy : F; rg_dz : F;
    rg_type : Z; rg_id : Z; rg_valid : bool }.

  (** simulator_state.py:43-72, SimulatorState without batch dimensions. *)
  Record state := mkstate {
    s_sim : traj; s_log : traj; s_tls : list (list tlight); s_meta : list meta;
    s_t : Z; s_paths : option (list path); s_rg : option (list rgpt) }.

  (** Trajectory.num_timesteps, object_state.py:176-179. *)
  Definition num_timesteps (tr : traj) : nat :=
    match tr with r :: _ => length r | [] => 0 end.

  (** simulator_state.py:90-94. *)
  Definition is_done (s : state) : bool :=
    (Z.of_nat (num_timesteps (s_log s)) <=? s_t s + 1)%Z.

  (** simulator_state.py:97-99. *)
  Definition remaining_timesteps (s : state) : Z :=
    (Z.of_nat (num_timesteps (s_log s)) - s_t s - 1)%Z.

  (** simulator_state.py:102-106 (time axis of size 1 squeezed). *)
  Definition current_sim (s : state) : res (list pt) :=
    dynamic_index (s_sim s) (s_t s).

  (** simulator_state.py:112-116 (time axis of size 1 squeezed). *)
  Definition current_log (s : state) : res (list pt) :=
    dynamic_index (s_log s) (s_t s).

  (** object_state.py:294-316: -1 for numbers, False for booleans. *)
  Definition invalid_pt : pt :=
    mkpt fm1 fm1 fm1 fm1 fm1 fm1 false (-1) fm1 fm1 fm1.
  Definition fill_invalid_trajectory (tr : traj) : traj :=
    map (map (fun _ => invalid_pt)) tr.

  (** object_state.py:233-247, Trajectory.zeros at one entry. *)
  Definition zero_pt : pt := mkpt f0 f0 f0 f0 f0 f0 false 0 f0 f0 f0.

  (** simulator_state.py:132-146. *)
  Definition update_state_by_log (s : state) (num_steps : nat) : res state :=
    let* sim' := update_by_slice_in_dim (s_sim s) (s_log s) (s_t s + 1) None
                   (Some num_steps) in
    Ok (mkstate sim' (s_log s) (s_tls s) (s_meta s) (s_t s + Z.of_nat num_steps)
          (s_paths s) (s_rg s)).

  (** simulator_state.py:149-170. *)
  Definition get_control_mask (ms : list meta) (ty : objtype) : res (list bool) :=
    match ty with
    | SDC => Ok (map m_is_sdc ms)
    | MODELED => Ok (map m_is_modeled ms)
    | VALID => Ok (map m_is_valid ms)
    | NON_SDC => Err ValueError
    end.
End State.
