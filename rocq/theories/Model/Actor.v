(** Model of waymax/agents/actor_core.py, sim_agent.py, constant_speed.py (actor) and
    expert.py (actor). *)
From Coq Require Import List ZArith Bool.
From Verif.Lib Require Import Base JaxIndex Scalar.
From Verif.Model Require Import Operations State Dynamics Expert.
Import ListNotations.

Section Actor.
  Context {S : Scalar}.
  (** Parameters, actor states and random keys: arbitrary PyTrees in the code,
      three arbitrary types here. *)
  Context {P X K : Type}.

  (** actor_core.py:36-60, WaymaxActorOutput. *)
  Record output := mkout {
    o_state : X; o_action : list act; o_controlled : list bool }.

  (** actor_core.py:63-102, WaymaxActorCore: init and select_action (the rng
      argument may be None). *)
  Record actor := mkactor {
    ac_init : option K -> state -> res X;
    ac_select : P -> state -> X -> option K -> res output }.

  (** jnp.where(mask[..., newaxis], x, y) on the two leaves of an Action.
      Simplification: axes of size 1 are not broadcast, any difference in shape
      is an error. *)
  Definition same_dims (x y : list act) : bool :=
    (length x =? length y)%nat
    && forallb (fun b => b) (map2 (fun a b => length (a_data a) =? length (a_data b))%nat x y).
  Definition where_actions (mask : list bool) (x y : list act) : res (list act) :=
    let* _ := guard ((length mask =? length x)%nat && same_dims x y) ValueError in
    Ok (map3 (fun (m : bool) a b => if m then a else b) mask x y).

  (** actor_core.py:172-204, merge_actions. *)
  Definition merge_actions (outs : list output) : res (list act) :=
    match outs with
    | [] => Err NotImplementedError
    | o :: rest =>
        fold_left (fun acc o' =>
          let* action := acc in where_actions (o_controlled o') (o_action o') action)
          rest (Ok (o_action o))
    end.

  (** sim_agent.py:28-103, SimAgentActor: select_action from update_trajectory and
      is_controlled_func; the actor state is None. *)
  Definition sim_agent (none : X) (is_controlled : state -> list bool)
    (update_trajectory : state -> res (list upd)) : actor :=
    mkactor (fun _ _ => Ok none)
      (fun _ s _ _ =>
         let* us := update_trajectory s in
         Ok (mkout none (map as_action us) (is_controlled s))).

  (** sim_agent.py:24, _DEFAULT_CONTROL_FUNC. *)
  Definition control_non_sdc (s : state) : list bool :=
    map (fun m => negb (m_is_sdc m)) (s_meta s).

  (** sim_agent.py:106-121, FrozenSimPolicy.update_trajectory. *)
  Definition frozen_update (s : state) : res (list upd) :=
    let* cur := current_sim s in
    Ok (map (fun p => mkupd (p_x p) (p_y p) (p_yaw p) (p_vx p) (p_vy p) (p_valid p)) cur).

  (** constant.py: TIMESTEP_MICROS_INTERVAL. *)
  Definition timestep_micros_interval : Z := 100000.

  (** constant_speed.py:58-79, one object: next frame at the given or current
      velocity. *)
  Definition constant_speed_next (speed : option F) (controlled : bool) (p : pt) : pt :=
    let vx := match speed with None => p_vx p | Some v => (v * fcos (p_yaw p))%F end in
    let vy := match speed with None => p_vy p | Some v => (v * fsin (p_yaw p))%F end in
    mkpt (p_x p + vx * time_interval)%F (p_y p + vy * time_interval)%F (p_z p) vx vy (p_yaw p)
      (controlled && p_valid p) (p_ts p + timestep_micros_interval)
      (p_len p) (p_wid p) (p_hei p).

  (** constant_speed.py:48-98, select_action of create_constant_speed_actor. *)
  Definition constant_speed_actor (none : X) (d : dynamics)
    (is_controlled : state -> list bool) (speed : option F) : actor :=
    mkactor (fun _ _ => Ok none)
      (fun _ s _ _ =>
         let* t0 := dynamic_index (s_sim s) (s_t s) in
         let ctrl := is_controlled s in
         let* _ := guard (length ctrl =? length t0)%nat ValueError in
         let two := map2 (fun c p => [p; constant_speed_next speed c p]) ctrl t0 in
         let* acts := d_inverse d two (s_meta s) 0 in
         Ok (mkout none acts ctrl)).

  (** expert.py:64-107, create_expert_actor. *)
  Definition expert_actor (none : X) (d : dynamics) (is_controlled : state -> list bool) : actor :=
    mkactor (fun _ _ => Ok none)
      (fun _ s _ _ =>
         let* a := infer_expert_action d s in
         Ok (mkout none a (is_controlled s))).

  (** expert.py:27, _IS_SDC_FUNC. *)
  Definition control_sdc (s : state) : list bool := map m_is_sdc (s_meta s).
End Actor.
Arguments output {S} X.
Arguments actor {S} P X K.
