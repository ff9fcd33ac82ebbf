(** Independent vocabulary for actors and the planning-agent environment. *)
From Coq Require Import List ZArith Bool.
From Verif.Lib Require Import Base JaxIndex Scalar.
From Verif.Model Require Import State Dynamics BaseEnv Geometry Discretizer Actor PlanningEnv.
From Verif.Spec Require Import StateSpec.
Import ListNotations.

Section PlanSpec.
  Context {S : Scalar} {P X K : Type}.

  (** The actor's output claims object [i]. *)
  Definition claims (o : output X) (i : nat) : Prop :=
    nth_error (o_controlled o) i = Some true.

  (** [o] is the last output of the sequence that claims object [i]. *)
  Definition last_claim (outs : list (output X)) (i : nat) (o : output X) : Prop :=
    exists before after, outs = before ++ o :: after /\ claims o i /\
      (forall o', In o' after -> ~ claims o' i).

  Definition unclaimed (outs : list (output X)) (i : nat) : Prop :=
    forall o, In o outs -> ~ claims o i.

  (** The output has the same numbers of objects and action columns as [a]. *)
  Definition fits (a : list act) (o : output X) : Prop :=
    length (o_controlled o) = length a /\
    Forall2 (fun x y => length (a_data x) = length (a_data y)) (o_action o) a.

  (** No object is claimed by two different outputs. *)
  Definition disjoint_claims (outs : list (output X)) : Prop :=
    forall i o o', In o outs -> In o' outs -> claims o i -> claims o' i -> o = o'.

  Definition is_sdc (s : state) (i : nat) : Prop :=
    exists m, nth_error (s_meta s) i = Some m /\ m_is_sdc m = true.

  (** Object [i]'s box at log step 0 overlaps the box of another object there. *)
  Definition starts_overlapping (s : state) (i : nat) : Prop :=
    exists j p q, j <> i /\ at2 (s_log s) i 0 = Some p /\ at2 (s_log s) j 0 = Some q /\
      has_overlap (pt_box p) (pt_box q) = true.

  (** The key handed to agent number [i] of [m]: the [i]-th of the [m] keys split
      off the given one, or none if none is given. *)
  Definition agent_key (split : K -> nat -> nat -> K) (rng : option K) (m i : nat) : option K :=
    match rng with Some k => Some (split k m i) | None => None end.

  (** The outputs of the environment's sim agents in state [ps]: agent number [k]
      is asked with its own parameters, its own actor state and its own key. *)
  Definition agent_outputs (e : penv P X K) (ps : pstate X) (key : nat -> option K)
    (outs : list (output X)) : Prop :=
    length outs = length (pe_agents e) /\
    forall k ag, nth_error (pe_agents e) k = Some ag ->
      exists x p o,
        nth_error (ps_actors ps) k = Some x /\ nth_error (pe_params e) k = Some p /\
        nth_error outs k = Some o /\ ac_select ag p (ps_state ps) x (key k) = Ok o.

  (** Some sim agent drives object [i]. *)
  Definition driven (s : state) (outs : list (output X)) (i : nat) : Prop :=
    (exists o, In o outs /\ claims o i) /\ ~ starts_overlapping s i.

  (** The frame has the pose and velocity written in the first five columns of a
      StateDynamics action. *)
  Definition pose_of_action (a : act) (p : pt) : Prop :=
    exists rest, a_data a = p_x p :: p_y p :: p_yaw p :: p_vx p :: p_vy p :: rest.

  (** The frame has the pose and velocity of an update. *)
  Definition pose_of_update (u : upd) (p : pt) : Prop :=
    p_x p = u_x u /\ p_y p = u_y u /\ p_yaw p = u_yaw u /\
    p_vx p = u_vx u /\ p_vy p = u_vy u.

  (** A planning episode: reset, then one planner action (and key) per step. *)
  Definition run_planning (split : K -> nat -> nat -> K) (e : penv P X K) (s : state)
    (rng : option K) (acts : list (act * option K)) : res (pstate X) :=
    let* s0 := penv_reset split e s rng in penv_steps split e s0 acts.
End PlanSpec.
