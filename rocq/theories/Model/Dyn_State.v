(** Model of waymax/dynamics/state_dynamics.py. *)
From Coq Require Import List ZArith Bool.
From Verif.Lib Require Import Base JaxIndex Scalar.
From Verif.Model Require Import Operations State Dynamics.
Import ListNotations.

Section StateDyn.
  Context {S : Scalar}.

  (** state_dynamics.py:40-68, compute_update of one object.  A data array with
      fewer than five columns gives empty slices, which validate() rejects. *)
  Definition state_update (a : act) (_ : pt) : res upd :=
    match a_data a with
    | x :: y :: yaw :: vx :: vy :: _ => Ok (mkupd x y yaw vx vy (a_valid a))
    | _ => Err AssertionError
    end.

  (** Lift a per-object update to the object axis; the lengths are equal because
      forward() checks them. *)
  Fixpoint per_object (f : act -> pt -> res upd) (acts : list act) (cur : list pt)
    : res (list upd) :=
    match acts, cur with
    | a :: acts', p :: cur' =>
        let* u := f a p in
        let* us := per_object f acts' cur' in
        Ok (u :: us)
    | [], [] => Ok []
    | _, _ => Err AssertionError
    end.

  (** state_dynamics.py:70-99, inverse: the five controllable fields and the
      validity at timestep + 1. *)
  Definition state_inverse (tr : traj) (_ : list meta) (timestep : Z)
    : res (list act) :=
    let* nxt := dynamic_index tr (timestep + 1) in
    Ok (map (fun p => mkact [p_x p; p_y p; p_yaw p; p_vx p; p_vy p] (p_valid p)) nxt).

  (** state_dynamics.py:30-37, action_spec (minimum, maximum), the scalar bounds
      broadcast over the five columns. *)
  Definition state_spec : list F * list F := (repeat (fopp finf) 5, repeat finf 5).

  (** state_dynamics.py:24-99, StateDynamics. *)
  Definition StateDynamics : dynamics :=
    mkdyn (per_object state_update) state_inverse.
End StateDyn.
