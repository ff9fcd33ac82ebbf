(** Vocabulary for agents and the planning environment over the reals. *)
From Coq Require Import String.
From Coq Require Import Reals List.
From Verif.Lib Require Import Base Scalar XR.
From Verif.Model Require Import State Dynamics Actor.
From Verif.Spec Require Import DynSpec.
Import ListNotations.

(** The action part of an actor, as a closed-loop policy. *)
Definition actor_policy {S : Scalar} {P X K : Type} (ag : actor P X K) (p : P) (x : X)
  (k : option K) (s : state) : res (list act) :=
  let* o := ac_select ag p s x k in Ok (o_action o).

Open Scope R_scope.

(** The velocity a constant-speed actor keeps: the one it has, or the given speed
    along its heading. *)
Definition kept_velocity (speed : option R) (k : kin) : R * R :=
  match speed with
  | None => (kvx k, kvy k)
  | Some v => (v * cos (kyaw k), v * sin (kyaw k))
  end.

Definition finite (x : xr) : Prop := exists r, x = Fin r.

(** Position, heading and velocity are numbers. *)
Definition kin_finite (p : pt (S := XR)) : Prop :=
  finite (p_x p) /\ finite (p_y p) /\ finite (p_yaw p) /\ finite (p_vx p) /\ finite (p_vy p).

(** Metrics that have one entry per object and of which the planning environment
    reports the SDC's. *)
Definition per_object_names : list string :=
  ["log_divergence"; "overlap"; "offroad"]%string.
