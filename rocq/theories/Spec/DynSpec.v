(** Independent vocabulary for the numeric statements about dynamics models:
    real-valued kinematic states. *)
From Coq Require Import Reals ZArith List Bool.
From Verif.Lib Require Import Base Scalar XR.
From Verif.Model Require Import State Dynamics BaseEnv.
From Verif.Spec Require Import StateSpec GeomSpec.
Import ListNotations.
Open Scope R_scope.

(** Position, heading and velocity in the plane. *)
Record kin := mkkin { kx : R; ky : R; kyaw : R; kvx : R; kvy : R }.

(** The frame [p] has the finite pose and velocity [k]. *)
Definition has_kin (p : pt (S := XR)) (k : kin) : Prop :=
  p_x p = Fin (kx k) /\ p_y p = Fin (ky k) /\ p_yaw p = Fin (kyaw k) /\
  p_vx p = Fin (kvx k) /\ p_vy p = Fin (kvy k).

(** The update [u] sets the finite pose and velocity [k]. *)
Definition upd_kin (u : upd (S := XR)) (k : kin) : Prop :=
  u_x u = Fin (kx k) /\ u_y u = Fin (ky k) /\ u_yaw u = Fin (kyaw k) /\
  u_vx u = Fin (kvx k) /\ u_vy u = Fin (kvy k).

(** The point of [lo, hi] nearest to [x]. *)
Definition clamp (lo hi x : R) : R :=
  if Rlt_dec x lo then lo else if Rlt_dec hi x then hi else x.

Definition speed (k : kin) : R := sqrt (kvx k * kvx k + kvy k * kvy k).

(** Every component of an action lies between its bounds. *)
Definition in_spec (bounds : list (F (Scalar := XR)) * list F) (data : list F) : Prop :=
  Forall2 (fun lo v => fleb lo v = true) (fst bounds) data /\
  Forall2 (fun v hi => fleb v hi = true) data (snd bounds).

(** Closed-loop episode: reset, then [k] steps whose actions come from a policy. *)
Fixpoint policy_steps {S : Scalar} (d : dynamics) (c : envcfg)
  (pol : state -> res (list act)) (s : state) (k : nat) : res state :=
  match k with
  | O => Ok s
  | Datatypes.S k' =>
      let* a := pol s in
      let* s' := env_step d c s a in
      policy_steps d c pol s' k'
  end.
Definition run_policy {S : Scalar} (d : dynamics) (c : envcfg)
  (pol : state -> res (list act)) (s : state) (k : nat) : res state :=
  let* s0 := env_reset c s in policy_steps d c pol s0 k.
