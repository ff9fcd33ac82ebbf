(** Vocabulary for observations in float32 (C81). *)
From Coq Require Import List ZArith Reals Bool.
From Verif.Lib Require Import Base Scalar F32.
From Verif.Model Require Import Operations State Geometry Pose Observation.
From Verif.Spec Require Import StateSpec GeomSpec DynSpec MetricSpec ObsSpec F32Spec F32EpisodeSpec.
Open Scope R_scope.

(** The cosine of 0 is 1 and its sine 0. *)
Definition trig_zero32 (lm : libm) : Prop :=
  forall x, fin x 0 -> fin (lm_cos lm x) 1 /\ fin (lm_sin lm x) 0.

(** A frame with finite coordinates of at most [P], speeds of at most [V] along each
    axis and a heading in [-4, 4]. *)
Definition kin32 {lm} (P V : R) (p : pt (S := F32 lm)) (g : kin) : Prop :=
  fin (p_x p) (kx g) /\ fin (p_y p) (ky g) /\ fin (p_yaw p) (kyaw g) /\ fin (p_vx p) (kvx g) /\ fin (p_vy p) (kvy g) /\
  Rabs (kx g) <= P /\ Rabs (ky g) <= P /\ Rabs (kyaw g) <= 4 /\ Rabs (kvx g) <= V /\ Rabs (kvy g) <= V.

(** The frame [q] shows the kinematic state [l]: positions up to [e], velocities up to
    [f], the heading up to a relative error of 2^-24. *)
Definition shows32 {lm} (e f : R) (q : pt (S := F32 lm)) (l : kin) : Prop :=
  exists x y a vx vy, fin (p_x q) x /\ fin (p_y q) y /\ fin (p_yaw q) a /\ fin (p_vx q) vx /\ fin (p_vy q) vy /\
    Rabs (x - kx l) <= e /\ Rabs (y - ky l) <= e /\ Rabs (a - kyaw l) <= Rabs (kyaw l) / 2 ^ 24 /\
    Rabs (vx - kvx l) <= f /\ Rabs (vy - kvy l) <= f.

(** Two floats are a point (or direction) at most [P] from the axes; they show one up to
    [e]. *)
Definition at32 (P : R) (x y : f32) (g : R * R) : Prop :=
  fin x (fst g) /\ fin y (snd g) /\ Rabs (fst g) <= P /\ Rabs (snd g) <= P.
Definition near32 (e : R) (x y : f32) (l : R * R) : Prop :=
  exists a b, fin x a /\ fin y b /\ Rabs (a - fst l) <= e /\ Rabs (b - snd l) <= e.

(** Whose frame an observation is expressed in: the observer's, the SDC's, or object
    0's when no object is marked as SDC. *)
Definition centre32 {S : Scalar} (fr : coordinate_frame) (s : state) (i : nat) (c : nat) : Prop :=
  (fr = FRAME_OBJECT /\ c = i) \/ (fr = FRAME_SDC /\ the_sdc (s_meta s) c) \/
  (fr = FRAME_SDC /\ (forall m, In m (s_meta s) -> m_is_sdc m = false) /\ c = 0%nat).

(** The valid points of the map are finite and at most [P]; [pos i] is where point [i] is. *)
Definition map32 {lm} (P : R) (rg : list (rgpt (S := F32 lm))) (pos : nat -> R * R) : Prop :=
  forall i p, nth_error rg i = Some p -> rg_valid p = true -> at32 P (rg_x p) (rg_y p) (pos i).

(** Map point [i] may be listed before point [j]: it is valid and [j] is not, or both are
    and [i] is farther than [j] by at most [e], or both are invalid and [i] comes first. *)
Definition ranks_before32 {lm} (e : R) (rg : list (rgpt (S := F32 lm))) (pos : nat -> R * R) (ref : R * R) (i j : nat) : Prop :=
  exists p q, nth_error rg i = Some p /\ nth_error rg j = Some q /\
    ((rg_valid p = true /\ rg_valid q = false) \/
     (rg_valid p = true /\ rg_valid q = true /\ dist ref (pos i) <= dist ref (pos j) + e) \/
     (rg_valid p = false /\ rg_valid q = false /\ (i < j)%nat)).

(** The same sample with its integer fields passed through 32-bit floats. *)
Definition same_sample32 {lm} (p q : rgpt (S := F32 lm)) : Prop :=
  rg_x q = rg_x p /\ rg_y q = rg_y p /\ rg_z q = rg_z p /\
  rg_dx q = rg_dx p /\ rg_dy q = rg_dy p /\ rg_dz q = rg_dz p /\
  rg_valid q = rg_valid p /\
  f32_nearest (rg_type p) (rg_type q) /\ f32_nearest (rg_id p) (rg_id q).
