(** Vocabulary for episodes in float32. *)
From Coq Require Import List ZArith Reals.
From Flocq Require Import IEEE754.BinarySingleNaN.
From Verif.Lib Require Import Base Scalar F32.
From Verif.Model Require Import State Dynamics.
From Verif.Spec Require Import F32Spec.
Import ListNotations.
Open Scope R_scope.

(** The library's sine and cosine: for every finite argument two finite numbers
    in [-1, 1] whose squares sum to 1 up to one part in 2^20. *)
Definition trig32 (lm : libm) : Prop :=
  forall x, is_finite x = true -> exists c s, fin (lm_cos lm x) c /\ fin (lm_sin lm x) s /\
    Rabs c <= 1 /\ Rabs s <= 1 /\ Rabs (c * c + s * s - 1) <= / 2 ^ 20.

(** Position, heading and velocity of a frame are finite; each coordinate is at
    most [X] and the speed at most [V]. *)
Definition bounded32 {lm} (X V : R) (p : pt (S := F32 lm)) : Prop :=
  exists x y w vx vy, fin (p_x p) x /\ fin (p_y p) y /\ fin (p_yaw p) w /\ fin (p_vx p) vx /\ fin (p_vy p) vy /\
    Rabs x <= X /\ Rabs y <= X /\ Rabs w <= 2 ^ 100 /\ sqrt (vx * vx + vy * vy) <= V.

(** Speed of a frame with finite velocity. *)
Definition speed32 {lm} (p : pt (S := F32 lm)) (v : R) : Prop :=
  exists vx vy, fin (p_vx p) vx /\ fin (p_vy p) vy /\ v = sqrt (vx * vx + vy * vy).

(** An action of at least two numbers, the first two of which are not NaN; they
    may be infinite. *)
Definition not_nan2 {lm} (a : act (S := F32 lm)) : Prop :=
  exists (u v : f32) (rest : list f32), a_data a = u :: v :: rest /\ is_nan u = false /\ is_nan v = false.

(** Accuracy of the library.  Sine and cosine of a heading between -4 and 4 are
    within 2^-23 of the true values and in [-1, 1]; atan2 of a vector that is not
    zero is within 2^-20 of its direction. *)
Definition accurate32 (lm : libm) : Prop :=
  (forall x a, fin x a -> Rabs a <= 4 -> exists c s, fin (lm_cos lm x) c /\ fin (lm_sin lm x) s /\
     Rabs c <= 1 /\ Rabs s <= 1 /\ Rabs (c - cos a) <= / 2 ^ 23 /\ Rabs (s - sin a) <= / 2 ^ 23) /\
  (forall y x b a, fin y b -> fin x a -> 0 < a * a + b * b ->
     exists r th, fin (lm_atan2 lm y x) r /\ Rabs (r - th) <= / 2 ^ 20 /\ - PI <= th <= PI /\
       a = sqrt (a * a + b * b) * cos th /\ b = sqrt (a * a + b * b) * sin th).

(** An action of three finite numbers of absolute value at most [M]. *)
Definition delta32 {lm} (M : R) (a : act (S := F32 lm)) : Prop :=
  exists (dx dy dw : f32) x y w, a_data a = [dx; dy; dw] /\ fin dx x /\ fin dy y /\ fin dw w /\
    Rabs x <= M /\ Rabs y <= M /\ Rabs w <= M.

(** As [bounded32], with the heading at most [X] too. *)
Definition within32 {lm} (X V : R) (p : pt (S := F32 lm)) : Prop :=
  exists x y w vx vy, fin (p_x p) x /\ fin (p_y p) y /\ fin (p_yaw p) w /\ fin (p_vx p) vx /\ fin (p_vy p) vy /\
    Rabs x <= X /\ Rabs y <= X /\ Rabs w <= X /\ sqrt (vx * vx + vy * vy) <= V.
