(** Vocabulary for route-following agents in float32. *)
From Coq Require Import List ZArith Reals.
From Flocq Require Import IEEE754.BinarySingleNaN.
From Verif.Lib Require Import Base Scalar F32.
From Verif.Model Require Import State Waypoint.
From Verif.Spec Require Import F32Spec GeomSpec.
Import ListNotations.
Open Scope R_scope.

(** The library's power of two non-negative numbers: not NaN, not negative, and at
    least 1 if the base is. *)
Definition pow32 (lm : libm) : Prop :=
  forall x y a b, fin x a -> fin y b -> 0 <= a -> 0 <= b ->
    lm_pow lm x y = B754_infinity false \/ exists r, fin (lm_pow lm x y) r /\ 0 <= r /\ (1 <= a -> 1 <= r).

(** IDM parameters: finite and neither tiny nor huge. *)
Definition idm32 {lm} (p : idm_params (S := F32 lm)) (v0 s0 th a b delta : R) : Prop :=
  fin (desired_vel p) v0 /\ fin (min_spacing_s0 p) s0 /\ fin (safe_time_headway p) th /\
  fin (max_accel p) a /\ fin (max_decel p) b /\ fin (idm_delta p) delta /\
  / 2 ^ 20 <= v0 <= 2 ^ 20 /\ 0 <= s0 <= 2 ^ 20 /\ 0 <= th <= 2 ^ 20 /\
  / 2 ^ 20 <= a <= 2 ^ 20 /\ / 2 ^ 20 <= b <= 2 ^ 20 /\ 0 <= delta <= 2 ^ 20.

(** Valid logged frames have finite coordinates of at most [X] and headings in
    [-4, 4]. *)
Definition route32 {lm} (X : R) (log : list (pt (S := F32 lm))) : Prop :=
  forall k w, nth_error log k = Some w -> p_valid w = true ->
    exists x y h, fin (p_x w) x /\ fin (p_y w) y /\ fin (p_yaw w) h /\ Rabs x <= X /\ Rabs y <= X /\ Rabs h <= 4.

(** The frame [q] at (x, y) has the heading of a valid logged frame, is at most [e]
    away from the line through it along that heading, and at most [d] away from it. *)
Definition on_route32 {lm} (log : list (pt (S := F32 lm))) (e d : R) (q : pt (S := F32 lm)) : Prop :=
  exists k w wx wy h x y t, nth_error log k = Some w /\ p_valid w = true /\
    fin (p_x w) wx /\ fin (p_y w) wy /\ fin (p_yaw w) h /\ fin (p_x q) x /\ fin (p_y q) y /\ p_yaw q = p_yaw w /\
    dist (x, y) (wx + t * cos h, wy + t * sin h) <= e /\ dist (x, y) (wx, wy) <= d.

(** One step of 0.1 s from position (x, y), heading [h] and velocity (vx, vy) to
    (x', y'), [h'] and (vx', vy') with asked speed [r], which is not negative and at
    most [a / 10] above the present speed: measured along the new heading the object
    goes as far as the mean of the present and the asked speed takes it along the old
    heading, and the new velocity is the old one or the asked speed along the old
    heading.  [ev] and [ep] bound the rounding of speeds and positions. *)
Definition moves32 (ev ep a x y h vx vy x' y' h' vx' vy' r : R) : Prop :=
  let v := sqrt (vx * vx + vy * vy) in
  0 <= r /\ r <= v + a / 10 + a / 2 ^ 21 + ev /\
  Rabs (cos h' * (x' - x) + sin h' * (y' - y) - (v + r) / 20 * cos (h' - h)) <= ep /\
  ((vx' = vx /\ vy' = vy) \/ dist (vx', vy') (r * cos h, r * sin h) <= ev).

(** A road along heading [h] that starts at (x0, y0) and is longer than [L]: every
    valid logged frame has that heading and is at most 1 m to the side; up to [L]
    there is always one within 3 m ahead or behind; the last one is at least 5 m
    beyond. *)
Definition ahead (h x0 y0 x y : R) : R := cos h * (x - x0) + sin h * (y - y0).
Definition aside (h x0 y0 x y : R) : R := cos h * (y - y0) - sin h * (x - x0).
Definition lane32 {lm} (log : list (pt (S := F32 lm))) (h x0 y0 L : R) : Prop :=
  (forall k w c d, nth_error log k = Some w -> p_valid w = true -> fin (p_x w) c -> fin (p_y w) d ->
     fin (p_yaw w) h /\ Rabs (aside h x0 y0 c d) <= 1) /\
  (forall s, 0 <= s <= L -> exists k w c d, nth_error log k = Some w /\ p_valid w = true /\ fin (p_x w) c /\ fin (p_y w) d /\
     Rabs (ahead h x0 y0 c d - s) <= 3) /\
  (forall k w c d, nth_error log k = Some w -> p_valid w = true -> fin (p_x w) c -> fin (p_y w) d ->
     (forall k' w', nth_error log k' = Some w' -> p_valid w' = true -> (k' <= k)%nat) -> L + 5 <= ahead h x0 y0 c d).
