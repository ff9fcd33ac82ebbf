(** Independent vocabulary for the IDM agent's look-ahead along the logged trajectory
    (lookahead_from_current_position = False). *)
From Coq Require Import Reals List ZArith Bool.
From Verif.Lib Require Import Base Scalar XR.
From Verif.Model Require Import State Geometry Waypoint.
From Verif.Spec Require Import GeomSpec WaypointSpec.
Import ListNotations.
Open Scope R_scope.

(** Distance in space from the position of [f] to the position of [g] advanced by [e]
    metres along its heading. *)
Definition dist_ahead (f g : rframe) (e : R) : R :=
  let dx := fx f - (fx g + e * cos (fyaw g)) in
  let dy := fy f - (fy g + e * sin (fyaw g)) in
  let dz := fz f - fz g in sqrt (dx * dx + dy * dy + dz * dz).

(** Waypoint [k] is valid, no valid waypoint is nearer, and no earlier valid one is as near. *)
Definition nearest_logged (me : rframe) (log : list (pt (S := XR))) (k : nat) : Prop :=
  exists p f, nth_error log k = Some p /\ p_valid p = true /\ is_frame p f /\
    forall j q g, nth_error log j = Some q -> p_valid q = true -> is_frame q g ->
      dist_ahead me f 0 <= dist_ahead me g 0 /\ ((j < k)%nat -> dist_ahead me f 0 < dist_ahead me g 0).

(** The points examined: the valid ones among the [W] logged waypoints from number [s]
    on, then, if the last of these is valid, [N] points evenly spaced over the [D] metres
    ahead of it. *)
Inductive check_point (log : list (pt (S := XR))) (s W : nat) (D : R) (N : nat) : nat -> rframe -> R -> Prop :=
| on_log t p f : (t < W)%nat -> nth_error log (s + t) = Some p -> p_valid p = true -> is_frame p f ->
    check_point log s W D N t f 0
| beyond_log m p f : (1 <= m <= N)%nat -> nth_error log (s + (W - 1)) = Some p -> p_valid p = true ->
    is_frame p f -> check_point log s W D N (W - 1 + m) f (D * INR m / INR N).

(** Object [i] placed at point [t] would overlap the present rectangle of the valid
    object [j]. *)
Definition blocked (cur : list (pt (S := XR))) (cp : nat -> rframe -> R -> Prop) (i j t : nat) : Prop :=
  j <> i /\ exists f e q g, cp t f e /\ nth_error cur j = Some q /\ p_valid q = true /\ is_frame q g /\
    exists x, interior (advanced f e) x /\ interior (advanced g 0) x.

(** Leader: the smallest speed among the objects blocking the first blocked point, and
    the smallest straight distance to any blocked point; -1 and -1 if nothing blocks. *)
Definition leader_along (cur : list (pt (S := XR))) (cp : nat -> rframe -> R -> Prop) (i : nat)
  (me : rframe) (u d : R) : Prop :=
  (forall j t, ~ blocked cur cp i j t) /\ u = -1 /\ d = -1 \/
  exists t0, first_hit (blocked cur cp i) t0 /\
    smallest (fun j => blocked cur cp i j t0)
      (fun j r => exists p f, nth_error cur j = Some p /\ is_frame p f /\ r = rspeed f) u /\
    smallest (fun t => exists j, blocked cur cp i j t)
      (fun t r => exists f e, cp t f e /\ r = dist_ahead me f e) d.
