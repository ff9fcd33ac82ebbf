(** Vocabulary for whole episodes driven by the route-following agents, over the
    reals. *)
From Coq Require Import Reals List ZArith Bool.
From Verif.Lib Require Import Base Scalar XR.
From Verif.Model Require Import State.
From Verif.Spec Require Import GeomSpec WaypointSpec.
Import ListNotations.
Open Scope R_scope.

(** All valid logged frames of an object have real positions and headings. *)
Definition real_route (log : list (pt (S := XR))) : Prop :=
  forall k p, nth_error log k = Some p -> p_valid p = true -> exists w, is_way p w.

(** The frame lies on the line through one of the object's valid logged positions
    along the logged heading there, and has that heading. *)
Definition on_route (log : list (pt (S := XR))) (f : rframe) : Prop :=
  exists k p w, nth_error log k = Some p /\ p_valid p = true /\ is_way p w /\
    on_line (wx w) (wy w) (wyaw w) (fx f, fy f) /\ fyaw f = wyaw w.

(** The point [d] metres ahead of a frame, and the frame moved there. *)
Definition ahead (f : rframe) (d : R) : R * R := (fx f + d * cos (fyaw f), fy f + d * sin (fyaw f)).
Definition moved (f g : rframe) (d : R) : Prop :=
  (fx g, fy g) = ahead f d /\ fyaw g = fyaw f /\ flen g = flen f /\ fwid g = fwid f.

(** A straight route: every valid logged position lies straight ahead of or behind
    the frame, with its heading. *)
Definition straight_route (log : list (pt (S := XR))) (f : rframe) : Prop :=
  forall k p, nth_error log k = Some p -> p_valid p = true ->
    exists d, is_way p (mkway (fst (ahead f d)) (snd (ahead f d)) (fyaw f)).

(** The route covers the next [len] metres: some valid logged position is within 5 m
    of each point, and the last one is more than 5.05 m further. *)
Definition covers (log : list (pt (S := XR))) (f : rframe) (len : R) : Prop :=
  (forall d, 0 <= d <= len -> exists k p w, nth_error log k = Some p /\ p_valid p = true /\ is_way p w /\
     dist (ahead f d) (wxy w) <= 5) /\
  exists l e, last_waypoint log l /\ wxy l = ahead f e /\ len + 5 + 5 / 100 <= e.

(** Moved [d] metres ahead, the rectangle of [f] and that of [g] share an interior
    point. *)
Definition touches (f g : rframe) (d : R) : Prop :=
  exists q, interior (advanced f d) q /\ interior (advanced g 0) q.
(** [f] can move [d0] metres before it touches [g], which then blocks at least the
    next metre. *)
Definition contact_after (f g : rframe) (d0 : R) : Prop :=
  (forall d, 0 <= d <= d0 -> ~ touches f g d) /\ (forall d, d0 < d <= d0 + 1 -> touches f g d).
Definition never_touches (f g : rframe) : Prop := forall d, 0 <= d -> ~ touches f g d.

(** The object is logged as valid and standing still in one place; or never valid. *)
Definition parked (log : list (pt (S := XR))) (g : rframe) : Prop :=
  rspeed g = 0 /\ forall k p, nth_error log k = Some p -> p_valid p = true /\ is_frame p g.
Definition absent (log : list (pt (S := XR))) : Prop :=
  forall k p, nth_error log k = Some p -> p_valid p = false.
