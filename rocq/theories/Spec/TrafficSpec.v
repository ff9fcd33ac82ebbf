(** Vocabulary for traffic moving ahead of an object on a straight road. *)
From Coq Require Import Reals List ZArith Bool.
From Verif.Lib Require Import Base Scalar XR.
From Verif.Model Require Import State BaseEnv.
From Verif.Spec Require Import StateSpec GeomSpec WaypointSpec DriveSpec.
Import ListNotations.
Open Scope R_scope.

(** The object is logged as valid at every time, with the frames [g], of constant size
    and height. *)
Definition logged_as (log : list (pt (S := XR))) (g : nat -> rframe) : Prop :=
  (forall t p, nth_error log t = Some p -> p_valid p = true /\ is_frame p (g t)) /\
  forall t, flen (g t) = flen (g 0%nat) /\ fwid (g t) = fwid (g 0%nat) /\ fz (g t) = fz (g 0%nat).

(** At the times from [a] to [b] the object is ahead on the path of [f]: [f] can move
    [al t] metres before touching it, and it moves on by at least its recorded speed. *)
Definition drives_ahead (f : rframe) (g : nat -> rframe) (al : nat -> R) (a b : nat) : Prop :=
  (forall t, (a <= t <= b)%nat -> contact_after f (g t) (al t)) /\
  (forall t, (a <= t < b)%nat -> al t + rspeed (g t) / 10 <= al (Datatypes.S t)).

(** Two objects ahead keep their order. *)
Definition keep_order (al al' : nat -> R) (a b : nat) : Prop :=
  (forall t, (a <= t <= b)%nat -> al t <= al' t) \/ (forall t, (a <= t <= b)%nat -> al' t <= al t).

(** Object [m] of the scenario, logged with the frames [g], drives ahead of [f] on its
    path from time [a] to [b], at first at least 1/20 s of travel away. *)
Definition vehicle_ahead (s : state (S := XR)) (f : rframe) (a b m : nat) (g : nat -> rframe) (al : nat -> R) : Prop :=
  (exists lm, nth_error (s_log s) m = Some lm /\ logged_as lm g) /\
  drives_ahead f g al a b /\ rspeed f / 20 <= al a.

(** Every other object is left to the log and is absent, beside the path, or a vehicle
    ahead; vehicles ahead keep their order. *)
Definition traffic (c : envcfg) (s : state (S := XR)) (i : nat) (f : rframe) (a b : nat) : Prop :=
  (forall m lm, m <> i -> nth_error (s_log s) m = Some lm ->
     ~ in_control c s m /\
     (absent lm \/ exists g, logged_as lm g /\
        ((forall t, (a <= t <= b)%nat -> never_touches f (g t)) \/ exists al, vehicle_ahead s f a b m g al))) /\
  (forall m g al m' g' al', m <> i -> m' <> i -> m <> m' ->
     vehicle_ahead s f a b m g al -> vehicle_ahead s f a b m' g' al' -> keep_order al al' a b).

(** The route reaches at least as far as the object can get: as far as the fastest
    allowed drive, or past a vehicle ahead. *)
Definition long_enough (log : list (pt (S := XR))) (s : state (S := XR)) (i : nat) (f : rframe) (a k : nat) : Prop :=
  exists len, covers log f len /\
    (66 / 10 * INR k <= len \/
     exists m g al, m <> i /\ vehicle_ahead s f a (a + k) m g al /\ al (a + k)%nat <= len).
