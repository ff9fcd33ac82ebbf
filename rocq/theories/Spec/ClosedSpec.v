(** Vocabulary for sim agents driving objects in the planning environment. *)
From Coq Require Import Reals List ZArith Bool.
From Verif.Lib Require Import Base Scalar XR.
From Verif.Model Require Import Operations State Dynamics BaseEnv Actor PlanningEnv.
From Verif.Spec Require Import StateSpec GeomSpec WaypointSpec DriveSpec TrafficSpec PlanSpec.
Import ListNotations.
Open Scope R_scope.

(** Agent [ag] has the last word on object [i]: it always claims the object, no agent
    after it ever does, and the object does not overlap another one at the start of the
    log. *)
Definition drives_object {S : Scalar} {P X K} (e : penv P X K) (s : state) (i : nat) (ag : actor P X K) : Prop :=
  ~ starts_overlapping s i /\
  exists before after, pe_agents e = before ++ ag :: after /\
    (forall s1 p x k o, same_scenario s s1 -> ac_select ag p s1 x k = Ok o -> claims o i) /\
    (forall ag' s1 p x k o, In ag' after -> same_scenario s s1 -> ac_select ag' p s1 x k = Ok o -> ~ claims o i).

(** The other objects in the simulated trajectory [sim], from time [a] to [b].  Object [m]
    has the valid frames [g]; *)
Definition follows (sim : traj (S := XR)) (m : nat) (g : nat -> rframe) (a b : nat) : Prop :=
  forall t, (a <= t <= b)%nat -> exists q, at2 sim m t = Some q /\ p_valid q = true /\ is_frame q (g t).
(** it is beside the path of [f] whenever it is valid; *)
Definition beside (sim : traj (S := XR)) (f : rframe) (a b m : nat) : Prop :=
  forall t q, (a <= t <= b)%nat -> at2 sim m t = Some q -> p_valid q = true ->
    exists g, is_frame q g /\ never_touches f g.
(** it drives ahead on the path, at first at least 1/20 s of travel away. *)
Definition in_front (sim : traj (S := XR)) (f : rframe) (a b m : nat) (g : nat -> rframe) (al : nat -> R) : Prop :=
  follows sim m g a b /\ drives_ahead f g al a b /\ rspeed f / 20 <= al a.

(** Every other object is beside the path or drives ahead; those ahead keep their
    order. *)
Definition simulated_traffic (sim : traj (S := XR)) (i : nat) (f : rframe) (a b : nat) : Prop :=
  (forall m, m <> i -> beside sim f a b m \/ exists g al, in_front sim f a b m g al) /\
  (forall m g al m' g' al', m <> i -> m' <> i -> m <> m' ->
     in_front sim f a b m g al -> in_front sim f a b m' g' al' -> keep_order al al' a b).

Definition far_enough (log : list (pt (S := XR))) (sim : traj (S := XR)) (i : nat) (f : rframe) (a k : nat) : Prop :=
  exists len, covers log f len /\
    (66 / 10 * INR k <= len \/
     exists m g al, m <> i /\ in_front sim f a (a + k) m g al /\ al (a + k)%nat <= len).
