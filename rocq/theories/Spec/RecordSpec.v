(** Vocabulary for episodes of recorded scenarios: what a record says about an object
    at a step. *)
From Coq Require Import String.
From Coq Require Import List ZArith Bool Arith.
From Verif.Lib Require Import Base Scalar.
From Verif.Model Require Import State Dynamics BaseEnv Womd Loader.
From Verif.Spec Require Import StateSpec WomdSpec LoaderSpec.
Import ListNotations.
Local Open Scope nat_scope.

Section RecordSpec.
  Context {S : Scalar}.

  (** Steps 0 to 9 are the past, step 10 is the current one, and 11 to 90 the future:
      step [t] is the [k]-th of a part with [steps] steps. *)
  Definition step_in (t : nat) (part : string) (steps k : nat) : Prop :=
    (part = "past"%string /\ steps = 10 /\ k = t /\ t < 10) \/
    (part = "current"%string /\ steps = 1 /\ k = 0 /\ t = 10) \/
    (part = "future"%string /\ steps = 80 /\ t = 11 + k /\ k < 80).

  (** Position, velocity, wrapped heading, validity and time of object [i] at step [t]
      are those in the record. *)
  Definition recorded (e : example) (i t : nat) (p : pt) : Prop :=
    exists part steps k, step_in t part steps k /\ frame_of_record e part steps i k p.

  (** Position, velocity, heading and time are those in the record. *)
  Definition recorded_pose (e : example) (i t : nat) (p : pt) : Prop :=
    exists q, recorded e i t q /\ same_pose p q /\ p_ts p = p_ts q.

  (** The record says that object [i] is present at step [t]. *)
  Definition present (e : example) (i t : nat) : Prop :=
    exists part steps k z, step_in t part steps k /\
      int_entry e (state_key part "valid") (i * steps + k) = Some z /\ z <> 0%Z.

  (** The objects that the actions steer, by the entries of the record. *)
  Definition steered (c : envcfg) (e : example) (i : nat) : Prop :=
    match c_controlled c, c_allow_new_objects c with
    | SDC, _ => int_entry e "state/is_sdc" i = Some 1%Z
    | MODELED, _ => int_entry e "state/tracks_to_predict" i = Some 1%Z
    | VALID, true => exists z, int_entry e "state/tracks_to_predict" i = Some z /\ z <> (-1)%Z
    | VALID, false => present e i (c_init_steps c - 1)
    | NON_SDC, _ => False
    end.
End RecordSpec.
