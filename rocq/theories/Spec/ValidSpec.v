(** Validity flags of dynamics updates and inverse actions. *)
From Coq Require Import List ZArith Bool.
From Verif.Lib Require Import Base Scalar.
From Verif.Model Require Import State Dynamics.
From Verif.Spec Require Import StateSpec.
Import ListNotations.

Section ValidSpec.
  Context {S : Scalar}.

  (** Whenever an update is computed, the update of each object is flagged by [v]
      of its action and its current frame. *)
  Definition update_valid (v : act -> pt -> bool) (d : dynamics) : Prop :=
    forall acts cur us, d_update d acts cur = Ok us ->
      length us = length cur /\
      forall i a p, nth_error acts i = Some a -> nth_error cur i = Some p ->
        exists u, nth_error us i = Some u /\ u_valid u = v a p.

  (** The inverse between frames t and t+1 always exists, and each object's action
      is flagged by [v] of its two frames. *)
  Definition inverse_valid (v : pt -> pt -> bool) (d : dynamics) : Prop :=
    forall n T tr ms (t : nat), rect n T tr -> t + 1 < T ->
      exists acts, d_inverse d tr ms (Z.of_nat t) = Ok acts /\ length acts = n /\
        forall i p0 p1, i < n -> at2 tr i t = Some p0 -> at2 tr i (t + 1) = Some p1 ->
          exists a, nth_error acts i = Some a /\ a_valid a = v p0 p1.

End ValidSpec.
