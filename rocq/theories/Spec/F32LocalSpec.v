(** Vocabulary for displacements in an object's own frame in float32. *)
From Coq Require Import Reals.
From Flocq Require Import IEEE754.BinarySingleNaN.
From Verif.Lib Require Import F32.
From Verif.Spec Require Import F32Spec.
Open Scope R_scope.

(** The library's cosine is even and its sine is odd. *)
Definition parity32 (lm : libm) : Prop :=
  forall x c s, fin (lm_cos lm x) c -> fin (lm_sin lm x) s ->
    fin (lm_cos lm (Bopp x)) c /\ fin (lm_sin lm (Bopp x)) (- s).
