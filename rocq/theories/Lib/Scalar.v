(** The scalar interface: the float operations used by waymax, without laws.
    Definitions over it describe the code for any number system; theorems proved
    for every instance hold in particular for float32 arithmetic. *)
From Coq Require Import ZArith.

Class Scalar := {
  F : Type;
  (** literal constant n/d *)
  flit : Z -> positive -> F;
  fadd : F -> F -> F;
  fsub : F -> F -> F;
  fmul : F -> F -> F;
  fdiv : F -> F -> F;
  (** jnp.remainder: sign of the divisor *)
  fmod : F -> F -> F;
  fpow : F -> F -> F;
  (** fatan2 y x *)
  fatan2 : F -> F -> F;
  (** jnp.minimum / jnp.maximum: NaN if either is NaN *)
  fmin : F -> F -> F;
  fmax : F -> F -> F;
  fopp : F -> F;
  fabs : F -> F;
  fsqrt : F -> F;
  fsin : F -> F;
  fcos : F -> F;
  fpi : F;
  finf : F;
  fltb : F -> F -> bool;
  fleb : F -> F -> bool;
  feqb : F -> F -> bool;
  fisfinite : F -> bool;
  (** int32 -> float conversion *)
  fofZ : Z -> F;
  (** jnp.rint followed by astype(int) *)
  frint : F -> Z;
  (** float.astype(int32): towards zero *)
  ftrunc : F -> Z;
}.

Declare Scope F_scope.
Delimit Scope F_scope with F.
Bind Scope F_scope with F.
Infix "+" := fadd : F_scope.
Infix "-" := fsub : F_scope.
Infix "*" := fmul : F_scope.
Infix "/" := fdiv : F_scope.
Notation "- x" := (fopp x) : F_scope.

Section Common.
  Context {S : Scalar}.
  Definition f0 : F := flit 0 1.
  Definition f1 : F := flit 1 1.
  Definition f2 : F := flit 2 1.
  Definition fhalf : F := flit 1 2.
  Definition fm1 : F := flit (-1) 1.
  (** x != x *)
  Definition fisnan (x : F) : bool := negb (feqb x x).
  Definition fgtb (x y : F) : bool := fltb y x.
  Definition fgeb (x y : F) : bool := fleb y x.
  (** float value of a bool (numpy promotion) *)
  Definition fbool (b : bool) : F := if b then f1 else f0.
  (** jnp.where *)
  Definition where_ {A} (c : bool) (a b : A) : A := if c then a else b.
  (** jnp.clip(x, lo, hi) = minimum(maximum(x, lo), hi) *)
  Definition fclip (x lo hi : F) : F := fmin (fmax x lo) hi.
End Common.
