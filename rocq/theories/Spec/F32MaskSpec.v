(** Vocabulary for masked means in float32 (C83). *)
From Coq Require Import List ZArith Reals Bool.
From Verif.Lib Require Import Base Scalar F32.
From Verif.Spec Require Import F32Spec.
Import ListNotations.
Open Scope R_scope.

(** The valid entries of [x] are the reals [r], at most [W] in size (the others may be
    anything). *)
Definition valid_entries32 (W : R) (x : list f32) (v : list bool) (r : list R) : Prop :=
  length x = length v /\ length r = length v /\
  forall i, nth_error v i = Some true ->
    exists a b, nth_error x i = Some a /\ nth_error r i = Some b /\ fin a b /\ Rabs b <= W.
