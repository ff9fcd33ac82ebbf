(** Vocabulary for rewards in float32 (C82). *)
From Coq Require Import String.
From Coq Require Import List ZArith Reals Bool.
From Verif.Lib Require Import Base Scalar F32.
From Verif.Model Require Import State Comfort Metrics.
From Verif.Spec Require Import F32Spec.
Import ListNotations.
Open Scope R_scope.

(** The number a float32 metric result contributes: its value when valid, 0 when not. *)
Definition counts32 {lm} (m : mres (S := F32 lm)) (r : R) : Prop :=
  (mr_valid m = true /\ fin (mr_value m) r) \/ (mr_valid m = false /\ r = 0).
Definition contributes32 {lm} (v : mval (S := F32 lm)) (i : nat) (r : R) : Prop :=
  match v with
  | PerObject l => exists m, nth_error l i = Some m /\ counts32 m r
  | Scalar0 m => counts32 m r
  end.
Definition shaped32 {lm} (n : nat) (v : mval (S := F32 lm)) : Prop :=
  match v with PerObject l => length l = n | Scalar0 _ => True end.

(** A boolean agent mask as float32 numbers. *)
Definition mask32 (ms : list f32) (mask : list bool) : Prop :=
  length ms = length mask /\
  forall i b, nth_error mask i = Some b -> exists x, nth_error ms i = Some x /\ fin x (if b then 1 else 0).

Definition Zsum (l : list Z) : Z := fold_right Z.add 0%Z l.
