(** Vocabulary for the metric registry and the linear reward. *)
From Coq Require Import String.
From Coq Require Import Reals ZArith List Bool.
From Verif.Lib Require Import Base Scalar XR.
From Verif.Model Require Import State Comfort Metrics.
Import ListNotations.

(** First entry under a name in a list of named things. *)
Definition first_named {A} (name : string) (l : list (string * A)) : option A :=
  option_map snd (find (fun e => String.eqb name (fst e)) l).

(** The distinct names of a list in order of first occurrence. *)
Fixpoint distinct (l : list string) : list string :=
  match l with
  | [] => []
  | n :: l' => n :: filter (fun m => negb (String.eqb n m)) (distinct l')
  end.

(** The registry after a history of registration attempts, ignoring which of
    them raised. *)
Definition after {S : Scalar} (attempts : registry) : registry :=
  fold_left (fun r a => snd (register_metric (fst a) (snd a) r)) attempts initial_registry.

Open Scope R_scope.

(** The number a metric result contributes for object [i]: its value when valid,
    zero when not; SDC metrics contribute the same number to everybody. *)
Definition counts (m : mres (S := XR)) (r : R) : Prop :=
  (mr_valid m = true /\ mr_value m = Fin r) \/ (mr_valid m = false /\ r = 0).
Definition contributes (v : mval (S := XR)) (i : nat) (r : R) : Prop :=
  match v with
  | PerObject l => exists m, nth_error l i = Some m /\ counts m r
  | Scalar0 m => counts m r
  end.

(** A result for [n] objects. *)
Definition shaped (n : nat) (v : mval (S := XR)) : Prop :=
  match v with PerObject l => length l = n | Scalar0 _ => True end.

Definition Rsum (l : list R) : R := fold_right Rplus 0 l.

(** A boolean agent mask as numbers. *)
Definition fmask (mask : list bool) : list xr := map (fun b : bool => Fin (if b then 1 else 0)) mask.

(** A metric result with one entry per object, as opposed to one for the scenario. *)
Definition one_per_object {S : Scalar} (n : nat) (v : mval (S := S)) : Prop :=
  exists l, v = PerObject l /\ length l = n.
