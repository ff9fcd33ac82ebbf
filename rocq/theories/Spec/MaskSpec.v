(** Independent vocabulary for masked statistics and one-hot selection. *)
From Coq Require Import Reals ZArith List Bool.
From Verif.Lib Require Import Base Scalar XR.
Import ListNotations.
Open Scope R_scope.

(** Sum and number of the valid entries of a line of reals. *)
Fixpoint valid_sum (x : list R) (v : list bool) : R :=
  match x, v with
  | a :: x', b :: v' => (if b then a else 0) + valid_sum x' v'
  | _, _ => 0
  end.
Fixpoint valid_count (v : list bool) : nat :=
  match v with [] => 0 | b :: v' => (if b then 1 else 0) + valid_count v' end.

(** The valid entries of [x] are the reals [r] (the others may be anything). *)
Definition valid_entries (x : list xr) (v : list bool) (r : list R) : Prop :=
  length x = length v /\ length r = length v /\
  forall i, nth_error v i = Some true -> nth_error x i = option_map Fin (nth_error r i).

(** Exactly position [i] of [sel] is set. *)
Definition one_hot (sel : list bool) (i : nat) : Prop :=
  nth_error sel i = Some true /\ forall j, nth_error sel j = Some true -> j = i.
