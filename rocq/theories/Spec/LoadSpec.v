(** Vocabulary for batched data. *)
From Coq Require Import List Arith.
From Verif.Model Require Import Pipeline.
Import ListNotations.

(** The examples in an element, in order. *)
Fixpoint examples {A} (e : elem A) : list A :=
  match e with
  | One a => [a]
  | Batch l => flat_map examples l
  end.

(** The element is an array of examples of shape [dims]. *)
Inductive has_shape {A} : list nat -> elem A -> Prop :=
| shape_one a : has_shape [] (One a)
| shape_batch d dims l : length l = d -> Forall (has_shape dims) l -> has_shape (d :: dims) (Batch l).

(** ... the leading axis may be shorter, on every level. *)
Inductive fits_shape {A} : list nat -> elem A -> Prop :=
| fits_one a : fits_shape [] (One a)
| fits_batch d dims l : 1 <= length l <= d -> Forall (fits_shape dims) l -> fits_shape (d :: dims) (Batch l).

Definition prod (dims : list nat) : nat := fold_right Nat.mul 1 dims.

(** [r] passes over the examples of the files. *)
Definition passes_over {File Rec Ex} (records : File -> list Rec) (expand : Rec -> list Ex)
  (files : list File) (r : nat) : list Ex :=
  concat (repeat (flat_map expand (flat_map records files)) r).
