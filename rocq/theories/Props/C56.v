(** C56: equality of data structures. *)
From Coq Require Import List ZArith Reals Lra Lia Bool.
From Verif.Lib Require Import Base JaxIndex Scalar XR.
From Verif.Model Require Import Masked.
From Verif.Proofs Require Import P_Masked.
Import ListNotations.
Open Scope R_scope.

(** [x] and [y] are the leaf arrays of two values of the same structure.  [same_type]: the second is an instance of
    the first's class.  The comparison holds exactly when it is, and all leaves coincide and contain no NaN. *)
Theorem C56_equality (same_type : bool) (x y : list (list xr)) : length x = length y ->
  compare_all_leaf_nodes (S := XR) same_type x y = true <->
  same_type = true /\ x = y /\ forall l, In l x -> ~ In NaN l.
Proof. exact (compare_typed same_type x y). Qed.

(** Equality is not reflexive. *)
Theorem C56_reflexive_refuted : exists x : list (list xr), compare_all_leaf_nodes (S := XR) true x x = false.
Proof. exists [[NaN]]. reflexivity. Qed.

Example C56_example : compare_all_leaf_nodes (S := XR) true [[Fin 1; PInf]; [Fin 2]] [[Fin 1; PInf]; [Fin 2]] = true.
Proof.
  apply C56_equality; [reflexivity|]. split; [reflexivity|]. split; [reflexivity|].
  intros l [<-|[<-|[]]] H; simpl in H; intuition discriminate.
Qed.

Print Assumptions C56_equality.
Print Assumptions C56_reflexive_refuted.
