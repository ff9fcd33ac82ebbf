(** Model of the masked statistics and tree comparison in
    waymax/datatypes/operations.py and array.py. *)
From Coq Require Import List ZArith Bool Arith.
From Verif.Lib Require Import Base Scalar.
From Verif.Model Require Import Metrics.
Import ListNotations.

Section Masked.
  Context {S : Scalar}.
  Open Scope F_scope.

  (** jnp.sum(x, where=valid) over one axis: entries outside the mask do not
      take part, whatever their value. *)
  Definition sum_where (x : list F) (valid : list bool) : F :=
    fsum (map fst (filter snd (combine x valid))).

  (** operations.py:281-284, the mean of one reduced line. *)
  Definition line_mean (x : list F) (valid : list bool) (invalid_value : F) : F :=
    let num_valid := fsum (map fbool valid) in
    let masked_sum := sum_where x valid in
    let mean := masked_sum / num_valid in
    where_ (feqb num_valid f0) invalid_value mean.

  (** operations.py:265-286, masked_mean on a matrix with axis=-1: the means have
      shape (n,), mean[..., None] has shape (n, 1), which always broadcasts.  A mask
      of another shape is a ValueError of jnp.where's broadcasting (masks are
      documented to have x's shape; masks that do broadcast are left out). *)
  Definition masked_mean_last (x : list (list F)) (valid : list (list bool))
    (invalid_value : F) : res (list (list F)) :=
    let* _ := guard (length x =? length valid)%nat ValueError in
    mapM (fun rv => let* _ := guard (length (fst rv) =? length (snd rv))%nat ValueError in
                    Ok (repeat (line_mean (fst rv) (snd rv) invalid_value) (length (fst rv))))
      (combine x valid).

  (** operations.py:265-286 on a vector with the default axis=0: the mean is a
      scalar, mean[..., None] has shape (1,). *)
  Definition masked_mean_vec (x : list F) (valid : list bool) (invalid_value : F) : res (list F) :=
    let* _ := guard (length x =? length valid)%nat ValueError in
    Ok (repeat (line_mean x valid invalid_value) (length x)).

  (** operations.py:265-286 on an (n, T) matrix with the default axis=0: the means
      have shape (T,), mean[..., None] has shape (T, 1); jnp.broadcast_to (n, T)
      succeeds when T = n or T = 1.  Entry (i, j) of the result is mean[i] (or
      mean[0] when T = 1). *)
  Definition col {A} (m : list (list A)) (j : nat) (d : A) : list A := map (fun r => nth j r d) m.
  Definition masked_mean_first (T : nat) (x : list (list F)) (valid : list (list bool))
    (invalid_value : F) : res (list (list F)) :=
    let n := length x in
    let* _ := guard (rectb n T x && rectb n T valid) ValueError in
    let mean := map (fun j => line_mean (col x j f0) (col valid j false) invalid_value) (seq 0 T) in
    if (T =? n)%nat then Ok (map (fun m => repeat m T) mean)
    else if (T =? 1)%nat then Ok (repeat (repeat (nth 0 mean f0) T) n)
    else Err ValueError.

  (** jnp.array_equal on one-dimensional arrays: same shape and all entries equal
      (NaN is not equal to itself). *)
  Definition array_equal (x y : list F) : bool :=
    ((length x =? length y)%nat && forallb (fun p => feqb (fst p) (snd p)) (combine x y))%bool.

  (** operations.py:187-210, compare_all_leaf_nodes with the default comparison, and
      array.py:43-47, MaskedArray.__eq__, on values with the same tree structure
      (a list of leaves).  [same_type] is isinstance(second, type(first)). *)
  Definition compare_all_leaf_nodes (same_type : bool) (first second : list (list F)) : bool :=
    if same_type then forallb (fun p => array_equal (fst p) (snd p)) (combine first second)
    else false.

  (** operations.py:248-262, make_invalid_data on a float array and a bool array. *)
  Definition make_invalid_data (data : list F) : list F := map (fun _ => fm1 * f1) data.
  Definition make_invalid_data_b (data : list bool) : list bool := map (fun _ => false) data.

  (** array.py:64-76, masked_value with an arbitrary fill value. *)
  Definition masked_value_fill (value : list F) (valid : list bool) (fill : F) : list F :=
    map2 (fun v (b : bool) => where_ b v fill) value valid.
End Masked.
