(** What it means for an array to conform to a spec. *)
From Coq Require Import List ZArith Bool.
From Verif.Lib Require Import Base Scalar.
From Verif.Model Require Import State Batch Specs Wrappers.
From Verif.Spec Require Import StateSpec BatchSpec.
Import ListNotations.

(** Number of entries of an array of a given shape. *)
Definition numel (d : list nat) : nat := fold_right Nat.mul 1 d.

(** The row [i] of a matrix. *)
Definition row_of {A} (a : arr A) (i : nat) : arr A :=
  mkA (tl (dims a)) (fun j => cell a (i :: j)).

Section Conf.
  Context {S : Scalar}.

  (** [v] is the bound at index [i]: a scalar bound holds everywhere. *)
  Definition bound_at (b : arr F) (i : list nat) (v : F) : Prop :=
    (dims b = [] /\ v = cell b []) \/ (length (dims b) = length i /\ v = cell b i).

  (** The array has the spec's shape and every entry lies within its bounds. *)
  Definition conforms (sp : bspec) (a : arr F) : Prop :=
    dims a = bs_shape sp /\
    forall i lo hi, inside (bs_shape sp) i -> bound_at (bs_min sp) i lo -> bound_at (bs_max sp) i hi ->
      fleb lo (cell a i) = true /\ fleb (cell a i) hi = true.

  (** A spec of vectors of length [dim], with one bound per entry, none of them
      crossed. *)
  Definition vector_spec (dim : nat) (sp : bspec) : Prop :=
    bs_shape sp = [dim] /\ dims (bs_min sp) = [dim] /\ dims (bs_max sp) = [dim] /\ 1 <= dim /\
    forall j, j < dim -> fltb (cell (bs_max sp) [j]) (cell (bs_min sp) [j]) = false.
  (** Scenario of [n] objects and [T] steps with the other arrays shaped as in [s0]. *)
  Definition scenario_like (n T : nat) (s0 s : state) : Prop :=
    wf_scenario n T s /\ shape2 (s_tls s) = shape2 (s_tls s0) /\
    option_map (fun ps => shape2 (map path_pts ps)) (s_paths s) = option_map (fun ps => shape2 (map path_pts ps)) (s_paths s0) /\
    option_map (@length _) (s_rg s) = option_map (@length _) (s_rg s0).
End Conf.
