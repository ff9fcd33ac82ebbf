(** Independent vocabulary for the discretiser. *)
From Coq Require Import Reals ZArith List Bool Lra.
From Verif.Lib Require Import Base Scalar XR.
From Verif.Spec Require Import DynSpec.
Import ListNotations.
Open Scope R_scope.

(** The point of [lo, hi] nearest to an extended real. *)
Definition nearest (lo hi : R) (x : xr) : R :=
  match x with Fin r => clamp lo hi r | PInf => hi | MInf => lo | NaN => 0 end.

(** Admissible bounds and bin counts: one per action dimension, non-empty ranges,
    at least one bin. *)
Definition disc_bounds (mins maxs : list R) (bins : list Z) : Prop :=
  length mins = length maxs /\ length mins = length bins /\
  (forall j lo hi, nth_error mins j = Some lo -> nth_error maxs j = Some hi -> lo < hi) /\
  (forall j b, nth_error bins j = Some b -> (1 <= b)%Z).

(** Number of discrete actions: the product of (bins + 1). *)
Fixpoint num_actions (bins : list Z) : Z :=
  match bins with [] => 1 | b :: bins' => (b + 1) * num_actions bins' end%Z.

(** Bounding-box error between two rectangles: root of the summed squared
    distances of corresponding corners. *)
From Verif.Model Require Import State Dynamics.
From Verif.Spec Require Import GeomSpec.
Definition corner_err (a b : rbox) : R :=
  let d u v := let p := rpoint a (u * rlen a / 2) (v * rwid a / 2) in
               let q := rpoint b (u * rlen b / 2) (v * rwid b / 2) in
               (fst p - fst q) * (fst p - fst q) + (snd p - snd q) * (snd p - snd q) in
  sqrt (d 1 1 + d (-1) 1 + d (-1) (-1) + d 1 (-1)).

(** The frame has the finite rectangle [b]. *)
Definition has_box (p : pt (S := XR)) (b : rbox) : Prop :=
  p_x p = Fin (rx b) /\ p_y p = Fin (ry b) /\ p_len p = Fin (rlen b) /\
  p_wid p = Fin (rwid b) /\ p_yaw p = Fin (ryaw b).

(** Object valid in the frames [t] and [t + 1] of its row. *)
Definition valid_pair {S : Scalar} (t : nat) (row : list pt) : bool :=
  match nth_error row t, nth_error row (t + 1) with
  | Some p, Some q => p_valid p && p_valid q
  | _, _ => false
  end.
