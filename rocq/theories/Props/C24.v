(** C24: the overlap test is exact. *)
From Coq Require Import Reals ZArith List Bool Lra.
From Verif.Lib Require Import Base Scalar XR.
From Verif.Model Require Import Geometry.
From Verif.Spec Require Import GeomSpec.
From Verif.Proofs Require Import P_Pose P_Overlap.
Import ListNotations.
Open Scope R_scope.

(** True exactly when the two open rectangles have a common point (touching
    rectangles do not overlap). *)
Theorem C24_overlap_exact : forall a b : rbox,
  has_overlap (fbox a) (fbox b) = true <-> exists p, interior a p /\ interior b p.
Proof. exact overlap_exact. Qed.

(** Symmetric, for every input including infinities and NaN. *)
Theorem C24_overlap_symmetric : forall a b : box (S := XR), has_overlap a b = has_overlap b a.
Proof. exact overlap_sym. Qed.

Theorem C24_overlap_rigid_invariant : forall (t tx ty : R) (a b : rbox),
  has_overlap (fbox (move_box t tx ty a)) (fbox (move_box t tx ty b))
  = has_overlap (fbox a) (fbox b).
Proof. exact overlap_move. Qed.

(** A box without area overlaps nothing; one with area overlaps itself. *)
Theorem C24_degenerate_box : forall a b : rbox, rlen a = 0 \/ rwid a = 0 ->
  has_overlap (fbox a) (fbox b) = false.
Proof. exact overlap_zero. Qed.

Theorem C24_self_overlap : forall a : rbox, rlen a <> 0 -> rwid a <> 0 ->
  has_overlap (fbox a) (fbox a) = true.
Proof. exact overlap_self. Qed.

(** The pairwise table: entry (i, j) says whether different objects i and j
    share an interior point. *)
Theorem C24_pairwise_table : forall (bs : list rbox) (i j : nat),
  (i < length bs)%nat -> (j < length bs)%nat ->
  exists row v a b,
    nth_error (compute_pairwise_overlaps (map fbox bs)) i = Some row /\
    nth_error row j = Some v /\ nth_error bs i = Some a /\ nth_error bs j = Some b /\
    (v = true <-> i <> j /\ exists p, interior a p /\ interior b p).
Proof. exact pairwise_lemma. Qed.

(** A 4x2 box at the origin and a 4x2 box at (2, 1) turned by PI/2 overlap; at
    (3, 0) turned by PI/2 they only touch. *)
Example C24_example_overlap :
  has_overlap (fbox (mkrbox 0 0 4 2 0)) (fbox (mkrbox 2 1 4 2 (PI / 2))) = true.
Proof.
  apply overlap_exact. exists (3 / 2, 1 / 2). rewrite !interior_local.
  cbn [rx ry rlen rwid ryaw fst snd]. rewrite cos_PI2, sin_PI2, cos_0, sin_0.
  rewrite !(Rabs_pos_eq 4), !(Rabs_pos_eq 2) by lra.
  repeat split; apply Rabs_lt; lra.
Qed.
Example C24_example_touch :
  has_overlap (fbox (mkrbox 0 0 4 2 0)) (fbox (mkrbox 3 0 4 2 (PI / 2))) = false.
Proof.
  destruct (has_overlap (fbox (mkrbox 0 0 4 2 0)) (fbox (mkrbox 3 0 4 2 (PI / 2)))) eqn:E;
    [|reflexivity]. exfalso.
  apply overlap_exact in E as ((x & y) & A & B). rewrite interior_local in A, B.
  cbn [rx ry rlen rwid ryaw fst snd] in A, B. rewrite cos_0, sin_0 in A.
  rewrite cos_PI2, sin_PI2 in B.
  rewrite !(Rabs_pos_eq 4), !(Rabs_pos_eq 2) in A, B by lra.
  rewrite !Rabs_lt in A, B. lra.
Qed.

Print Assumptions C24_overlap_exact.
Print Assumptions C24_overlap_symmetric.
Print Assumptions C24_overlap_rigid_invariant.
Print Assumptions C24_degenerate_box.
Print Assumptions C24_self_overlap.
Print Assumptions C24_pairwise_table.
