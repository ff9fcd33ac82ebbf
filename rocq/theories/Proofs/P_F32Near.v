(** Proofs for C40: the nearest 32-bit float, ties to even, is unique. *)
From Coq Require Import List ZArith Lia.
From Verif.Lib Require Import Base Scalar.
From Verif.Model Require Import State Roadgraph.
From Verif.Spec Require Import ObsSpec.
From Verif.Proofs Require Import P_Roadgraph.
Open Scope Z_scope.

(** Between two different floats with even significands there is another one, no nearer to
    the upper one than to the lower one. *)
Lemma between w w' m e m' e' : 0 <= e <= e' -> w = m * 2 ^ e -> w' = m' * 2 ^ e' -> Z.Even m -> Z.Even m' ->
  Z.abs m <= 2 ^ 24 -> Z.abs m' <= 2 ^ 24 -> w < w' -> exists y, f32_integer y /\ 2 * w < 2 * y <= w + w'.
Proof.
  intros He Ew Ew' [h Hh] [h' Hh'] Bm Bm' L. set (p := 2 ^ e) in *.
  assert (Pp : 0 < p) by (apply Z.pow_pos_nonneg; lia).
  assert (Ep : 2 ^ e' = 2 ^ (e' - e) * p) by (unfold p; rewrite <- Z.pow_add_r by lia; f_equal; lia).
  destruct (Z.eq_dec m (2 ^ 24)) as [E|N].
  - destruct (Z.eq_dec e' e) as [->|Ne].
    { fold p in Ew'. assert (m' * p <= 2 ^ 24 * p) by (apply Z.mul_le_mono_nonneg_r; lia). rewrite E in Ew. lia. }
    assert (Eq : 2 ^ (e' - e) = 2 * 2 ^ (e' - e - 1)) by (rewrite <- Z.pow_succ_r by lia; f_equal; lia).
    set (c := h' * 2 ^ (e' - e - 1)). assert (W' : w' = 4 * (c * p)) by (rewrite Ew', Ep, Eq, Hh'; unfold c; ring).
    assert (W : w = 4 * (2 ^ 22 * p)) by (rewrite Ew, E; ring).
    assert (Lc : 2 ^ 22 + 1 <= c).
    { destruct (Z_lt_le_dec (2 ^ 22) c); [lia|]. assert (c * p <= 2 ^ 22 * p) by (apply Z.mul_le_mono_nonneg_r; lia). lia. }
    assert ((2 ^ 22 + 1) * p <= c * p) by (apply Z.mul_le_mono_nonneg_r; lia).
    exists ((2 ^ 23 + 1) * 2 ^ (e + 1)). split; [exists (2 ^ 23 + 1), (e + 1); repeat split; lia|].
    rewrite Z.pow_add_r by lia. fold p. rewrite W, W'. lia.
  - set (c := h' * 2 ^ (e' - e)). assert (W' : w' = 2 * (c * p)) by (rewrite Ew', Ep, Hh'; unfold c; ring).
    assert (W : w = 2 * (h * p)) by (rewrite Ew, Hh; ring).
    assert (Lc : h + 1 <= c).
    { destruct (Z_lt_le_dec h c); [lia|]. assert (c * p <= h * p) by (apply Z.mul_le_mono_nonneg_r; lia). lia. }
    assert ((h + 1) * p <= c * p) by (apply Z.mul_le_mono_nonneg_r; lia).
    exists ((m + 1) * p). split; [exists (m + 1), e; repeat split; lia|]. rewrite Hh, W, W'. lia.
Qed.

Lemma nearest_lt z w w' : f32_nearest z w -> f32_nearest z w' -> w < w' -> False.
Proof.
  intros (A & B & C) (A' & B' & C') L. pose proof (B w' A') as D. pose proof (B' w A) as D'.
  destruct (C w' A' ltac:(lia) ltac:(lia)) as (m & e & He & Hm & Ew & Ev).
  destruct (C' w A ltac:(lia) ltac:(lia)) as (m' & e' & He' & Hm' & Ew' & Ev').
  destruct (Z_le_gt_dec e e') as [G|G].
  - destruct (between w w' m e m' e') as (y & Hy & By); auto; try lia. pose proof (B y Hy). lia.
  - assert (N : forall a, Z.Even a -> Z.Even (- a)) by (intros a [b Hb]; exists (- b); lia).
    destruct (between (- w') (- w) (- m') e' (- m) e) as (y & Hy & By); auto; try lia.
    pose proof (B (- y) (f32_opp _ Hy)). lia.
Qed.

Lemma nearest_unique z w w' : f32_nearest z w -> f32_nearest z w' -> w = w'.
Proof.
  intros H H'. destruct (Z.lt_total w w') as [L|[L|L]]; [|exact L|].
  - destruct (nearest_lt z w w' H H' L).
  - destruct (nearest_lt z w' w H' H L).
Qed.
