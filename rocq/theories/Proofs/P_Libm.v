(** A library that meets the accuracy assumptions: every function correctly
    rounded. *)
From Coq Require Import ZArith Reals Lra Lia Bool.
From Flocq Require Import Core.Core IEEE754.BinarySingleNaN.
From Verif.Lib Require Import Scalar F32 XR.
From Verif.Spec Require Import F32Spec F32EpisodeSpec F32DriveSpec.
From Verif.Proofs Require Import P_F32 P_F32Wrap P_F32Bicycle P_F32Special.
Open Scope R_scope.

(** The float nearest to a real number. *)
Definition f32_of (r : R) : f32 :=
  f32_norm (Ztrunc (scaled_mantissa radix2 fexp32 (rnd r))) (cexp radix2 fexp32 (rnd r)) false.

Lemma of_fin r : Rabs r <= b32 127 -> fin (f32_of r) (rnd r).
Proof.
  intros H. unfold f32_of.
  set (m := Ztrunc (scaled_mantissa radix2 fexp32 (rnd r))). set (e := cexp radix2 fexp32 (rnd r)).
  assert (E : rnd r = IZR m * b32 e) by exact (rnd_rep r).
  pose proof (binary_normalize_correct 24 128 f32_prec_gt_0 f32_prec_lt_emax mode_NE m e false) as C.
  cbv zeta in C. change (F2R (Float radix2 m e)) with (IZR m * b32 e) in C.
  change (round radix2 (SpecFloat.fexp 24 128) (round_mode mode_NE) (IZR m * b32 e)) with (rnd (IZR m * b32 e)) in C.
  rewrite <- E in C. rewrite (rnd_id (rnd r)) in C by apply rnd_rep.
  rewrite Rlt_bool_true in C by (apply lt_emax, H).
  destruct C as (C1 & C2 & _). split; [exact C2 | exact C1].
Qed.

Definition ideal_libm : libm :=
  mklibm (fun x y => f32_of (Rpower (B2R x) (B2R y))) (fun y x => f32_of (Ratan2 (B2R y) (B2R x)))
    (fun x => f32_of (sin (B2R x))) (fun x => f32_of (cos (B2R x))).

Lemma rnd_one r : Rabs r <= 1 -> Rabs (rnd r) <= 1 /\ Rabs (rnd r - r) <= / 2 ^ 23.
Proof.
  intros H. split; [apply rnd_abs; [apply (rep_IZR 1); simpl; lia | exact H]|].
  pose proof (rnd_cap r 1 H). pose proof tiny_small. unfold u32 in *. simpl in *. lra.
Qed.
Lemma sin_abs a : Rabs (sin a) <= 1.
Proof. apply Rabs_le, SIN_bound. Qed.
Lemma cos_abs a : Rabs (cos a) <= 1.
Proof. apply Rabs_le, COS_bound. Qed.
Lemma one_127 : 1 <= b32 127.
Proof. change 1 with (b32 0). apply bpow_le. lia. Qed.

Lemma ideal_trig : trig32 ideal_libm.
Proof.
  intros x Fx. pose proof one_127. exists (rnd (cos (B2R x))), (rnd (sin (B2R x))).
  destruct (rnd_one _ (cos_abs (B2R x))) as [A1 A2]. destruct (rnd_one _ (sin_abs (B2R x))) as [B1 B2].
  split; [apply of_fin; pose proof (cos_abs (B2R x)); lra|].
  split; [apply of_fin; pose proof (sin_abs (B2R x)); lra|].
  split; [exact A1|]. split; [exact B1|].
  pose proof (sin2_cos2 (B2R x)) as E. unfold Rsqr in E.
  pose proof (COS_bound (B2R x)) as CB. pose proof (SIN_bound (B2R x)) as SB.
  clear Fx H. set (c := rnd (cos (B2R x))) in *. set (s := rnd (sin (B2R x))) in *. clearbody c s.
  generalize dependent (cos (B2R x)). generalize dependent (sin (B2R x)). intros s0 B2 SB c0 A2 E CB.
  replace (c * c + s * s - 1) with ((c - c0) * (c + c0) + (s - s0) * (s + s0)) by lra.
  assert (K1 : Rabs (c + c0) <= 2) by (apply Rabs_le_inv in A1; apply Rabs_le; lra).
  assert (K2 : Rabs (s + s0) <= 2) by (apply Rabs_le_inv in B1; apply Rabs_le; lra).
  pose proof (abs_add _ _ _ _ (abs_mul _ _ _ _ A2 K1) (abs_mul _ _ _ _ B2 K2)).
  eapply Rle_trans; [eassumption|]. simpl. lra.
Qed.

Lemma ideal_accurate : accurate32 ideal_libm.
Proof.
  pose proof one_127. split.
  - intros x a [Fx <-] _. exists (rnd (cos (B2R x))), (rnd (sin (B2R x))).
    destruct (rnd_one _ (cos_abs (B2R x))) as [A1 A2]. destruct (rnd_one _ (sin_abs (B2R x))) as [B1 B2].
    split; [apply of_fin; pose proof (cos_abs (B2R x)); lra|].
    split; [apply of_fin; pose proof (sin_abs (B2R x)); lra|]. auto.
  - intros y x b a [Fy <-] [Fx <-] Hp. set (a := B2R x) in *. set (b := B2R y) in *.
    pose proof (Ratan2_bounds b a) as TB. pose proof PI_4 as P4. pose proof PI_RGT_0 as P0.
    assert (B4 : Rabs (Ratan2 b a) <= 4) by (apply Rabs_le; lra).
    exists (rnd (Ratan2 b a)), (Ratan2 b a). split.
    { apply of_fin. apply Rle_trans with 4; [exact B4|]. change 4 with (b32 2). apply bpow_le. lia. }
    split. { pose proof (rnd_cap _ _ B4). pose proof tiny_small. unfold u32 in *. simpl in *. lra. }
    split; [lra|].
    destruct (Ratan2_polar b a) as [E1 E2]; [|split; assumption].
    destruct (Req_dec a 0) as [Ea|]; [|now left]. right. intros Eb. rewrite Ea, Eb in Hp. lra.
Qed.

Lemma of_pos r : 0 <= r -> f32_of r = B754_infinity false \/ fin (f32_of r) (rnd r).
Proof.
  intros H. unfold f32_of.
  set (m := Ztrunc (scaled_mantissa radix2 fexp32 (rnd r))). set (e := cexp radix2 fexp32 (rnd r)).
  assert (E : rnd r = IZR m * b32 e) by exact (rnd_rep r).
  pose proof (binary_normalize_correct 24 128 f32_prec_gt_0 f32_prec_lt_emax mode_NE m e false) as C.
  cbv zeta in C. change (F2R (Float radix2 m e)) with (IZR m * b32 e) in C.
  change (round radix2 (SpecFloat.fexp 24 128) (round_mode mode_NE) (IZR m * b32 e)) with (rnd (IZR m * b32 e)) in C.
  rewrite <- E in C. rewrite (rnd_id (rnd r)) in C by apply rnd_rep.
  destruct (Rlt_bool (Rabs (rnd r)) (bpow radix2 128)).
  - right. destruct C as (C1 & C2 & _). split; [exact C2 | exact C1].
  - left. assert (Q : Rlt_bool (rnd r) 0 = false) by (apply Rlt_bool_false; rewrite <- rnd_0; apply rnd_le, H).
    rewrite Q in C. exact (inf_B2SF _ _ C).
Qed.

Lemma ideal_pow : pow32 ideal_libm.
Proof.
  intros x y a b [Fx <-] [Fy <-] Ha Hb. change (lm_pow ideal_libm x y) with (f32_of (Rpower (B2R x) (B2R y))).
  assert (P : 0 < Rpower (B2R x) (B2R y)) by (unfold Rpower; apply exp_pos).
  destruct (of_pos _ (Rlt_le _ _ P)) as [->|F]; [left; reflexivity|]. right. exists (rnd (Rpower (B2R x) (B2R y))).
  split; [exact F|]. split; [rewrite <- rnd_0; apply rnd_le; lra|].
  intros H1. rewrite <- (rnd_id 1) by (apply (rep_IZR 1); simpl; lia). apply rnd_le.
  unfold Rpower. rewrite <- exp_0. assert (L : 0 <= ln (B2R x)).
  { rewrite <- ln_1. destruct (Req_dec (B2R x) 1) as [->|N]; [lra|]. left. apply ln_increasing; lra. }
  pose proof (Rmult_le_pos _ _ Hb L) as M. destruct (Req_dec (B2R y * ln (B2R x)) 0) as [->|N]; [lra|].
  left. apply exp_increasing. lra.
Qed.
