(** Proofs for C21: angle wrapping. *)
From Coq Require Import Reals ZArith Lra Lia List.
From Verif.Lib Require Import Base Scalar XR.
From Verif.Model Require Import Geometry.
From Verif.Spec Require Import GeomSpec.
Open Scope R_scope.

Definition Rwrap (a : R) : R := Rmod (a + PI) (2 * PI) - PI.

Lemma wrap_Fin a : wrap_yaws (Fin a) = Fin (Rwrap a).
Proof.
  unfold wrap_yaws. xr. pose proof PI_RGT_0. rewrite fmod_Fin by lra. xr. reflexivity.
Qed.

Lemma Rwrap_range a : normalised (Rwrap a).
Proof.
  pose proof PI_RGT_0. unfold normalised, Rwrap.
  pose proof (Rmod_bounds (a + PI) (2 * PI)). lra.
Qed.

Lemma Rwrap_cong a : same_angle (Rwrap a) a.
Proof.
  unfold same_angle, Rwrap. destruct (Rmod_cong (a + PI) (2 * PI)) as [k E].
  exists (- k)%Z. rewrite E, opp_IZR. ring.
Qed.

Lemma same_angle_refl a : same_angle a a.
Proof. exists 0%Z. simpl. ring. Qed.
Lemma same_angle_sym a b : same_angle a b -> same_angle b a.
Proof. intros [k E]. exists (- k)%Z. rewrite opp_IZR. lra. Qed.
Lemma same_angle_trans a b c : same_angle a b -> same_angle b c -> same_angle a c.
Proof. intros [k E] [l E']. exists (k + l)%Z. rewrite plus_IZR. lra. Qed.
Lemma same_angle_plus a b c : same_angle a b -> same_angle (a + c) (b + c).
Proof. intros [k E]. exists k. lra. Qed.

Lemma normalised_unique a b : normalised a -> normalised b -> same_angle a b -> a = b.
Proof.
  unfold normalised. intros Ha Hb [k E]. pose proof PI_RGT_0.
  assert (k = 0%Z).
  { assert (A : IZR k < 1) by nra. assert (B : -1 < IZR k) by nra.
    apply lt_IZR in A. apply lt_IZR in B. lia. }
  rewrite H0 in E. simpl in E. lra.
Qed.

Lemma Rwrap_unique a b : normalised b -> same_angle b a -> Rwrap a = b.
Proof.
  intros Hb C. apply normalised_unique; [apply Rwrap_range|auto|].
  eapply same_angle_trans; [apply Rwrap_cong|]. apply same_angle_sym; auto.
Qed.

Lemma Rwrap_id a : normalised a -> Rwrap a = a.
Proof. intros H. apply Rwrap_unique; auto using same_angle_refl. Qed.

Lemma Rwrap_same a b : same_angle a b -> Rwrap a = Rwrap b.
Proof.
  intros H. apply Rwrap_unique; [apply Rwrap_range|].
  eapply same_angle_trans; [apply Rwrap_cong|]. apply same_angle_sym; auto.
Qed.

Lemma cos_shift a (k : Z) : cos (a + IZR k * (2 * PI)) = cos a.
Proof.
  destruct (Z_le_gt_dec 0 k).
  - rewrite <- (Z2Nat.id k) by lia. rewrite <- INR_IZR_INZ.
    replace (INR (Z.to_nat k) * (2 * PI)) with (2 * INR (Z.to_nat k) * PI) by ring.
    apply cos_period.
  - rewrite <- (cos_period (a + IZR k * (2 * PI)) (Z.to_nat (- k))).
    rewrite INR_IZR_INZ, Z2Nat.id by lia. rewrite opp_IZR. f_equal. ring.
Qed.
Lemma sin_shift a (k : Z) : sin (a + IZR k * (2 * PI)) = sin a.
Proof.
  destruct (Z_le_gt_dec 0 k).
  - rewrite <- (Z2Nat.id k) by lia. rewrite <- INR_IZR_INZ.
    replace (INR (Z.to_nat k) * (2 * PI)) with (2 * INR (Z.to_nat k) * PI) by ring.
    apply sin_period.
  - rewrite <- (sin_period (a + IZR k * (2 * PI)) (Z.to_nat (- k))).
    rewrite INR_IZR_INZ, Z2Nat.id by lia. rewrite opp_IZR. f_equal. ring.
Qed.
Lemma same_angle_cos a b : same_angle a b -> cos a = cos b.
Proof. intros [k ->]. apply cos_shift. Qed.
Lemma same_angle_sin a b : same_angle a b -> sin a = sin b.
Proof. intros [k ->]. apply sin_shift. Qed.
Lemma cos_wrap a : cos (Rwrap a) = cos a.
Proof. apply same_angle_cos, Rwrap_cong. Qed.
Lemma sin_wrap a : sin (Rwrap a) = sin a.
Proof. apply same_angle_sin, Rwrap_cong. Qed.

Lemma Rwrap_abs_le a : Rabs (Rwrap a) <= Rabs a.
Proof.
  destruct (Rlt_dec a (- PI)) as [H|H].
  - pose proof (Rwrap_range a) as R. unfold normalised in R.
    rewrite (Rabs_left a) by (pose proof PI_RGT_0; lra).
    apply Rabs_le. pose proof PI_RGT_0. lra.
  - destruct (Rlt_dec a PI) as [H'|H'].
    + rewrite Rwrap_id; [lra|]. unfold normalised. lra.
    + pose proof (Rwrap_range a) as R. unfold normalised in R. pose proof PI_RGT_0.
      rewrite (Rabs_right a) by lra. apply Rabs_le. lra.
Qed.

Lemma wrap_nonfinite (x : xr) : (forall r, x <> Fin r) -> wrap_yaws x = NaN.
Proof. intros H. destruct x; try reflexivity. exfalso. eapply H; reflexivity. Qed.

Lemma wrap_lemma a : exists b,
  wrap_yaws (Fin a) = Fin b /\ normalised b /\ same_angle b a /\
  (forall b', normalised b' -> same_angle b' a -> b' = b).
Proof.
  exists (Rwrap a). split; [apply wrap_Fin|]. split; [apply Rwrap_range|].
  split; [apply Rwrap_cong|]. intros b' H C. symmetry. apply Rwrap_unique; auto.
Qed.

Lemma wrap_idem (x : xr) : wrap_yaws (wrap_yaws x) = wrap_yaws x.
Proof.
  destruct x; [|reflexivity..]. rewrite wrap_Fin, wrap_Fin. f_equal.
  apply Rwrap_id, Rwrap_range.
Qed.

Lemma wrap_abs_lemma a b : wrap_yaws (Fin a) = Fin b -> Rabs b <= Rabs a.
Proof. rewrite wrap_Fin. intros E. injection E as <-. apply Rwrap_abs_le. Qed.
