(** Float32 operations with infinities. *)
From Coq Require Import List ZArith Reals Lra Lia Bool.
From Flocq Require Import Core.Raux IEEE754.BinarySingleNaN.
From Verif.Lib Require Import Base Scalar F32.
From Verif.Spec Require Import F32Spec.
From Verif.Proofs Require Import P_F32 P_F32Wrap P_F32Delta P_F32Bicycle.
Open Scope R_scope.

(** [x] is the real [r] rounded, or infinite if [r] is too large. *)
Definition approx (x : f32) (r : R) : Prop :=
  fin x (rnd r) \/ (b32 127 < Rabs r /\ x = B754_infinity (Rlt_bool r 0)).

Lemma over_big r : Rlt_bool (Rabs (rnd r)) (b32 128) = false -> b32 127 < Rabs r.
Proof.
  intros H. destruct (Rle_lt_dec (Rabs r) (b32 127)) as [L|L]; [|exact L].
  pose proof (lt_emax _ L). rewrite Rlt_bool_true in H by assumption. discriminate.
Qed.

Lemma big_nz r : b32 127 < Rabs r -> r <> 0.
Proof. intros H ->. rewrite Rabs_R0 in H. pose proof (bpow_gt_0 Core.Zaux.radix2 127). lra. Qed.

Lemma inf_B2SF (z : f32) s : B2SF z = binary_overflow 24 128 mode_NE s -> z = B754_infinity s.
Proof. change (binary_overflow 24 128 mode_NE s) with (SpecFloat.S754_infinity s). destruct z; simpl; intros H; congruence. Qed.

Lemma sgn_le (x : f32) : is_finite x = true -> if Bsign x then B2R x <= 0 else 0 <= B2R x.
Proof.
  destruct x as [s|s| |s m e H]; try discriminate; intros _.
  - destruct s; simpl; lra.
  - destruct s; simpl.
    + apply Core.Float_prop.F2R_le_0. simpl. lia.
    + apply Core.Float_prop.F2R_ge_0. simpl. lia.
Qed.

Lemma rlt_neg r : r <= 0 -> r <> 0 -> Rlt_bool r 0 = true.
Proof. intros. apply Rlt_bool_true. lra. Qed.
Lemma rlt_pos r : 0 <= r -> Rlt_bool r 0 = false.
Proof. intros. apply Rlt_bool_false. lra. Qed.

Lemma add_approx x y a b : fin x a -> fin y b -> approx (Bplus mode_NE x y) (a + b).
Proof.
  intros [Fx <-] [Fy <-]. pose proof (Bplus_correct 24 128 _ _ mode_NE x y Fx Fy) as C.
  change (Core.Generic_fmt.round Core.Zaux.radix2 (SpecFloat.fexp 24 128) (round_mode mode_NE) (B2R x + B2R y)) with (rnd (B2R x + B2R y)) in C.
  change (bpow Core.Zaux.radix2 128) with (b32 128) in C.
  destruct (Rlt_bool (Rabs (rnd (B2R x + B2R y))) (b32 128)) eqn:E.
  - left. destruct C as (C1 & C2 & _). split; assumption.
  - right. apply over_big in E. destruct C as [C1 C2]. split; [exact E|]. refine (eq_trans (inf_B2SF _ _ C1) _). f_equal.
    pose proof (sgn_le x Fx) as Sx. pose proof (sgn_le y Fy) as Sy. assert (C3 : Bsign x = Bsign y) by exact C2. rewrite <- C3 in Sy. apply big_nz in E.
    change (Bsign x = Rlt_bool (B2R x + B2R y) 0).
    destruct (Bsign x); symmetry; [apply rlt_neg; [lra | exact E] | apply rlt_pos; lra].
Qed.

Lemma sub_approx x y a b : fin x a -> fin y b -> approx (Bminus mode_NE x y) (a - b).
Proof.
  intros [Fx <-] [Fy <-]. pose proof (Bminus_correct 24 128 _ _ mode_NE x y Fx Fy) as C.
  change (Core.Generic_fmt.round Core.Zaux.radix2 (SpecFloat.fexp 24 128) (round_mode mode_NE) (B2R x - B2R y)) with (rnd (B2R x - B2R y)) in C.
  change (bpow Core.Zaux.radix2 128) with (b32 128) in C.
  destruct (Rlt_bool (Rabs (rnd (B2R x - B2R y))) (b32 128)) eqn:E.
  - left. destruct C as (C1 & C2 & _). split; assumption.
  - right. apply over_big in E. destruct C as [C1 C2]. split; [exact E|]. refine (eq_trans (inf_B2SF _ _ C1) _). f_equal.
    pose proof (sgn_le x Fx) as Sx. pose proof (sgn_le y Fy) as Sy. apply big_nz in E.
    assert (C3 : Bsign x = negb (Bsign y)) by exact C2. change (Bsign x = Rlt_bool (B2R x - B2R y) 0). clear C1 C2.
    destruct (Bsign x), (Bsign y); try discriminate; symmetry; [apply rlt_neg; [lra | exact E] | apply rlt_pos; lra].
Qed.

Lemma sgn_mul (x y : f32) a b : fin x a -> fin y b -> a * b <> 0 -> xorb (Bsign x) (Bsign y) = Rlt_bool (a * b) 0.
Proof.
  intros [Fx <-] [Fy <-] N. pose proof (sgn_le x Fx) as Sx. pose proof (sgn_le y Fy) as Sy.
  destruct (Bsign x), (Bsign y); symmetry; simpl.
  - apply rlt_pos. rewrite <- Rmult_opp_opp. apply Rmult_le_pos; lra.
  - apply rlt_neg; [|exact N]. rewrite <- (Ropp_involutive (B2R x * B2R y)), Ropp_mult_distr_l. assert (0 <= - B2R x * B2R y) by (apply Rmult_le_pos; lra). lra.
  - apply rlt_neg; [|exact N]. rewrite <- (Ropp_involutive (B2R x * B2R y)), Ropp_mult_distr_r. assert (0 <= B2R x * - B2R y) by (apply Rmult_le_pos; lra). lra.
  - apply rlt_pos. apply Rmult_le_pos; lra.
Qed.

Lemma mul_approx x y a b : fin x a -> fin y b -> approx (Bmult mode_NE x y) (a * b).
Proof.
  intros X Y. pose proof (sgn_mul x y a b X Y) as SG. destruct X as [Fx <-], Y as [Fy <-].
  pose proof (Bmult_correct 24 128 _ _ mode_NE x y) as C.
  change (Core.Generic_fmt.round Core.Zaux.radix2 (SpecFloat.fexp 24 128) (round_mode mode_NE) (B2R x * B2R y)) with (rnd (B2R x * B2R y)) in C.
  change (bpow Core.Zaux.radix2 128) with (b32 128) in C.
  destruct (Rlt_bool (Rabs (rnd (B2R x * B2R y))) (b32 128)) eqn:E.
  - left. destruct C as (C1 & C2 & _). split; [|assumption]. eapply eq_trans; [exact C2|].
    change (is_finite x && is_finite y = true). rewrite Fx, Fy. reflexivity.
  - right. apply over_big in E. split; [exact E|]. refine (eq_trans (inf_B2SF _ _ C) _). f_equal. apply SG. now apply big_nz.
Qed.

(** Not NaN. *)
Lemma approx_notnan x r : approx x r -> is_nan x = false.
Proof. intros [F|[_ ->]]; [exact (fin_notnan _ _ F) | reflexivity]. Qed.

Lemma add_notnan x y a : fin x a -> is_nan y = false -> is_nan (Bplus mode_NE x y) = false.
Proof.
  intros X N. destruct (is_finite y) eqn:Fy.
  - exact (approx_notnan _ _ (add_approx _ _ _ _ X (fin_B2R y Fy))).
  - destruct X as [Fx _]. destruct y; try discriminate. destruct x; try discriminate; reflexivity.
Qed.
Lemma sub_notnan x y a : fin x a -> is_nan y = false -> is_nan (Bminus mode_NE x y) = false.
Proof.
  intros X N. destruct (is_finite y) eqn:Fy.
  - exact (approx_notnan _ _ (sub_approx _ _ _ _ X (fin_B2R y Fy))).
  - destruct X as [Fx _]. destruct y; try discriminate. destruct x; try discriminate; reflexivity.
Qed.
Lemma mul_notnan x y a : fin x a -> a <> 0 -> is_nan y = false -> is_nan (Bmult mode_NE x y) = false.
Proof.
  intros X Ha N. destruct (is_finite y) eqn:Fy.
  - exact (approx_notnan _ _ (mul_approx _ _ _ _ X (fin_B2R y Fy))).
  - destruct X as [Fx Ex]. destruct y; try discriminate. destruct x; try discriminate; [simpl in Ex; lra | reflexivity].
Qed.
Lemma div_notnan x y b : is_nan x = false -> fin y b -> b <> 0 -> is_nan (Bdiv mode_NE x y) = false.
Proof.
  intros N [Fy Ey] Hb. destruct (is_finite x) eqn:Fx.
  - subst b. pose proof (Bdiv_correct 24 128 _ _ mode_NE x y Hb) as C.
    destruct (Rlt_bool _ _).
    + destruct C as (_ & C2 & _). assert (Z : is_finite (Bdiv mode_NE x y) = true) by exact (eq_trans C2 Fx).
      destruct (Bdiv mode_NE x y); try discriminate; reflexivity.
    + apply inf_B2SF in C. change (Bdiv mode_NE x y = B754_infinity (xorb (Bsign x) (Bsign y))) in C. rewrite C. reflexivity.
  - destruct x; try discriminate. destruct y; try discriminate; [simpl in Ey; lra | reflexivity].
Qed.
Lemma max_notnan x y : is_nan x = false -> is_nan y = false -> is_nan (f32_max x y) = false.
Proof. intros X Y. unfold f32_max. rewrite X, Y. simpl. destruct (Bleb x y); assumption. Qed.

(** At least 0, perhaps infinite; at most [c], perhaps minus infinity. *)
Definition above0 (x : f32) : Prop := x = B754_infinity false \/ exists r, fin x r /\ 0 <= r.
Definition below (x : f32) (c : R) : Prop := x = B754_infinity true \/ exists r, fin x r /\ r <= c.

Lemma approx_below x r c : approx x r -> r <= c -> Rabs c <= b32 127 -> below x (rnd c).
Proof.
  intros [F|[B ->]] H C.
  - right. exists (rnd r). split; [exact F|]. now apply rnd_le.
  - left. f_equal. apply Rlt_bool_true. apply Rabs_le_inv in C. unfold Rabs in B. destruct (Rcase_abs r); lra.
Qed.

Lemma square_above x : is_nan x = false -> above0 (Bmult mode_NE x x).
Proof.
  intros N. destruct (is_finite x) eqn:Fx.
  - destruct (mul_approx x x _ _ (fin_B2R x Fx) (fin_B2R x Fx)) as [F|[B ->]].
    + right. exists (rnd (B2R x * B2R x)). split; [exact F|]. rewrite <- rnd_0. apply rnd_le, Rle_0_sqr.
    + left. f_equal. apply rlt_pos, Rle_0_sqr.
  - destruct x as [|[]| |]; try discriminate; left; reflexivity.
Qed.

Lemma sub_below x y c : below x c -> above0 y -> Rabs c <= b32 127 -> rep c -> below (Bminus mode_NE x y) c.
Proof.
  intros [-> | (r & X & Hr)] [-> | (q & Y & Hq)] C R.
  - left. reflexivity.
  - left. destruct Y as [Fy _]. destruct y; try discriminate; reflexivity.
  - left. destruct X as [Fx _]. destruct x; try discriminate; reflexivity.
  - rewrite <- (rnd_id c R). eapply approx_below; [exact (sub_approx _ _ _ _ X Y) | lra | exact C].
Qed.

Lemma mul_below m x a c : fin m a -> 0 < a -> below x c -> 0 <= c -> a * c <= b32 127 -> below (Bmult mode_NE m x) (rnd (a * c)).
Proof.
  intros M A [-> | (r & X & Hr)] C B.
  - left. destruct M as [Fm Em]. destruct m as [s|s| |s mm e H]; try discriminate; [simpl in Em; lra|].
    destruct s; [|reflexivity]. exfalso. pose proof (sgn_le (B754_finite true mm e H) eq_refl) as Q. simpl Bsign in Q. cbv iota in Q. lra.
  - eapply approx_below; [exact (mul_approx _ _ _ _ M X) | apply Rmult_le_compat_l; lra |].
    rewrite Rabs_pos_eq; [exact B | apply Rmult_le_pos; lra].
Qed.

Lemma add_below x y a c : fin x a -> below y c -> Rabs (a + c) <= b32 127 -> below (Bplus mode_NE x y) (rnd (a + c)).
Proof.
  intros X [-> | (r & Y & Hr)] B.
  - left. destruct X as [Fx _]. destruct x; try discriminate; reflexivity.
  - eapply approx_below; [exact (add_approx _ _ _ _ X Y) | lra | exact B].
Qed.
