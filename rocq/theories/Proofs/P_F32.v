(** Facts about float32 arithmetic. *)
From Coq Require Import ZArith Reals Lra Lia Bool Psatz.
From Flocq Require Import Core.Core IEEE754.BinarySingleNaN Plus_error Sterbenz Relative.
From Verif.Lib Require Import Scalar F32.
From Verif.Spec Require Import F32Spec.
Open Scope R_scope.

Notation fexp32 := (SpecFloat.fexp 24 128).
Notation b32 := (bpow radix2).
Notation rep := (generic_format radix2 fexp32).

Definition rnd (r : R) : R := round radix2 fexp32 ZnearestE r.

#[global] Instance fexp32_valid : Valid_exp fexp32.
Proof. apply (fexp_correct f32_prec f32_emax). exact f32_prec_gt_0. Qed.
#[global] Instance fexp32_mono : Monotone_exp fexp32.
Proof. change (Monotone_exp (FLT_exp (-149) 24)). apply FLT_exp_monotone. Qed.

Lemma rnd_le a b : a <= b -> rnd a <= rnd b.
Proof. apply round_le; auto with typeclass_instances. Qed.
Lemma rnd_rep a : rep (rnd a).
Proof. apply generic_format_round; auto with typeclass_instances. Qed.
Lemma rnd_id a : rep a -> rnd a = a.
Proof. apply round_generic; auto with typeclass_instances. Qed.
Lemma rnd_0 : rnd 0 = 0.
Proof. apply round_0; auto with typeclass_instances. Qed.
Lemma rnd_opp a : rnd (- a) = - rnd a.
Proof. unfold rnd. rewrite round_NE_opp. reflexivity. Qed.
Lemma rep_opp a : rep a -> rep (- a).
Proof. apply generic_format_opp. Qed.
Lemma rep_0 : rep 0.
Proof. apply generic_format_0. Qed.
Lemma rnd_between a l h : rep l -> rep h -> l <= a <= h -> l <= rnd a <= h.
Proof.
  intros Hl Hh [A B]. rewrite <- (rnd_id l Hl), <- (rnd_id h Hh). split; now apply rnd_le.
Qed.
Lemma rnd_abs a h : rep h -> Rabs a <= h -> Rabs (rnd a) <= h.
Proof.
  intros Hh H. apply Rabs_le_inv in H. apply Rabs_le.
  apply rnd_between; auto using rep_opp.
Qed.

(** m * 2^e is representable for |m| <= 2^24 and e >= -149. *)
Lemma rep_F2R m e : (Z.abs m <= 2 ^ 24)%Z -> (-149 <= e)%Z -> rep (IZR m * b32 e).
Proof.
  intros Hm He.
  destruct (Z.eq_dec (Z.abs m) (2 ^ 24)) as [E|NE].
  - assert (H : rep (b32 (24 + e))).
    { apply generic_format_bpow. change (fexp32 (24 + e + 1)) with (FLT_exp (-149) 24 (24 + e + 1)).
      unfold FLT_exp. lia. }
    rewrite bpow_plus in H. change (b32 24) with (IZR (2 ^ 24)) in H.
    destruct (Z.abs_eq_or_opp m) as [A|A]; rewrite A in E.
    + rewrite E. exact H.
    + replace m with (- (2 ^ 24))%Z by lia. rewrite opp_IZR, Ropp_mult_distr_l_reverse.
      now apply rep_opp.
  - change (IZR m * b32 e) with (F2R (Float radix2 m e)).
    apply generic_format_FLT. exists (Float radix2 m e); [reflexivity | simpl; simpl in Hm, NE; lia | exact He].
Qed.

Lemma rep_bpow e : (-149 <= e)%Z -> rep (b32 e).
Proof. intros H. rewrite <- (Rmult_1_l (b32 e)). apply (rep_F2R 1); [simpl; lia|exact H]. Qed.

Lemma rep_IZR m : (Z.abs m <= 2 ^ 24)%Z -> rep (IZR m).
Proof. intros H. rewrite <- (Rmult_1_r (IZR m)). apply (rep_F2R m 0); [exact H|lia]. Qed.

Lemma fin_rep x r : fin x r -> rep r.
Proof. intros [_ <-]. apply generic_format_B2R. Qed.

Lemma fin_fun x a b : fin x a -> fin x b -> a = b.
Proof. intros [_ <-] [_ <-]. reflexivity. Qed.

Lemma fin_notnan x r : fin x r -> is_nan x = false.
Proof. intros [H _]. destruct x; try discriminate; reflexivity. Qed.

Lemma fin_B2R x : is_finite x = true -> fin x (B2R x).
Proof. split; auto. Qed.

Lemma lt_emax a : Rabs a <= b32 127 -> Rabs (rnd a) < b32 128.
Proof.
  intros H. apply Rle_lt_trans with (b32 127).
  - apply rnd_abs; [|exact H]. apply rep_bpow. lia.
  - apply bpow_lt. lia.
Qed.

Lemma add_fin x y a b : fin x a -> fin y b -> Rabs (a + b) <= b32 127 ->
  fin (Bplus mode_NE x y) (rnd (a + b)).
Proof.
  intros [Fx <-] [Fy <-] H. pose proof (Bplus_correct 24 128 _ _ mode_NE x y Fx Fy) as C.
  rewrite Rlt_bool_true in C by (apply (lt_emax _ H)).
  destruct C as (C1 & C2 & _). split; assumption.
Qed.

Lemma sub_fin x y a b : fin x a -> fin y b -> Rabs (a - b) <= b32 127 ->
  fin (Bminus mode_NE x y) (rnd (a - b)).
Proof.
  intros [Fx <-] [Fy <-] H. pose proof (Bminus_correct 24 128 _ _ mode_NE x y Fx Fy) as C.
  rewrite Rlt_bool_true in C by (apply (lt_emax _ H)).
  destruct C as (C1 & C2 & _). split; assumption.
Qed.

Lemma mul_fin x y a b : fin x a -> fin y b -> Rabs (a * b) <= b32 127 ->
  fin (Bmult mode_NE x y) (rnd (a * b)).
Proof.
  intros [Fx <-] [Fy <-] H. pose proof (Bmult_correct 24 128 _ _ mode_NE x y) as C.
  rewrite Rlt_bool_true in C by (apply (lt_emax _ H)).
  destruct C as (C1 & C2 & _). split; [|assumption].
  eapply eq_trans; [exact C2|]. change (is_finite x && is_finite y = true). rewrite Fx, Fy. reflexivity.
Qed.

Lemma div_fin x y a b : fin x a -> fin y b -> b <> 0 -> Rabs (a / b) <= b32 127 ->
  fin (Bdiv mode_NE x y) (rnd (a / b)).
Proof.
  intros [Fx <-] [Fy <-] N H. pose proof (Bdiv_correct 24 128 _ _ mode_NE x y N) as C.
  rewrite Rlt_bool_true in C by (apply (lt_emax _ H)).
  destruct C as (C1 & C2 & _). split; [|assumption]. exact (eq_trans C2 Fx).
Qed.

Lemma sqrt_fin x a : fin x a -> 0 <= a -> fin (Bsqrt mode_NE x) (rnd (sqrt a)).
Proof.
  intros [Fx <-] N. pose proof (Bsqrt_correct 24 128 _ _ mode_NE x) as (C1 & C2 & _).
  split; [|exact C1]. eapply eq_trans; [exact C2|]. clear C1 C2. destruct x as [s|s| |s m e H]; try reflexivity; try discriminate.
  destruct s; [|reflexivity]. exfalso. simpl in N.
  assert (F2R (Float radix2 (Z.neg m) e) < 0) by (apply F2R_lt_0; reflexivity). simpl in N. lra.
Qed.

Lemma opp_fin x a : fin x a -> fin (Bopp x) (- a).
Proof. intros [Fx <-]. split; [rewrite is_finite_Bopp; exact Fx | apply B2R_Bopp]. Qed.

Lemma abs_fin x a : fin x a -> fin (Babs x) (Rabs a).
Proof. intros [Fx <-]. split; [rewrite is_finite_Babs; exact Fx | apply B2R_Babs]. Qed.

Lemma ltb_fin x y a b : fin x a -> fin y b -> Bltb x y = Rlt_bool a b.
Proof. intros [Fx <-] [Fy <-]. now apply Bltb_correct. Qed.
Lemma leb_fin x y a b : fin x a -> fin y b -> Bleb x y = Rle_bool a b.
Proof. intros [Fx <-] [Fy <-]. now apply Bleb_correct. Qed.
Lemma eqb_fin x y a b : fin x a -> fin y b -> Beqb x y = Req_bool a b.
Proof. intros [Fx <-] [Fy <-]. now apply Beqb_correct. Qed.

Lemma max_fin x y a b : fin x a -> fin y b -> fin (f32_max x y) (Rmax a b).
Proof.
  intros X Y. unfold f32_max. rewrite (fin_notnan _ _ X), (fin_notnan _ _ Y). simpl.
  rewrite (leb_fin _ _ _ _ X Y). destruct (Rle_bool_spec a b).
  - rewrite Rmax_right; auto.
  - rewrite Rmax_left; auto; lra.
Qed.
Lemma min_fin x y a b : fin x a -> fin y b -> fin (f32_min x y) (Rmin a b).
Proof.
  intros X Y. unfold f32_min. rewrite (fin_notnan _ _ X), (fin_notnan _ _ Y). simpl.
  rewrite (leb_fin _ _ _ _ X Y). destruct (Rle_bool_spec a b).
  - rewrite Rmin_left; auto.
  - rewrite Rmin_right; auto; lra.
Qed.

Lemma norm_fin m e neg0 : (Z.abs m <= 2 ^ 24)%Z -> (-149 <= e)%Z -> Rabs (IZR m * b32 e) < b32 128 ->
  fin (f32_norm m e neg0) (IZR m * b32 e).
Proof.
  intros Hm He Hb. pose proof (binary_normalize_correct 24 128 f32_prec_gt_0 f32_prec_lt_emax mode_NE m e neg0) as C.
  cbv zeta in C. change (F2R (Float radix2 m e)) with (IZR m * b32 e) in C.
  change (round radix2 (SpecFloat.fexp 24 128) (round_mode mode_NE) (IZR m * b32 e)) with (rnd (IZR m * b32 e)) in C.
  rewrite (rnd_id (IZR m * b32 e)) in C by (now apply rep_F2R).
  rewrite Rlt_bool_true in C by exact Hb.
  destruct C as (C1 & C2 & _). split; [exact C2|].
  exact C1.
Qed.

Lemma ofZ_fin z : (Z.abs z <= 2 ^ 24)%Z -> fin (f32_ofZ z) (IZR z).
Proof.
  intros H. unfold f32_ofZ. rewrite <- (Rmult_1_r (IZR z)). apply (norm_fin z 0); [exact H|lia|].
  change (b32 0) with 1. rewrite Rmult_1_r, <- abs_IZR. apply Rle_lt_trans with (IZR (2 ^ 24)); [now apply IZR_le|].
  change (IZR (2 ^ 24)) with (b32 24). apply bpow_lt. lia.
Qed.

Lemma pi_fin : fin f32_pi pi32.
Proof.
  unfold f32_pi. replace pi32 with (IZR 13176795 * b32 (-22)) by (unfold pi32; simpl; lra).
  apply norm_fin; [simpl; lia | lia |]. rewrite Rabs_pos_eq by (simpl; lra).
  apply Rlt_trans with (b32 2); [simpl; lra | apply bpow_lt; lia].
Qed.

(** The relative error of a sum. *)
Definition u32 : R := / 16777216.

Lemma u_ro_u32 : u_ro radix2 24 = u32.
Proof. unfold u_ro, u32. simpl. lra. Qed.

Lemma add_err a b : rep a -> rep b -> Rabs (rnd (a + b) - (a + b)) <= u32 * Rabs (a + b).
Proof.
  intros A B.
  destruct (FLT_plus_error_N_ex radix2 (-149) 24 (fun x => negb (Z.even x)) a b A B) as (eps & E & R).
  change (round radix2 (FLT_exp (-149) 24) (Znearest (fun x : Z => negb (Z.even x))) (a + b)) with (rnd (a + b)) in R.
  rewrite R. replace ((a + b) * (1 + eps) - (a + b)) with (eps * (a + b)) by ring.
  rewrite Rabs_mult. apply Rmult_le_compat_r; [apply Rabs_pos|].
  eapply Rle_trans; [exact E|]. rewrite <- u_ro_u32. apply u_rod1pu_ro_le_u_ro.
Qed.

Lemma sub_err a b : rep a -> rep b -> Rabs (rnd (a - b) - (a - b)) <= u32 * Rabs (a - b).
Proof. intros A B. apply (add_err a (- b)); auto using rep_opp. Qed.

(** Any rounding: relative error plus half the smallest positive number. *)
Lemma rnd_err a : Rabs (rnd a - a) <= u32 * Rabs a + b32 (-150).
Proof.
  destruct (error_N_FLT radix2 (-149) 24 ltac:(lia) (fun x => negb (Z.even x)) a)
    as (eps & eta & E & H & _ & R).
  change (round radix2 (FLT_exp (-149) 24) (Znearest (fun x : Z => negb (Z.even x))) a) with (rnd a) in R.
  rewrite R. replace (a * (1 + eps) + eta - a) with (eps * a + eta) by ring.
  eapply Rle_trans; [apply Rabs_triang|]. rewrite Rabs_mult.
  apply Rplus_le_compat.
  - apply Rmult_le_compat_r; [apply Rabs_pos|]. eapply Rle_trans; [exact E|].
    unfold u32. simpl. lra.
  - eapply Rle_trans; [exact H|]. change (-150)%Z with (-1 + -149)%Z. rewrite bpow_plus. simpl. lra.
Qed.

Lemma rep_sterbenz a b : rep a -> rep b -> b / 2 <= a <= 2 * b -> rep (a - b).
Proof. intros A B H. apply sterbenz; auto with typeclass_instances. Qed.
