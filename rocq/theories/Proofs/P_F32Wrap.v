(** The remainder and wrap_yaws in float32. *)
From Coq Require Import ZArith Reals Lra Lia Bool Psatz.
From Flocq Require Import Core.Core Core.Digits IEEE754.BinarySingleNaN.
From Verif.Lib Require Import Scalar F32.
From Verif.Model Require Import Geometry.
From Verif.Spec Require Import F32Spec.
From Verif.Proofs Require Import P_F32.
Open Scope R_scope.

Lemma bounded_facts m e : SpecFloat.bounded 24 128 m e = true -> (Zpos m < 2 ^ 24 /\ -149 <= e)%Z.
Proof.
  intros H. apply andb_prop in H as [H _]. apply Zeq_bool_eq in H.
  rewrite Zpos_digits2_pos in H.
  change (SpecFloat.fexp 24 128) with (FLT_exp (-149) 24) in H. unfold FLT_exp in H.
  split; [|lia].
  assert (D : (Zdigits radix2 (Z.pos m) <= 24)%Z) by lia.
  pose proof (Zdigits_correct radix2 (Z.pos m)) as [_ C]. simpl Z.abs in C.
  eapply Z.lt_le_trans; [exact C|]. apply (Zpower_le radix2); exact D.
Qed.

Lemma pow2_R e : (0 <= e)%Z -> IZR (2 ^ e) = b32 e.
Proof. intros H. now apply (IZR_Zpower radix2). Qed.

Lemma shift_R (m e f : Z) : (f <= e)%Z -> IZR m * b32 e = IZR (m * 2 ^ (e - f)) * b32 f.
Proof.
  intros H. rewrite mult_IZR, pow2_R by lia. rewrite Rmult_assoc, <- bpow_plus.
  do 2 f_equal. lia.
Qed.

Lemma rem_fin x y a b : fin x a -> fin y b -> 0 < b ->
  exists q : Z, fin (f32_rem x y) (a - IZR q * b) /\ Rabs (a - IZR q * b) < b /\
    (0 <= a -> 0 <= a - IZR q * b) /\ (a <= 0 -> a - IZR q * b <= 0).
Proof.
  intros X Y B. pose proof Y as [Fy Vy]. pose proof X as [Fx Vx].
  destruct y as [sy|sy| |sy my ey Hy]; try discriminate; [simpl in Vy; lra|].
  destruct x as [sx|sx| |sx mx ex Hx]; try discriminate.
  { exists 0%Z. simpl in Vx. subst a. replace (0 - 0 * b) with 0 by ring.
    rewrite Rabs_R0. split; [split; reflexivity|]. split; [exact B|]. lra. }
  assert (sy = false) as ->.
  { destruct sy; [|reflexivity]. exfalso. cbn [B2R] in Vy.
    assert (F2R (Float radix2 (cond_Zopp true (Z.pos my)) ey) < 0) by (apply F2R_lt_0; reflexivity). lra. }
  destruct (bounded_facts _ _ Hx) as [Mx Ex]. destruct (bounded_facts _ _ Hy) as [My Ey].
  set (e := Z.min ex ey).
  set (A := (cond_Zopp sx (Z.pos mx) * 2 ^ (ex - e))%Z).
  set (D := (Z.pos my * 2 ^ (ey - e))%Z).
  assert (VA : a = IZR A * b32 e).
  { rewrite <- Vx. cbn [B2R]. unfold F2R; cbn [Fnum Fexp]. unfold A. apply shift_R. unfold e. lia. }
  assert (VD : b = IZR D * b32 e).
  { rewrite <- Vy. cbn [B2R cond_Zopp]. unfold F2R; cbn [Fnum Fexp]. unfold D. apply shift_R. unfold e. lia. }
  assert (PD : (0 < D)%Z).
  { unfold D. apply Z.mul_pos_pos; [lia|]. apply Z.pow_pos_nonneg; [lia|]. unfold e. lia. }
  assert (PE : 0 < b32 e) by apply bpow_gt_0.
  assert (RB : (Z.abs (Z.rem A D) < D)%Z).
  { pose proof (Z.rem_bound_abs A D ltac:(lia)). lia. }
  assert (RV : a - IZR (Z.quot A D) * b = IZR (Z.rem A D) * b32 e).
  { rewrite VA, VD. pose proof (Z.quot_rem A D ltac:(lia)) as Q.
    rewrite Q at 1. rewrite plus_IZR, mult_IZR. ring. }
  exists (Z.quot A D). rewrite RV. split.
  - unfold f32_rem. fold e A D. apply norm_fin.
    + destruct (Z.min_spec ex ey) as [[_ E]|[_ E]]; fold e in E.
      * assert (Z.abs (Z.rem A D) <= Z.abs A)%Z.
        { destruct (Z_le_gt_dec D (Z.abs A)); [lia|].
          rewrite (proj2 (Z.rem_small_iff A D ltac:(lia))) by lia. lia. }
        assert (A = cond_Zopp sx (Z.pos mx)) as EA.
        { unfold A. rewrite E, Z.sub_diag, Z.pow_0_r. ring. }
        rewrite EA in H at 2. destruct sx; simpl cond_Zopp in H; simpl Z.abs in H; lia.
      * assert (D = Z.pos my) as ED by (unfold D; rewrite E, Z.sub_diag, Z.pow_0_r; ring). lia.
    + unfold e. lia.
    + rewrite Rabs_mult, (Rabs_pos_eq (b32 e)) by lra. rewrite <- abs_IZR.
      apply Rle_lt_trans with (IZR (Z.abs A) * b32 e).
      * apply Rmult_le_compat_r; [lra|]. apply IZR_le.
        destruct (Z_le_gt_dec D (Z.abs A)); [lia|].
        rewrite (proj2 (Z.rem_small_iff A D ltac:(lia))) by lia. lia.
      * rewrite abs_IZR, <- (Rabs_pos_eq (b32 e)), <- Rabs_mult, <- VA, <- Vx by lra.
        apply (abs_B2R_lt_emax 24 128).
  - split; [|split].
    + rewrite Rabs_mult, (Rabs_pos_eq (b32 e)) by lra. rewrite <- abs_IZR, VD.
      apply Rmult_lt_compat_r; [exact PE|]. now apply IZR_lt.
    + intros H. apply Rmult_le_pos; [|lra]. apply IZR_le. apply Z.rem_nonneg; [lia|].
      rewrite VA in H. apply le_IZR. apply Rmult_le_reg_r with (b32 e); [exact PE|]. lra.
    + intros H. assert (A <= 0)%Z.
      { rewrite VA in H. apply le_IZR. apply Rmult_le_reg_r with (b32 e); [exact PE|]. lra. }
      pose proof (Z.rem_nonpos A D ltac:(lia) H0) as N. apply IZR_le in N.
      apply Rmult_le_reg_r with (/ b32 e); [now apply Rinv_0_lt_compat|].
      rewrite Rmult_assoc, Rinv_r by lra. lra.
Qed.

Lemma zero_fin : fin (B754_zero false) 0.
Proof. split; reflexivity. Qed.

(** jnp.remainder by a positive divisor. *)
Lemma mod_fin x y a b : fin x a -> fin y b -> 0 < b -> b <= b32 127 ->
  exists (q : Z) r, r = a - IZR q * b /\ (0 <= a -> 0 <= r) /\ (a <= 0 -> r <= 0) /\ rep r /\
    ((0 <= r < b /\ fin (f32_mod x y) r) \/ (- b < r < 0 /\ fin (f32_mod x y) (rnd (r + b)))).
Proof.
  intros X Y B Bb. destruct (rem_fin x y a b X Y B) as (q & R & Ab & P & N).
  set (r := a - IZR q * b) in *.
  assert (- b < r < b) by (apply Rabs_lt_inv; exact Ab).
  exists q, r. split; [reflexivity|]. split; [exact P|]. split; [exact N|].
  split; [eapply fin_rep; eauto|].
  unfold f32_mod. rewrite (ltb_fin _ _ _ _ R zero_fin), (ltb_fin _ _ _ _ Y zero_fin), (eqb_fin _ _ _ _ R zero_fin).
  rewrite (Rlt_bool_false b 0) by lra.
  destruct (Rlt_bool_spec r 0) as [L|L].
  - right. rewrite Req_bool_false by lra. simpl. split; [lra|]. apply add_fin; auto.
    rewrite Rabs_pos_eq by lra. lra.
  - left. simpl. split; [lra|exact R].
Qed.

(** A representable number of magnitude 2^(e-1) or more is a multiple of 2^(e-24). *)
Lemma rep_mult a e : rep a -> b32 (e - 1) <= Rabs a -> exists z, a = IZR z * b32 (e - 24).
Proof.
  intros R H. unfold generic_format in R.
  set (m := Ztrunc (scaled_mantissa radix2 fexp32 a)) in *.
  assert (C : (e - 24 <= cexp radix2 fexp32 a)%Z).
  { unfold cexp. change (fexp32 (mag radix2 a)) with (FLT_exp (-149) 24 (mag radix2 a)). unfold FLT_exp.
    pose proof (mag_ge_bpow radix2 a e H). lia. }
  rewrite R. unfold F2R; cbn [Fnum Fexp]. rewrite (shift_R m _ _ C). eauto.
Qed.

Lemma f2_fin lm : fin (f2 (S := F32 lm)) 2.
Proof.
  assert (E : rnd (2 / 1) = 2).
  { replace (2 / 1) with 2 by lra. apply rnd_id. apply (rep_IZR 2). simpl. lia. }
  change (fin (Bdiv mode_NE (f32_ofZ 2) (f32_ofZ 1)) 2). rewrite <- E.
  apply div_fin; [apply (ofZ_fin 2); simpl; lia | apply (ofZ_fin 1); simpl; lia | lra |].
  rewrite Rabs_pos_eq by lra. apply Rle_trans with (b32 1); [simpl; lra | apply bpow_le; lia].
Qed.

Lemma b32_m21 : b32 (-21) = / 2097152. Proof. reflexivity. Qed.
Lemma b32_m22 : b32 (-22) = / 4194304. Proof. reflexivity. Qed.

Lemma pi32_rep : rep pi32.
Proof. exact (fin_rep _ _ pi_fin). Qed.
Lemma two_pi32_rep : rep (2 * pi32).
Proof.
  replace (2 * pi32) with (IZR 13176795 * b32 (-21)) by (unfold pi32; rewrite b32_m21; lra).
  apply rep_F2R; [simpl; lia | lia].
Qed.
Lemma pi32_val : 3 < pi32 < 4.
Proof. unfold pi32. lra. Qed.

Lemma two_pi_fin lm : fin (fmul (Scalar := F32 lm) f2 fpi) (2 * pi32).
Proof.
  rewrite <- (rnd_id (2 * pi32) two_pi32_rep). apply mul_fin; [apply f2_fin | apply pi_fin |].
  pose proof pi32_val. rewrite Rabs_pos_eq by lra.
  apply Rle_trans with (b32 3); [simpl; lra | apply bpow_le; lia].
Qed.

Lemma rnd_nearest z g : rep g -> Rabs (rnd z - z) <= Rabs (g - z).
Proof.
  intros G. destruct (round_N_pt radix2 fexp32 (fun x => negb (Z.even x)) z) as [_ H]. now apply H.
Qed.

Lemma abs_lt_max x a : fin x a -> Rabs a <= b32 128 - b32 104.
Proof.
  intros [_ <-]. apply (abs_B2R_le_emax_minus_prec 24 128). exact f32_prec_gt_0.
Qed.

(** Adding pi32 to any finite float does not overflow. *)
Lemma add_pi_fin x a : fin x a -> fin (Bplus mode_NE x f32_pi) (rnd (a + pi32)).
Proof.
  intros X. pose proof X as [Fx Vx]. pose proof pi_fin as [Fp Vp].
  pose proof (Bplus_correct 24 128 _ _ mode_NE x f32_pi Fx Fp) as C.
  change (round radix2 (SpecFloat.fexp 24 128) (round_mode mode_NE) (B2R x + B2R f32_pi))
    with (rnd (B2R x + B2R f32_pi)) in C.
  change (@B2R 24 128) with (@B2R f32_prec f32_emax) in C. rewrite Vx, Vp in C.
  rewrite Rlt_bool_true in C.
  - destruct C as (C1 & C2 & _). split; assumption.
  - pose proof (abs_lt_max _ _ X). pose proof pi32_val.
    pose proof (rnd_nearest (a + pi32) a (fin_rep _ _ X)) as Hn.
    replace (a - (a + pi32)) with (- pi32) in Hn by ring. rewrite Rabs_Ropp, (Rabs_pos_eq pi32) in Hn by lra.
    assert (b32 4 < b32 104) by (apply bpow_lt; lia). change (b32 4) with 16 in *.
    apply Rabs_le_inv in H. apply Rabs_le_inv in Hn. apply Rabs_lt. lra.
Qed.

Lemma rnd_tie : rnd (2 * pi32 - / 4194304) = 13176794 / 2097152.
Proof.
  set (A := f32_norm 13176795 (-21) false). set (B := f32_norm (-1) (-22) false).
  set (C := f32_norm 13176794 (-21) false).
  assert (FA : fin A (2 * pi32)).
  { replace (2 * pi32) with (IZR 13176795 * b32 (-21)) by (unfold pi32; rewrite b32_m21; lra).
    apply norm_fin; [simpl; lia | lia |]. rewrite b32_m21, Rabs_pos_eq by lra.
    apply Rlt_trans with (b32 3); [simpl; lra | apply bpow_lt; lia]. }
  assert (FB : fin B (- / 4194304)).
  { replace (- / 4194304) with (IZR (-1) * b32 (-22)) by (rewrite b32_m22; lra).
    apply norm_fin; [simpl; lia | lia |]. rewrite b32_m22, Rabs_left by lra.
    apply Rlt_trans with (b32 3); [simpl; lra | apply bpow_lt; lia]. }
  assert (FC : fin C (13176794 / 2097152)).
  { replace (13176794 / 2097152) with (IZR 13176794 * b32 (-21)) by (rewrite b32_m21; lra).
    apply norm_fin; [simpl; lia | lia |]. rewrite b32_m21, Rabs_pos_eq by lra.
    apply Rlt_trans with (b32 3); [simpl; lra | apply bpow_lt; lia]. }
  assert (FS : fin (Bplus mode_NE A B) (rnd (2 * pi32 + - / 4194304))).
  { apply add_fin; auto. pose proof pi32_val. rewrite Rabs_pos_eq by lra.
    apply Rle_trans with (b32 3); [simpl; lra | apply bpow_le; lia]. }
  assert (E : Beqb (Bplus mode_NE A B) C = true) by (vm_compute; reflexivity).
  rewrite (eqb_fin _ _ _ _ FS FC) in E. destruct (Req_bool_spec (rnd (2 * pi32 + - / 4194304)) (13176794 / 2097152)) as [Q|Q];
    [exact Q | discriminate].
Qed.

(** The largest value before pi32 is subtracted. *)
Definition top : R := 13176794 / 2097152.

Lemma below_two_pi r : rep r -> r < 2 * pi32 -> r <= top.
Proof.
  intros R H. destruct (Rle_lt_dec 4 r) as [L|L]; [|unfold top; lra].
  destruct (rep_mult r 3 R) as [z E].
  { rewrite Rabs_pos_eq by lra. change (b32 (3 - 1)) with 4. exact L. }
  simpl Z.sub in E. rewrite b32_m21 in E. unfold pi32, top in *.
  assert (z < 13176795)%Z by (apply lt_IZR; lra).
  assert (z <= 13176794)%Z by lia. apply IZR_le in H1. lra.
Qed.

Lemma below_minus_pi a : rep a -> a < - pi32 -> a + pi32 <= - / 4194304.
Proof.
  intros R H. pose proof pi32_val. destruct (Rle_lt_dec a (-4)) as [L|L]; [unfold pi32; lra|].
  destruct (rep_mult a 2 R) as [z E].
  { rewrite Rabs_left by lra. change (b32 (2 - 1)) with 2. lra. }
  simpl Z.sub in E. rewrite b32_m22 in E. unfold pi32 in *.
  assert (z < -13176795)%Z by (apply lt_IZR; lra).
  assert (z <= -13176796)%Z by lia. apply IZR_le in H2. lra.
Qed.

Lemma bpow_m22_rep : rep (- / 4194304).
Proof. apply rep_opp. rewrite <- b32_m22. apply rep_bpow. lia. Qed.

Lemma top_rep : rep top.
Proof.
  replace top with (IZR 13176794 * b32 (-21)) by (unfold top; rewrite b32_m21; lra).
  apply rep_F2R; [simpl; lia|lia].
Qed.

(** What wrap_yaws computes before the final subtraction. *)
Lemma wrap_mod lm x a : fin x a ->
  exists (q : Z) r m,
    r = rnd (a + pi32) - IZR q * (2 * pi32) /\ rep r /\ rep m /\ 0 <= m <= top /\
    fin (f32_mod (Bplus mode_NE x f32_pi) (fmul (Scalar := F32 lm) f2 fpi)) m /\
    (m = r \/ m = rnd (r + 2 * pi32) /\ - (2 * pi32) < r < 0) /\
    (0 <= rnd (a + pi32) -> 0 <= r).
Proof.
  intros X. pose proof pi32_val as P. pose proof (add_pi_fin x a X) as A.
  destruct (mod_fin _ _ _ _ A (two_pi_fin lm)) as (q & r & Er & Pr & Nr & Rr & D); [lra| |].
  { apply Rle_trans with (b32 3); [simpl; lra | apply bpow_le; lia]. }
  exists q, r. destruct D as [[B M]|[B M]].
  - exists r. split; [exact Er|]. split; [exact Rr|]. split; [exact Rr|]. split.
    { split; [lra|]. apply below_two_pi; auto; lra. }
    split; [exact M|]. split; [left; reflexivity | exact Pr].
  - exists (rnd (r + 2 * pi32)). split; [exact Er|]. split; [exact Rr|]. split; [apply rnd_rep|]. split.
    { assert (R : r <= - / 4194304).
      { assert (S0 : rnd (a + pi32) < 0).
        { destruct (Rlt_le_dec (rnd (a + pi32)) 0) as [|G]; [assumption|]. specialize (Pr G). lra. }
        destruct (Rlt_le_dec (- (2 * pi32)) (rnd (a + pi32))) as [G|G].
        - (* no whole turn removed *)
          assert (Q : q = 0%Z).
          { destruct (Z.lt_trichotomy q 0) as [Q|[Q|Q]]; [|exact Q|]; exfalso.
            - assert (q <= -1)%Z by lia. apply IZR_le in H.
              assert (IZR q * (2 * pi32) <= -1 * (2 * pi32)) by (apply Rmult_le_compat_r; lra). lra.
            - assert (1 <= q)%Z by lia. apply IZR_le in H.
              assert (1 * (2 * pi32) <= IZR q * (2 * pi32)) by (apply Rmult_le_compat_r; lra). lra. }
          subst q. rewrite Rmult_0_l, Rminus_0_r in Er. subst r.
          apply Rle_trans with (rnd (- / 4194304)); [|rewrite rnd_id; [lra|apply bpow_m22_rep]].
          apply rnd_le. apply below_minus_pi; [eapply fin_rep; eauto|].
          destruct (Rlt_le_dec a (- pi32)) as [|G']; [assumption|].
          assert (rnd 0 <= rnd (a + pi32)) by (apply rnd_le; lra). rewrite rnd_0 in H. lra.
        - destruct (rep_mult (rnd (a + pi32)) 3 (rnd_rep _)) as [z E].
          { rewrite Rabs_left by lra. change (b32 (3 - 1)) with 4. lra. }
          simpl Z.sub in E. rewrite b32_m21 in E.
          assert (E2 : r = IZR (z - q * 13176795) * / 2097152).
          { rewrite Er, E, minus_IZR, mult_IZR. unfold pi32. field. }
          assert (z - q * 13176795 < 0)%Z by (apply lt_IZR; lra).
          assert (z - q * 13176795 <= -1)%Z by lia. apply IZR_le in H0. lra. }
      split.
      - rewrite <- rnd_0. apply rnd_le. lra.
      - unfold top. rewrite <- rnd_tie. apply rnd_le. lra. }
    split; [exact M|]. split; [right; auto | exact Pr].
Qed.

Lemma wrap_fin lm x a : fin x a ->
  exists (q : Z) r m,
    r = rnd (a + pi32) - IZR q * (2 * pi32) /\ rep r /\ rep m /\ 0 <= m <= top /\
    fin (wrap_yaws (S := F32 lm) x) (rnd (m - pi32)) /\
    (m = r \/ m = rnd (r + 2 * pi32) /\ - (2 * pi32) < r < 0) /\
    (0 <= rnd (a + pi32) -> 0 <= r).
Proof.
  intros X. destruct (wrap_mod lm x a X) as (q & r & m & Er & Rr & Rm & Bm & M & D & Pr).
  exists q, r, m. repeat (split; [solve [auto]|]). split; [|split; [exact D | exact Pr]].
  change (fin (Bminus mode_NE (f32_mod (Bplus mode_NE x f32_pi) (fmul (Scalar := F32 lm) f2 fpi)) f32_pi) (rnd (m - pi32))).
  apply sub_fin; [exact M | apply pi_fin |].
  pose proof pi32_val. unfold top in Bm.
  apply Rle_trans with (b32 3); [|apply bpow_le; lia]. change (b32 3) with 8. apply Rabs_le. lra.
Qed.

Lemma minus_pi_range m : 0 <= m <= top -> - pi32 <= rnd (m - pi32) <= 13176793 / 4194304.
Proof.
  intros H. apply rnd_between.
  - apply rep_opp, pi32_rep.
  - replace (13176793 / 4194304) with (IZR 13176793 * b32 (-22)) by (rewrite b32_m22; lra).
    apply rep_F2R; [simpl; lia | lia].
  - unfold top, pi32 in *. lra.
Qed.

Lemma wrap_range lm x a : fin x a ->
  exists w, fin (wrap_yaws (S := F32 lm) x) w /\ - pi32 <= w < pi32.
Proof.
  intros X. destruct (wrap_fin lm x a X) as (q & r & m & Er & Rr & Rm & Bm & M & D & Pr).
  exists (rnd (m - pi32)). split; [exact M|]. pose proof (minus_pi_range m Bm). unfold pi32 in *. lra.
Qed.

(** Wrapping a wrapped angle. *)
Lemma wrap_again lm x a m : fin x a -> 0 <= m <= top -> rep m -> a = rnd (m - pi32) ->
  fin (wrap_yaws (S := F32 lm) x) a.
Proof.
  intros X Bm Rm Ea. pose proof pi32_val as P.
  (* the sum a + pi32 is exact, between 0 and top, and gives a back *)
  assert (H : exists s, rep s /\ a + pi32 = s /\ 0 <= s <= top /\ rnd (s - pi32) = a).
  { destruct (Rle_lt_dec (pi32 / 2) m) as [L|L].
    - assert (rep (m - pi32)).
      { apply rep_sterbenz; auto using pi32_rep. unfold top, pi32 in *. lra. }
      rewrite rnd_id in Ea by assumption. exists m. subst a.
      split; [exact Rm|]. split; [ring|]. split; [exact Bm|]. now apply rnd_id.
    - assert (B : - pi32 <= a <= - (pi32 / 2)).
      { subst a. apply rnd_between; [apply rep_opp, pi32_rep | | lra].
        apply rep_opp. replace (pi32 / 2) with (IZR 13176795 * b32 (-23)) by (unfold pi32; simpl; lra).
        apply rep_F2R; [simpl; lia|lia]. }
      assert (rep (pi32 - - a)).
      { apply rep_sterbenz; [apply pi32_rep | apply rep_opp; eapply fin_rep; eauto | lra]. }
      exists (pi32 - - a). split; [assumption|]. split; [ring|]. split; [unfold top, pi32 in *; lra|].
      replace (pi32 - - a - pi32) with a by ring. apply rnd_id. eapply fin_rep; eauto. }
  destruct H as (s & Rs & Es & Bs & Back).
  destruct (wrap_fin lm x a X) as (q & r & m' & Er & Rr & Rm' & Bm' & M & D & Pr).
  rewrite Es, (rnd_id s Rs) in Er.
  assert (TP : top < 2 * pi32) by (unfold top, pi32; lra).
  assert (Em : m' = s).
  { destruct D as [D|[D Br]].
    - subst m'. assert (q = 0)%Z.
      { destruct (Z.lt_trichotomy q 0) as [Q|[Q|Q]]; [|exact Q|]; exfalso.
        - assert (q <= -1)%Z by lia. apply IZR_le in H.
          assert (IZR q * (2 * pi32) <= -1 * (2 * pi32)) by (apply Rmult_le_compat_r; lra). lra.
        - assert (1 <= q)%Z by lia. apply IZR_le in H.
          assert (1 * (2 * pi32) <= IZR q * (2 * pi32)) by (apply Rmult_le_compat_r; lra). lra. }
      subst q. lra.
    - exfalso. rewrite Es, (rnd_id s Rs) in Pr. specialize (Pr ltac:(lra)). lra. }
  rewrite Em, Back in M. exact M.
Qed.

Lemma wrap_idem lm x a : fin x a ->
  exists w, fin (wrap_yaws (S := F32 lm) x) w /\ fin (wrap_yaws (S := F32 lm) (wrap_yaws (S := F32 lm) x)) w.
Proof.
  intros X. destruct (wrap_fin lm x a X) as (q & r & m & Er & Rr & Rm & Bm & M & D & Pr).
  exists (rnd (m - pi32)). split; [exact M|]. now apply (wrap_again lm _ _ m M).
Qed.

(** Congruence modulo 2 pi32, up to rounding. *)
Lemma wrap_near lm x a : fin x a ->
  exists (k : Z) w, fin (wrap_yaws (S := F32 lm) x) w /\ - pi32 <= w < pi32 /\
    Rabs (w - (a - IZR k * (2 * pi32))) <= u32 * (Rabs a + 4 * pi32).
Proof.
  intros X. pose proof pi32_val as P. pose proof (fin_rep _ _ X) as Ra.
  destruct (wrap_fin lm x a X) as (q & r & m & Er & Rr & Rm & Bm & M & D & Pr).
  assert (U : 0 < u32 < 1 / 1000) by (unfold u32; lra).
  assert (E1 := add_err a pi32 Ra pi32_rep).
  assert (E2 := sub_err m pi32 Rm pi32_rep).
  assert (T1 : Rabs (a + pi32) <= Rabs a + pi32).
  { eapply Rle_trans; [apply Rabs_triang|]. rewrite (Rabs_pos_eq pi32) by lra. lra. }
  assert (T2 : Rabs (m - pi32) <= pi32) by (apply Rabs_le; unfold top, pi32 in *; lra).
  pose proof (minus_pi_range m Bm) as WR.
  assert (T1' : u32 * Rabs (a + pi32) <= u32 * (Rabs a + pi32)) by (apply Rmult_le_compat_l; lra).
  assert (T2' : u32 * Rabs (m - pi32) <= u32 * pi32) by (apply Rmult_le_compat_l; lra).
  assert (Q : exists k : Z, Rabs (m - (rnd (a + pi32) - IZR k * (2 * pi32))) <= u32 * (2 * pi32)).
  { destruct D as [D|[D Br]].
    - exists q. rewrite D, Er. unfold Rminus at 1. rewrite Rplus_opp_r, Rabs_R0. apply Rmult_le_pos; lra.
    - exists (q - 1)%Z. assert (E3 := add_err r (2 * pi32) Rr two_pi32_rep).
      rewrite minus_IZR.
      replace (rnd (a + pi32) - (IZR q - 1) * (2 * pi32)) with (r + 2 * pi32) by (rewrite Er; ring).
      rewrite D. eapply Rle_trans; [exact E3|]. apply Rmult_le_compat_l; [lra|].
      rewrite Rabs_pos_eq by lra. lra. }
  destruct Q as [k Q]. exists k, (rnd (m - pi32)). split; [exact M|]. split; [unfold pi32 in *; lra|].
  replace (rnd (m - pi32) - (a - IZR k * (2 * pi32)))
    with ((rnd (m - pi32) - (m - pi32)) + ((m - (rnd (a + pi32) - IZR k * (2 * pi32))) + (rnd (a + pi32) - (a + pi32)))) by ring.
  eapply Rle_trans; [apply Rabs_triang|].
  pose proof (Rabs_triang (m - (rnd (a + pi32) - IZR k * (2 * pi32))) (rnd (a + pi32) - (a + pi32))).
  lra.
Qed.

(** An angle already in range is not moved by a turn. *)
Lemma wrap_in_range lm x a : fin x a -> - pi32 <= a < pi32 ->
  exists w, fin (wrap_yaws (S := F32 lm) x) w /\ Rabs (w - a) <= u32 * (5 * pi32).
Proof.
  intros X B. pose proof pi32_val as P. pose proof (fin_rep _ _ X) as Ra.
  destruct (wrap_near lm x a X) as (k & w & W & R & E).
  exists w. split; [exact W|].
  assert (U : u32 = / 16777216) by reflexivity.
  assert (A : Rabs a <= pi32) by (apply Rabs_le; lra).
  assert (E' : Rabs (w - (a - IZR k * (2 * pi32))) <= u32 * (5 * pi32)).
  { eapply Rle_trans; [exact E|]. apply Rmult_le_compat_l; lra. }
  assert (K : k = 0%Z); [|subst k; rewrite Rmult_0_l, Rminus_0_r in E'; exact E'].
  (* the sum stays below 2 pi32, so no turn is taken off *)
  destruct (wrap_fin lm x a X) as (q & r & m & Er & Rr & Rm & Bm & M & D & Pr).
  assert (S0 : 0 <= rnd (a + pi32)) by (rewrite <- rnd_0; apply rnd_le; lra).
  specialize (Pr S0). destruct D as [D|[D ?]]; [|lra]. subst m.
  assert (S1 : rnd (a + pi32) <= top).
  { unfold top. rewrite <- rnd_tie. apply rnd_le.
    pose proof (below_minus_pi (- a) (rep_opp _ Ra)).
    destruct (Rle_lt_dec a (pi32 - / 4194304)) as [L|L]; [lra|].
    destruct (rep_mult a 2 Ra) as [z Ez].
    { rewrite Rabs_pos_eq by lra. change (b32 (2 - 1)) with 2. lra. }
    simpl Z.sub in Ez. rewrite b32_m22 in Ez. unfold pi32 in B, L.
    assert (z < 13176795)%Z by (apply lt_IZR; lra).
    assert (13176794 < z)%Z by (apply lt_IZR; lra). lia. }
  assert (q = 0)%Z.
  { unfold top in *. destruct (Z.lt_trichotomy q 0) as [Q|[Q|Q]]; [|exact Q|]; exfalso.
    - assert (q <= -1)%Z by lia. apply IZR_le in H.
      assert (IZR q * (2 * pi32) <= -1 * (2 * pi32)) by (apply Rmult_le_compat_r; lra). unfold pi32 in *. lra.
    - assert (1 <= q)%Z by lia. apply IZR_le in H.
      assert (1 * (2 * pi32) <= IZR q * (2 * pi32)) by (apply Rmult_le_compat_r; lra). unfold pi32 in *. lra. }
  subst q. rewrite Rmult_0_l, Rminus_0_r in Er. subst r.
  assert (W' : w = rnd (rnd (a + pi32) - pi32)) by (eapply fin_fun; eauto).
  assert (E1 := add_err a pi32 Ra pi32_rep).
  assert (E2 := sub_err _ pi32 Rm pi32_rep). rewrite <- W' in E2.
  assert (T1 : Rabs (a + pi32) <= 2 * pi32) by (apply Rabs_le; lra).
  assert (T2 : Rabs (rnd (a + pi32) - pi32) <= pi32) by (apply Rabs_le; unfold top, pi32 in *; lra).
  rewrite U in *. apply Rabs_le_inv in E1, E2, E'.
  assert (NK : forall x, x <> 0%Z -> 1 <= IZR x \/ IZR x <= -1).
  { intros z Hz. assert (1 <= z \/ z <= -1)%Z as [H|H] by lia; [left|right]; now apply IZR_le. }
  destruct (Z.eq_dec k 0) as [|N]; [assumption|]. exfalso.
  assert (WA : Rabs (w - a) <= 1).
  { replace (w - a) with ((w - (rnd (a + pi32) - pi32)) + (rnd (a + pi32) - (a + pi32))) by ring.
    assert (/ 16777216 * Rabs (a + pi32) <= / 16777216 * 8) by (apply Rmult_le_compat_l; lra).
    assert (/ 16777216 * Rabs (rnd (a + pi32) - pi32) <= / 16777216 * 8) by (apply Rmult_le_compat_l; lra).
    apply Rabs_le. lra. }
  apply Rabs_le_inv in WA.
  destruct (NK k N) as [H|H].
  - assert (1 * (2 * pi32) <= IZR k * (2 * pi32)) by (apply Rmult_le_compat_r; lra). lra.
  - assert (IZR k * (2 * pi32) <= -1 * (2 * pi32)) by (apply Rmult_le_compat_r; lra). lra.
Qed.

Lemma wrap_nan lm x : is_finite x = false -> wrap_yaws (S := F32 lm) x = B754_nan.
Proof.
  intros H.
  change (Bminus mode_NE (f32_mod (Bplus mode_NE x f32_pi) (fmul (Scalar := F32 lm) f2 fpi)) f32_pi = B754_nan).
  generalize (fmul (Scalar := F32 lm) f2 fpi : f32). intros y.
  assert (R : f32_rem (Bplus mode_NE x f32_pi) y = B754_nan).
  { pose proof pi_fin as [Fp _]. destruct f32_pi as [s|s| |s m e h]; try discriminate;
      destruct x as [s'|s'| |s' m' e' h']; try discriminate; destruct y; reflexivity. }
  assert (M : f32_mod (Bplus mode_NE x f32_pi) y = B754_nan).
  { unfold f32_mod. rewrite R. destruct (negb _ && negb _); [|reflexivity]. destruct y; reflexivity. }
  rewrite M. destruct f32_pi; reflexivity.
Qed.
