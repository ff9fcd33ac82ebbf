(** Proofs for C81: the rounding of map ids is the int32 -> float32 -> int32 round trip. *)
From Coq Require Import List ZArith Reals Lra Lia Bool.
From Flocq Require Import Core IEEE754.BinarySingleNaN.
From Verif.Lib Require Import Base Scalar F32.
From Verif.Model Require Import State Roadgraph.
From Verif.Spec Require Import F32Spec.
From Verif.Proofs Require Import Core P_F32 P_Metrics.
Import ListNotations.
Open Scope R_scope.

Lemma nearest_div z p : (0 < p)%Z ->
  ZnearestE (IZR z / IZR p) =
    (let q := z / p in let r := z mod p in
     if 2 * r <? p then q else if p <? 2 * r then q + 1 else if Z.even q then q else q + 1)%Z.
Proof.
  intros Hp. cbv zeta. set (q := (z / p)%Z). set (r := (z mod p)%Z).
  assert (Ez : z = (p * q + r)%Z) by (apply Z.div_mod; lia).
  assert (Hr : (0 <= r < p)%Z) by (apply Z.mod_pos_bound; lia).
  assert (Pp : 0 < IZR p) by (apply IZR_lt; exact Hp).
  assert (Ex : IZR z / IZR p = IZR q + IZR r / IZR p).
  { rewrite Ez at 1. rewrite plus_IZR, mult_IZR. field. lra. }
  assert (Fl : Zfloor (IZR z / IZR p) = q) by (apply Zfloor_div; lia).
  assert (R0 : 0 <= IZR r) by (apply IZR_le; lia).
  unfold Znearest. rewrite Fl.
  replace (IZR z / IZR p - IZR q) with (IZR r / IZR p) by (rewrite Ex; ring).
  assert (Ce : (0 < r)%Z -> Zceil (IZR z / IZR p) = (q + 1)%Z).
  { intros H. apply Zceil_imp. rewrite Ex. replace (q + 1 - 1)%Z with q by ring. rewrite plus_IZR.
    assert (0 < IZR r) by (apply IZR_lt; lia). assert (IZR r < IZR p) by (apply IZR_lt; lia).
    assert (0 < IZR r / IZR p) by (apply Rdiv_lt_0_compat; lra).
    assert (IZR r / IZR p <= 1) by (apply Rmult_le_reg_r with (IZR p); [lra|]; unfold Rdiv; rewrite Rmult_assoc, Rinv_l by lra; lra).
    split; lra. }
  assert (Cmp : Rcompare (IZR r / IZR p) (/ 2) = (2 * r ?= p)%Z).
  { rewrite <- (Rcompare_mult_r (2 * IZR p)) by lra.
    replace (IZR r / IZR p * (2 * IZR p)) with (IZR (2 * r)) by (rewrite mult_IZR; field; lra).
    replace (/ 2 * (2 * IZR p)) with (IZR p) by field. apply Rcompare_IZR. }
  rewrite Cmp. destruct (Z.compare_spec (2 * r) p) as [E|E|E].
  - destruct (Z.ltb_spec (2 * r) p); [lia|]. destruct (Z.ltb_spec p (2 * r)); [lia|].
    rewrite Ce by lia. destruct (Z.even q); reflexivity.
  - destruct (Z.ltb_spec (2 * r) p); [reflexivity|lia].
  - destruct (Z.ltb_spec (2 * r) p); [lia|]. destruct (Z.ltb_spec p (2 * r)); [|lia]. apply Ce. lia.
Qed.

Lemma rnd_int_pos z : (2 ^ 24 <= z)%Z -> rnd (IZR z) = IZR (float32_int z).
Proof.
  intros Hz. assert (Zp : (0 < z)%Z) by lia.
  set (k := Z.log2 z). assert (HK : (2 ^ k <= z < 2 ^ Z.succ k)%Z) by (apply Z.log2_spec; lia).
  assert (K24 : (24 <= k)%Z) by (apply Z.log2_le_pow2; lia).
  assert (Hm : mag radix2 (IZR z) = (k + 1)%Z :> Z).
  { apply mag_unique. rewrite Rabs_right by (apply Rle_ge, IZR_le; lia).
    replace (k + 1 - 1)%Z with k by ring. rewrite <- !(IZR_Zpower radix2) by lia. cbn [radix_val radix2].
    split; [apply IZR_le; apply HK | apply IZR_lt; replace (k + 1)%Z with (Z.succ k) by lia; apply HK]. }
  assert (Hc : cexp radix2 fexp32 (IZR z) = (k - 23)%Z).
  { unfold cexp. rewrite Hm. change (FLT_exp (-149) 24 (k + 1) = (k - 23)%Z). unfold FLT_exp. lia. }
  unfold rnd, round, scaled_mantissa, F2R. cbn [Fnum Fexp]. rewrite Hc.
  set (p := (2 ^ (k - 23))%Z). assert (Pp : (0 < p)%Z) by (apply Z.pow_pos_nonneg; lia).
  assert (Bp : bpow radix2 (k - 23) = IZR p) by (unfold p; rewrite <- (IZR_Zpower radix2) by lia; reflexivity).
  rewrite bpow_opp, Bp. change (IZR z * / IZR p) with (IZR z / IZR p). rewrite nearest_div by exact Pp.
  rewrite <- mult_IZR. f_equal. unfold float32_int. rewrite (Z.abs_eq z) by lia.
  destruct (Z.ltb_spec z (2 ^ 24)); [lia|]. rewrite Z.sgn_pos by lia. rewrite Z.mul_1_l. reflexivity.
Qed.

Lemma rnd_int z : rnd (IZR z) = IZR (float32_int z).
Proof.
  destruct (Z_lt_le_dec (Z.abs z) (2 ^ 24)) as [L|L].
  - unfold float32_int. destruct (Z.ltb_spec (Z.abs z) (2 ^ 24)); [|lia].
    apply rnd_id. apply rep_IZR. lia.
  - destruct (Z_le_gt_dec 0 z).
    + apply rnd_int_pos. lia.
    + assert (E : float32_int (- z) = (- float32_int z)%Z).
      { unfold float32_int. rewrite Z.abs_opp. destruct (Z.abs z <? 2 ^ 24)%Z; [reflexivity|]. rewrite Z.sgn_opp. apply Z.mul_opp_l. }
      pose proof (rnd_int_pos (- z) ltac:(lia)) as H. rewrite E, !opp_IZR in H. unfold rnd in *. rewrite round_NE_opp in H. lra.
Qed.

Lemma ofZ_round z : (Z.abs z <= 2 ^ 31)%Z -> fin (f32_ofZ z) (IZR (float32_int z)).
Proof.
  intros H. rewrite <- rnd_int. unfold f32_ofZ.
  pose proof (binary_normalize_correct 24 128 f32_prec_gt_0 f32_prec_lt_emax mode_NE z 0 false) as C.
  cbv zeta in C. change (F2R (Float radix2 z 0)) with (IZR z * 1) in C. rewrite Rmult_1_r in C.
  change (round radix2 (SpecFloat.fexp 24 128) (round_mode mode_NE) (IZR z)) with (rnd (IZR z)) in C.
  rewrite Rlt_bool_true in C.
  - destruct C as (C1 & C2 & _). split; [exact C2 | exact C1].
  - apply Rle_lt_trans with (b32 31); [|apply bpow_lt; lia].
    unfold rnd. apply abs_round_le_generic; [exact fexp32_valid | exact (valid_rnd_N _) | | ].
    + apply generic_format_bpow. change (FLT_exp (-149) 24 (31 + 1) <= 31)%Z. unfold FLT_exp. lia.
    + rewrite <- abs_IZR. change (b32 31) with (IZR (2 ^ 31)). apply IZR_le. exact H.
Qed.

Lemma taken_in {A} (l : list A) idx out x : take_along l idx = Ok out -> In x out -> In x l.
Proof.
  revert out. induction idx as [|i idx IH]; intros out H Hx; unfold take_along in *; cbn [mapM] in H.
  - apply Ok_inj in H. subst out. destruct Hx.
  - apply bind_Ok in H as (a & Ha & H). apply bind_Ok in H as (r & Hr & H). apply Ok_inj in H. subst out.
    destruct Hx as [<-|Hx]; [|exact (IH r Hr Hx)].
    destruct (nth_error l i) eqn:E; [|discriminate Ha]. apply Ok_inj in Ha. subst. eapply nth_error_In; eauto.
Qed.

Lemma filter_ids lm (rg : list (rgpt (S := F32 lm))) ref k out q : (k < length rg)%nat ->
  filter_topk_roadgraph_points (S := F32 lm) rg ref k = Ok out -> In q out ->
  exists p, In p rg /\ rg_x q = rg_x p /\ rg_y q = rg_y p /\ rg_z q = rg_z p /\ rg_valid q = rg_valid p /\
    ((Z.abs (rg_id p) <= 2 ^ 31)%Z -> fin (f32_ofZ (rg_id p)) (IZR (rg_id q))) /\
    ((Z.abs (rg_type p) <= 2 ^ 31)%Z -> fin (f32_ofZ (rg_type p)) (IZR (rg_type q))).
Proof.
  intros Hk H Hq. unfold filter_topk_roadgraph_points in H.
  destruct (Nat.ltb_spec (length rg) k) as [G|_]; [lia|]. destruct (Nat.ltb_spec k (length rg)) as [_|G]; [|lia].
  cbv zeta in H. apply bind_Ok in H as (idx & _ & H). apply bind_Ok in H as (kept & Hkept & H). apply Ok_inj in H. subst out.
  apply in_map_iff in Hq as (p & <- & Hp). exists p. split; [exact (taken_in rg idx kept p Hkept Hp)|].
  unfold restacked. cbn [rg_x rg_y rg_z rg_valid rg_id rg_type]. do 4 (split; [reflexivity|]). split; apply ofZ_round.
Qed.
