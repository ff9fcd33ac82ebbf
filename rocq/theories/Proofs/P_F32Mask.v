(** Proofs for C83: masked means in float32. *)
From Coq Require Import List ZArith Reals Lra Lia Bool.
From Flocq Require Import Core.Raux IEEE754.BinarySingleNaN.
From Verif.Lib Require Import Base JaxIndex Scalar F32.
From Verif.Model Require Import Metrics Masked.
From Verif.Spec Require Import MaskSpec F32Spec F32MaskSpec.
From Verif.Proofs Require Import Core P_Metrics P_F32 P_F32Bicycle P_F32Overlap P_F32Wrap P_F32Idm P_F32Obs.
Import ListNotations.
Open Scope R_scope.

Section Mean.
  Variable lm : libm.
  Notation S32 := (F32 lm).

  (** The sum of [n] numbers, [k] of them already added. *)
  Lemma sum32 W (l : list f32) (r : list R) k acc v s : 1 <= W <= 2 ^ 60 ->
    Forall2 (fun x a => fin x a /\ Rabs a <= W) l r -> fin acc v -> 0 <= k -> k + INR (length l) <= 2 ^ 20 ->
    Rabs s <= k * W -> Rabs (v - s) <= k * k * (2 * u32 * W) ->
    exists v', fin (fold_left (fadd (Scalar := S32)) l acc) v' /\
      Rabs (v' - (s + fold_right Rplus 0 r)) <= (k + INR (length l)) * (k + INR (length l)) * (2 * u32 * W).
  Proof.
    intros HW H. revert k acc v s. induction H as [|x a l r [Fx Bx] H IH]; intros k acc v s Fv Hk HK Hs He.
    - exists v. split; [exact Fv|]. cbn [length INR fold_right]. rewrite !Rplus_0_r. exact He.
    - cbn [length fold_left fold_right] in *. rewrite S_INR in *. pose proof (pos_INR (length l)) as Hn.
      assert (U : u32 = / 16777216) by reflexivity. pose proof tiny_small as TS.
      assert (T100 : tiny <= / 1000000000) by (eapply Rle_trans; [apply TS|]; simpl; lra).
      assert (P20 : 2 ^ 20 = 1048576) by (simpl; lra).
      assert (KKW : k * k * (2 * u32 * W) <= k * W / 8).
      { replace (k * k * (2 * u32 * W)) with (k * W * (k * (2 * u32))) by ring.
        apply Rmult_le_compat_l; [apply Rmult_le_pos; lra|]. rewrite U. lra. }
      assert (K0 : 0 <= k * W) by (apply Rmult_le_pos; lra).
      assert (KW : k * W <= 2 ^ 20 * 2 ^ 60) by (apply Rmult_le_compat; lra).
      assert (Bs : Rabs (v + a) <= k * W + k * W / 8 + W).
      { replace (v + a) with ((v - s) + s + a) by ring. eapply Rle_trans; [apply Rabs_triang|].
        eapply Rle_trans; [apply Rplus_le_compat_r, Rabs_triang|]. lra. }
      assert (Fs : fin (Bplus mode_NE acc x) (rnd (v + a))).
      { apply add_fin; auto. apply (Rle_trans _ (b32 82)); [|apply Flocq.Core.Raux.bpow_le; lia].
        change (b32 82) with (IZR (2 ^ 82)). simpl in KW, HW. simpl. lra. }
      pose proof (rnd_cap _ _ Bs) as Es.
      destruct (IH (k + 1) _ (rnd (v + a)) (s + a) Fs ltac:(lra) ltac:(lra)) as (v' & Fv' & E').
      + eapply Rle_trans; [apply Rabs_triang|]. lra.
      + replace (rnd (v + a) - (s + a)) with ((rnd (v + a) - (v + a)) + (v - s)) by ring.
        eapply Rle_trans; [apply Rabs_triang|].
        replace ((k + 1) * (k + 1) * (2 * u32 * W)) with (k * k * (2 * u32 * W) + (4 * u32) * (k * W) + 2 * u32 * W) by ring.
        rewrite U in *. lra.
      + exists v'. split; [exact Fv'|].
        replace (k + (INR (length l) + 1)) with (k + 1 + INR (length l)) by ring.
        replace (s + (a + fold_right Rplus 0 r)) with (s + a + fold_right Rplus 0 r) by ring. exact E'.
  Qed.

  Definition chosen {A} (x : list A) (v : list bool) : list A := map fst (filter snd (combine x v)).

  Lemma chosen_entries W x v r : valid_entries32 W x v r -> Forall2 (fun x a => fin x a /\ Rabs a <= W) (chosen x v) (chosen r v).
  Proof.
    unfold chosen. revert x r. induction v as [|b v IH]; intros x r (L1 & L2 & H).
    - destruct x; [|discriminate L1]. destruct r; [|discriminate L2]. constructor.
    - destruct x as [|x0 x]; [discriminate L1|]. destruct r as [|r0 r]; [discriminate L2|].
      assert (T : Forall2 (fun x a => fin x a /\ Rabs a <= W) (map fst (filter snd (combine x v))) (map fst (filter snd (combine r v)))).
      { apply IH. split; [|split].
        - apply Nat.succ_inj. exact L1.
        - apply Nat.succ_inj. exact L2.
        - intros i Hi. exact (H (Datatypes.S i) Hi). }
      cbn [combine filter snd]. destruct b; [|exact T]. cbn [map fst]. constructor; [|exact T].
      destruct (H 0%nat eq_refl) as (a & c & Ha & Hc & F & B). cbn [nth_error] in Ha, Hc.
      apply Some_inj in Ha. apply Some_inj in Hc. subst a c. auto.
  Qed.

  Lemma count32 (v : list bool) (acc : f32) k : (0 <= k)%Z -> (k + Z.of_nat (length v) <= 2 ^ 24)%Z -> fin acc (IZR k) ->
    fin (fold_left (fadd (Scalar := S32)) (map (fbool (S := S32)) v) acc) (IZR (k + Z.of_nat (length (filter (fun b => b) v)))).
  Proof.
    revert k acc. induction v as [|b v IH]; intros k acc Hk HK F.
    - cbn [map fold_left filter length]. rewrite Z.add_0_r. exact F.
    - cbn [map fold_left filter length] in *. destruct b.
      + replace (k + Z.of_nat (length (true :: filter (fun b => b) v)))%Z with (k + 1 + Z.of_nat (length (filter (fun b => b) v)))%Z by (cbn [length]; lia).
        apply IH; [lia | lia |]. rewrite <- (rnd_id (IZR (k + 1))) by (apply rep_IZR; lia). rewrite plus_IZR.
        apply add_fin; [exact F | exact (f1_fin lm) |]. rewrite <- plus_IZR. apply big127. rewrite <- abs_IZR.
        apply Rle_trans with (IZR (2 ^ 24)); [apply IZR_le; lia | simpl; lra].
      + apply IH; [lia | lia |]. refine (add0_fin _ _ _ F (f0_fin lm) _). rewrite <- abs_IZR.
        apply Rle_trans with (IZR (2 ^ 24)); [apply IZR_le; lia | simpl; lra].
  Qed.

  Lemma mean32 W (x : list f32) v r inv : 1 <= W <= 2 ^ 60 -> (Z.of_nat (length v) <= 2 ^ 20)%Z -> valid_entries32 W x v r ->
    let n := length (filter (fun b => b) v) in
    (n = 0%nat -> line_mean (S := S32) x v inv = inv) /\
    ((0 < n)%nat -> exists m, fin (line_mean (S := S32) x v inv) m /\
       Rabs (m - fold_right Rplus 0 (chosen r v) / INR n) <= (INR n + 2) * W / 2 ^ 23).
  Proof.
    intros HW HL HV n.
    assert (Nv : (n <= length v)%nat) by (unfold n; clear; induction v as [|[|] v IH]; cbn [filter length]; lia).
    assert (Lc : length (chosen x v) = n).
    { destruct HV as (L1 & _ & _). unfold chosen, n. rewrite map_length. revert x L1. clear. induction v as [|b v IH]; intros [|y x] L; try discriminate L; [reflexivity|].
      cbn [combine filter snd]. destruct b; cbn [length]; rewrite (IH x) by (apply Nat.succ_inj; exact L); reflexivity. }
    pose proof (count32 v (f0 (S := S32)) 0 ltac:(lia) ltac:(lia) (f0_fin lm)) as FC. fold n in FC. rewrite Z.add_0_l in FC.
    change (fold_left (fadd (Scalar := S32)) (map (fbool (S := S32)) v) (f0 (S := S32))) with (fsum (S := S32) (map (fbool (S := S32)) v)) in FC.
    assert (EQ : feqb (Scalar := S32) (fsum (S := S32) (map (fbool (S := S32)) v)) (f0 (S := S32)) = Req_bool (IZR (Z.of_nat n)) 0)
      by exact (eqb_fin _ _ _ _ FC (f0_fin lm)).
    unfold line_mean, where_. rewrite EQ. rewrite <- INR_IZR_INZ in *. split.
    - intros ->. cbn [INR]. rewrite Req_bool_true by reflexivity. reflexivity.
    - intros Hn. assert (N1 : 1 <= INR n) by (change 1 with (INR 1); apply le_INR; lia).
      rewrite Req_bool_false by lra.
      assert (N20 : INR n <= 2 ^ 20). { rewrite INR_IZR_INZ. replace (2 ^ 20) with (IZR (2 ^ 20)) by (simpl; lra). apply IZR_le. lia. }
      destruct (sum32 W (chosen x v) (chosen r v) 0 (f0 (S := S32)) 0 0 HW (chosen_entries W x v r HV) (f0_fin lm)) as (t & Ft & Et).
      + lra.
      + rewrite Lc. lra.
      + rewrite Rabs_R0. lra.
      + rewrite Rminus_0_r, Rabs_R0. lra.
      + rewrite Lc, !Rplus_0_l in Et. set (T := fold_right Rplus 0 (chosen r v)) in *.
        assert (BT : Rabs T <= INR n * W).
        { unfold T. rewrite <- Lc. pose proof (chosen_entries W x v r HV) as FF. revert FF. generalize (chosen x v), (chosen r v). clear.
          intros l l' H. induction H as [|y a l l' [_ B] H IH]; cbn [fold_right length]; [rewrite Rabs_R0; cbn [INR]; lra|].
          rewrite S_INR. eapply Rle_trans; [apply Rabs_triang|]. lra. }
        assert (U : u32 = / 16777216) by reflexivity. pose proof tiny_small as TS.
        assert (T100 : tiny <= / 1000000000) by (eapply Rle_trans; [apply TS|]; simpl; lra).
        assert (P20 : 2 ^ 20 = 1048576) by (simpl; lra).
        assert (Dv : forall a c, Rabs a <= INR n * c -> Rabs (a / INR n) <= c).
        { intros a c Ha. unfold Rdiv. rewrite Rabs_mult, (Rabs_right (/ INR n)) by (apply Rle_ge, Rlt_le, Rinv_0_lt_compat; lra).
          apply Rmult_le_reg_r with (INR n); [lra|]. rewrite Rmult_assoc, Rinv_l by lra. lra. }
        assert (E1 : Rabs (t / INR n - T / INR n) <= INR n * (2 * u32 * W)).
        { replace (t / INR n - T / INR n) with ((t - T) / INR n) by (field; lra). apply Dv. lra. }
        assert (E2 : Rabs (T / INR n) <= W) by (apply Dv; lra).
        assert (NW : INR n * (2 * u32 * W) <= W / 8).
        { replace (INR n * (2 * u32 * W)) with (INR n * (2 * u32) * W) by ring. replace (W / 8) with (/ 8 * W) by field.
          apply Rmult_le_compat_r; [lra|]. rewrite U. lra. }
        assert (B : Rabs (t / INR n) <= 2 * W).
        { replace (t / INR n) with ((t / INR n - T / INR n) + T / INR n) by ring. eapply Rle_trans; [apply Rabs_triang|]. lra. }
        exists (rnd (t / INR n)). split.
        * refine (div_fin _ _ _ _ Ft FC _ _); [lra|]. apply big127. eapply Rle_trans; [exact B|]. assert (2 * 2 ^ 60 <= 2 ^ 70) by (simpl; lra). lra.
        * pose proof (rnd_cap _ _ B) as E3. replace (rnd (t / INR n) - T / INR n) with ((rnd (t / INR n) - t / INR n) + (t / INR n - T / INR n)) by ring.
          eapply Rle_trans; [apply Rabs_triang|].
          replace ((INR n + 2) * W / 2 ^ 23) with (INR n * (2 * u32 * W) + 4 * u32 * W) by (rewrite U; simpl; field).
          rewrite U in *. lra.
  Qed.

  Lemma chosen_sum (r : list R) v : length r = length v -> fold_right Rplus 0 (chosen r v) = valid_sum r v.
  Proof.
    unfold chosen. revert r. induction v as [|b v IH]; intros [|a r] L; try discriminate L; [reflexivity|].
    cbn [combine filter snd valid_sum]. rewrite <- (IH r) by (apply Nat.succ_inj; exact L).
    destruct b; cbn [map fst fold_right]; ring.
  Qed.

  Lemma chosen_count v : length (filter (fun b => b) v) = valid_count v.
  Proof. induction v as [|[|] v IH]; cbn [filter length valid_count Nat.add]; congruence. Qed.

  Lemma count_none v : (forall j, nth_error v j <> Some true) -> valid_count v = 0%nat.
  Proof.
    induction v as [|b v IH]; intros H; [reflexivity|]. cbn [valid_count]. destruct b; [exfalso; exact (H 0%nat eq_refl)|].
    apply IH. intros j. exact (H (Datatypes.S j)).
  Qed.

  Lemma count_some v j : nth_error v j = Some true -> (0 < valid_count v)%nat.
  Proof.
    revert j. induction v as [|b v IH]; intros [|j] H; cbn [nth_error] in H; try discriminate H; cbn [valid_count].
    - apply Some_inj in H. subst b. lia.
    - specialize (IH j H). destruct b; lia.
  Qed.

  Lemma masked_mean32 W (x : list (list f32)) v inv m i xi vi r :
    1 <= W <= 2 ^ 60 -> (Z.of_nat (length vi) <= 2 ^ 20)%Z ->
    masked_mean_last (S := S32) x v inv = Ok m ->
    nth_error x i = Some xi -> nth_error v i = Some vi -> valid_entries32 W xi vi r ->
    exists mi, nth_error m i = Some mi /\ length mi = length xi /\
      ((forall j, nth_error vi j <> Some true) -> forall y, In y mi -> y = inv) /\
      ((exists j, nth_error vi j = Some true) -> exists a, (forall y, In y mi -> fin y a) /\
         Rabs (a - valid_sum r vi / INR (valid_count vi)) <= (INR (valid_count vi) + 2) * W / 2 ^ 23).
  Proof.
    intros HW HL H Hx Hv HV. unfold masked_mean_last in H.
    apply bind_Ok in H as (u0 & _ & H).
    assert (C : nth_error (combine x v) i = Some (xi, vi)).
    { clear - Hx Hv. revert v i Hx Hv. induction x as [|a x IH]; intros [|b v] [|i] Hx Hv; cbn [nth_error combine] in *; try discriminate Hx; try discriminate Hv.
      - apply Some_inj in Hx. apply Some_inj in Hv. subst. reflexivity.
      - apply IH; assumption. }
    destruct (mapM_nth _ _ _ _ _ H C) as (mi & Hi & Hm). cbn [fst snd] in Hi.
    apply bind_Ok in Hi as (u1 & _ & Hi).
    apply Ok_inj in Hi. subst mi. eexists. split; [exact Hm|]. split; [apply repeat_length|].
    destruct (mean32 W xi vi r inv HW HL HV) as (M0 & M1). rewrite chosen_count in M0, M1.
    rewrite chosen_sum in M1 by apply HV. split.
    - intros Hn y Hy. apply repeat_spec in Hy. rewrite Hy. apply M0, count_none, Hn.
    - intros (j & Hj). destruct (M1 (count_some vi j Hj)) as (a & Fa & Ea). exists a. split; [|exact Ea].
      intros y Hy. apply repeat_spec in Hy. rewrite Hy. exact Fa.
  Qed.
End Mean.
