(** The action discretiser in float32. *)
From Coq Require Import List ZArith Reals Lra Lia Bool.
From Flocq Require Import Core.Core IEEE754.BinarySingleNaN Relative.
From Verif.Lib Require Import Base JaxIndex Scalar F32.
From Verif.Model Require Import Operations State Dynamics Discretizer.
From Verif.Spec Require Import DiscSpec F32Spec.
From Verif.Proofs Require Import Core P_F32 P_Discretizer.
Import ListNotations.
Open Scope R_scope.

Section Any.
  Context {S : Scalar}.
  Definition sc1 (lo hi : F) (b : Z) : F := fdiv (fofZ b) (fsub hi lo).
  Definition en1 (lo s : F) (b : Z) (v : F) : Z :=
    frint (fmax (fmin (fmul (fsub v lo) s) (fofZ b)) f0).
  Definition de1 (lo s : F) (i : Z) : F := fadd (fdiv (fofZ i) s) lo.

  Inductive dims (P : F -> F -> Z -> Prop) : list F -> list F -> list Z -> Prop :=
  | dims_nil : dims P [] [] []
  | dims_cons lo hi b los his bs : P lo hi b -> dims P los his bs ->
      dims P (lo :: los) (hi :: his) (b :: bs).

  Lemma dims_len P los his bs : dims P los his bs -> length his = length los /\ length bs = length los.
  Proof. induction 1; simpl; lia. Qed.

  Lemma dims_impl (P Q : F -> F -> Z -> Prop) los his bs :
    (forall lo hi b, P lo hi b -> Q lo hi b) -> dims P los his bs -> dims Q los his bs.
  Proof. induction 2; constructor; auto. Qed.

  Definition scs (los his : list F) (bs : list Z) : list F :=
    map2 (fun b r => fdiv (fofZ b) r) bs (map2 fsub his los).

  Lemma make_any los his bs P : dims P los his bs ->
    make_discretizer los his bs = Ok (mkdisc los bs (scs los his bs)).
  Proof.
    intros D. destruct (dims_len _ _ _ _ D) as [L1 L2]. unfold make_discretizer.
    rewrite L1, L2, Nat.eqb_refl. cbn [negb andb guard bind].
    rewrite bcast2_eq by lia. cbn [bind].
    rewrite bcast2_eq by (rewrite map2_length; lia). reflexivity.
  Qed.

  Lemma scs_len los his bs P : dims P los his bs -> length (scs los his bs) = length los.
  Proof. intros D. destruct (dims_len _ _ _ _ D). unfold scs. rewrite !map2_length. lia. Qed.

  Fixpoint des (los ss : list F) (is : list Z) : list F :=
    match los, ss, is with
    | lo :: los', s :: ss', i :: is' => de1 lo s i :: des los' ss' is'
    | _, _, _ => []
    end.

  Lemma continuous_any los his bs P k : dims P los his bs ->
    make_continuous (mkdisc los bs (scs los his bs)) k
    = Ok (des los (scs los his bs) (unravel_index k (map (fun b => (b + 1)%Z) bs))).
  Proof.
    intros D. destruct (dims_len _ _ _ _ D) as [L1 L2]. pose proof (scs_len _ _ _ _ D) as L3.
    unfold make_continuous; cbn [dz_mins dz_bins dz_scale].
    change (dz_dims (mkdisc los bs (scs los his bs))) with (map (fun b => (b + 1)%Z) bs).
    set (is := unravel_index k _).
    assert (Li : length is = length los) by (unfold is, unravel_index; rewrite unravel_length, map_length; lia).
    rewrite bcast2_eq by lia. cbn [bind]. rewrite bcast2_eq by (rewrite map2_length; lia). f_equal.
    clearbody is. revert L3 Li. generalize (scs los his bs). clear.
    revert is. induction los as [|lo los IH]; intros [|i is] [|s ss] L3 Li; try discriminate; [reflexivity|].
    simpl. f_equal. apply IH; simpl in *; lia.
  Qed.

  Fixpoint ens (los ss : list F) (bs : list Z) (vs : list F) : list Z :=
    match los, ss, bs, vs with
    | lo :: los', s :: ss', b :: bs', v :: vs' => en1 lo s b v :: ens los' ss' bs' vs'
    | _, _, _, _ => []
    end.

  Lemma ens_len los ss bs vs : length ss = length los -> length bs = length los ->
    length vs = length los -> length (ens los ss bs vs) = length los.
  Proof.
    revert ss bs vs. induction los as [|lo los IH]; intros [|s ss] [|b bs] [|v vs] L1 L2 L3; try discriminate; auto.
    simpl in *. rewrite IH; lia.
  Qed.

  Lemma discretize_any los his bs P vs : dims P los his bs -> length vs = length los ->
    discretize (mkdisc los bs (scs los his bs)) vs
    = Ok (ravel_multi_index (ens los (scs los his bs) bs vs) (map (fun b => (b + 1)%Z) bs)).
  Proof.
    intros D L. destruct (dims_len _ _ _ _ D) as [L1 L2]. pose proof (scs_len _ _ _ _ D) as L3.
    unfold discretize; cbn [dz_mins dz_bins dz_scale].
    change (dz_dims (mkdisc los bs (scs los his bs))) with (map (fun b => (b + 1)%Z) bs).
    rewrite L, Nat.eqb_refl. cbn [guard bind].
    rewrite bcast2_eq by lia. cbn [bind]. rewrite bcast2_eq by (rewrite map2_length; lia). cbn [bind].
    rewrite bcast2_eq by (rewrite !map2_length; lia). cbn [bind].
    match goal with |- context [ravel_multi_index ?nd _] =>
      assert (E : nd = ens los (scs los his bs) bs vs) end.
    { revert L3 L L2. generalize (scs los his bs). clear.
      revert vs bs. induction los as [|lo los IH]; intros [|v vs] [|b bs] [|s ss] L3 L L2; try discriminate; [reflexivity|].
      simpl. f_equal. apply IH; simpl in *; lia. }
    rewrite E. rewrite ens_len by lia. rewrite L2, Nat.eqb_refl. reflexivity.
  Qed.

  (** If every dimension round-trips, so does every index. *)
  Definition trip1 (lo hi : F) (b : Z) : Prop :=
    (1 <= b)%Z /\ forall i, (0 <= i <= b)%Z -> en1 lo (sc1 lo hi b) b (de1 lo (sc1 lo hi b) i) = i.

  Lemma des_len los ss is : length ss = length los -> length is = length los ->
    length (des los ss is) = length los.
  Proof.
    revert ss is. induction los as [|lo los IH]; intros [|s ss] [|i is] L1 L2; try discriminate; auto.
    simpl in *. rewrite IH; lia.
  Qed.

  Lemma trip_any los his bs k : dims trip1 los his bs -> (0 <= k < num_actions bs)%Z ->
    exists d vs, make_discretizer los his bs = Ok d /\ make_continuous d k = Ok vs /\ discretize d vs = Ok k.
  Proof.
    intros D Hk. exists (mkdisc los bs (scs los his bs)).
    exists (des los (scs los his bs) (unravel_index k (map (fun b => (b + 1)%Z) bs))).
    split; [eapply make_any; eauto|]. split; [eapply continuous_any; eauto|].
    destruct (dims_len _ _ _ _ D) as [L1 L2]. pose proof (scs_len _ _ _ _ D) as L3.
    assert (Dp : Forall (fun d => (1 <= d)%Z) (map (fun b => (b + 1)%Z) bs)).
    { clear -D. induction D as [|lo hi b los his bs [H _] D IH]; simpl; constructor; auto; lia. }
    rewrite num_actions_prod in Hk.
    rewrite unravel_index_in by auto.
    set (is := unravel_from k (map (fun b => (b + 1)%Z) bs)).
    assert (Li : length is = length los) by (unfold is; rewrite unravel_length, map_length; lia).
    rewrite (discretize_any _ _ _ trip1) by (auto; rewrite des_len; auto).
    f_equal. etransitivity; [|exact (ravel_unravel k (map (fun b => (b + 1)%Z) bs) Dp Hk)]. f_equal.
    fold is. pose proof (unravel_bounds k _ Dp) as B. fold is in B. clearbody is.
    clear L1 L2 L3 Dp Hk Li. revert is B.
    induction D as [|lo hi b los his bs [H1 H2] D IH]; intros is B; inversion B; subst; [reflexivity|].
    unfold scs. cbn [map2 des ens]. f_equal.
    - apply H2. lia.
    - apply IH. assumption.
  Qed.
End Any.

(* ---------------- one dimension in float32 ---------------- *)

(** Relative error of a rounding in the normal range. *)
Lemma rnd_rel x : b32 (-126) <= Rabs x -> Rabs (rnd x - x) <= u32 * Rabs x.
Proof.
  intros H.
  pose proof (relative_error_N_FLT radix2 (-149) 24 ltac:(lia) (fun z => negb (Z.even z)) x H) as E.
  eapply Rle_trans; [exact E|]. apply Rmult_le_compat_r; [apply Rabs_pos|]. unfold u32. simpl. lra.
Qed.

Lemma rint_near x r (i : Z) : fin x r -> Rabs (r - IZR i) < 1 / 2 -> f32_rint x = i.
Proof.
  intros [Fx <-] H. unfold f32_rint.
  pose proof (Bnearbyint_correct f32_prec f32_emax _ mode_NE x) as (V & Fi & _).
  pose proof (Btrunc_correct f32_prec f32_emax _ (Bnearbyint mode_NE x)) as T.
  rewrite V in T. simpl round_mode in T.
  assert (RI : forall f y (vf : Valid_rnd f), round radix2 (FIX_exp 0) f y = IZR (f y)).
  { intros f y vf. unfold round, F2R, scaled_mantissa, cexp, FIX_exp. simpl. now rewrite !Rmult_1_r. }
  rewrite (RI ZnearestE (B2R x)) in T by auto with typeclass_instances.
  rewrite (RI Ztrunc) in T by auto with typeclass_instances.
  rewrite Ztrunc_IZR in T. apply eq_IZR in T. etransitivity; [exact T|].
  apply Znearest_imp. eapply Rlt_le_trans; [exact H | lra].
Qed.

Lemma rint_half x r : fin x r -> Rabs (IZR (f32_rint x) - r) <= 1 / 2.
Proof.
  intros [Fx <-]. unfold f32_rint.
  pose proof (Bnearbyint_correct f32_prec f32_emax _ mode_NE x) as (V & Fi & _).
  pose proof (Btrunc_correct f32_prec f32_emax _ (Bnearbyint mode_NE x)) as T.
  rewrite V in T. simpl round_mode in T.
  assert (RI : forall f y (vf : Valid_rnd f), round radix2 (FIX_exp 0) f y = IZR (f y)).
  { intros f y vf. unfold round, F2R, scaled_mantissa, cexp, FIX_exp. simpl. now rewrite !Rmult_1_r. }
  rewrite (RI ZnearestE (B2R x)) in T by auto with typeclass_instances.
  rewrite (RI Ztrunc) in T by auto with typeclass_instances.
  rewrite Ztrunc_IZR in T.
  apply Rle_trans with (Rabs (IZR (ZnearestE (B2R x)) - B2R x)).
  - right. f_equal. f_equal. exact T.
  - rewrite Rabs_minus_sym. pose proof (Znearest_half (fun z => negb (Z.even z)) (B2R x)). lra.
Qed.

Lemma pow60 : 2 ^ 60 = b32 60.
Proof. change (b32 60) with (IZR (Z.pow_pos 2 60)). simpl Z.pow_pos. simpl. lra. Qed.

Lemma div_pos a b : 0 < a -> 0 < b -> 0 < a / b.
Proof. intros. apply Rmult_lt_0_compat; auto. now apply Rinv_0_lt_compat. Qed.

Lemma abs_scale x y e s : 0 < s -> Rabs (x - y) <= e -> Rabs (x * s - y * s) <= e * s.
Proof.
  intros H E. replace (x * s - y * s) with ((x - y) * s) by ring.
  rewrite Rabs_mult, (Rabs_pos_eq s) by lra. apply Rmult_le_compat_r; lra.
Qed.

Lemma b32_split e f : b32 (e + f) = b32 e * b32 f.
Proof. apply bpow_plus. Qed.

(** The scale of one dimension. *)
Lemma scale_fin lm (lo hi : f32) bins a b :
  fin lo a -> fin hi b -> a < b -> / 2 ^ 60 <= b - a <= 2 ^ 60 -> (1 <= bins <= 2 ^ 20)%Z ->
  exists s, fin (sc1 (S := F32 lm) lo hi bins) s /\ 0 < s <= b32 82 /\ b32 (-62) <= s /\
    Rabs ((b - a) * s - IZR bins) <= 3 * u32 * IZR bins.
Proof.
  intros Flo Fhi Lt [R1 R2] [B1 B2].
  rewrite pow60 in R1, R2. rewrite <- (bpow_opp radix2 60) in R1. simpl Z.opp in R1.
  assert (U : u32 = / 16777216) by reflexivity.
  apply IZR_le in B1, B2. change (IZR (2 ^ 20)) with (b32 20) in B2.
  assert (P60 : 0 < b32 (-60)) by apply bpow_gt_0.
  assert (FD : fin (Bminus mode_NE hi lo) (rnd (b - a))).
  { apply sub_fin; auto. rewrite Rabs_pos_eq by lra. eapply Rle_trans; [exact R2|]. apply bpow_le. lia. }
  assert (ED := sub_err b a (fin_rep _ _ Fhi) (fin_rep _ _ Flo)).
  rewrite (Rabs_pos_eq (b - a)) in ED by lra.
  set (D := rnd (b - a)) in *. set (r := b - a) in *. set (n := IZR bins) in *.
  assert (ED' := ED). rewrite U in ED'. apply Rabs_le_inv in ED'.
  assert (D0 : 0 < D) by lra.
  assert (DH : b32 (-60) / 2 <= D) by lra.
  assert (H61 : b32 (-60) / 2 = b32 (-61)).
  { change (-60)%Z with (-61 + 1)%Z at 1. rewrite bpow_plus. change (b32 1) with 2. field. }
  rewrite H61 in DH.
  assert (QD : n / D * D = n) by (field; lra).
  assert (Q0 : 0 < n / D) by (apply div_pos; lra).
  assert (Q1 : n / D <= b32 81).
  { apply Rmult_le_reg_r with D; [exact D0|]. rewrite QD.
    apply Rle_trans with (b32 81 * b32 (-61)); [rewrite <- bpow_plus; exact B2|].
    apply Rmult_le_compat_l; [apply bpow_ge_0 | exact DH]. }
  assert (Q2 : b32 (-61) <= n / D).
  { apply Rmult_le_reg_r with D; [exact D0|]. rewrite QD.
    apply Rle_trans with 1; [|exact B1].
    apply Rle_trans with (b32 (-61) * b32 61); [|rewrite <- bpow_plus; apply Rle_refl].
    apply Rmult_le_compat_l; [apply bpow_ge_0|].
    change 61%Z with (60 + 1)%Z. rewrite bpow_plus. change (b32 1) with 2. lra. }
  assert (Fb : fin (f32_ofZ bins) n).
  { apply ofZ_fin. change (2 ^ 24)%Z with 16777216%Z. change (b32 20) with 1048576 in B2.
    unfold n in B1, B2. apply le_IZR in B1, B2. lia. }
  assert (FS : fin (sc1 (S := F32 lm) lo hi bins) (rnd (n / D))).
  { unfold sc1. apply (div_fin _ _ _ _ Fb FD); [lra|]. rewrite Rabs_pos_eq by lra.
    eapply Rle_trans; [exact Q1|]. apply bpow_le. lia. }
  assert (ES : Rabs (rnd (n / D) - n / D) <= u32 * (n / D)).
  { rewrite <- (Rabs_pos_eq (n / D)) at 3 by lra. apply rnd_rel. rewrite Rabs_pos_eq by lra.
    eapply Rle_trans; [|exact Q2]. apply bpow_le. lia. }
  set (s := rnd (n / D)) in *.
  assert (ES' := ES). rewrite U in ES'. apply Rabs_le_inv in ES'.
  assert (S0 : 0 < s) by lra.
  exists s. split; [exact FS|].
  assert (H82 : b32 82 = b32 81 * 2) by (change 82%Z with (81 + 1)%Z; rewrite bpow_plus; reflexivity).
  assert (H62 : b32 (-61) = b32 (-62) * 2) by (change (-61)%Z with (-62 + 1)%Z; rewrite bpow_plus; reflexivity).
  pose proof (bpow_gt_0 radix2 (-62)).
  split; [split; [exact S0 | lra]|]. split; [lra|].
  pose proof (abs_scale _ _ _ _ D0 ES) as E1. rewrite QD in E1.
  replace (u32 * (n / D) * D) with (u32 * (n / D * D)) in E1 by ring. rewrite QD in E1.
  pose proof (abs_scale _ _ _ _ S0 ED) as E2.
  replace (s * D) with (D * s) in E1 by ring.
  replace (u32 * r * s) with (u32 * (r * s)) in E2 by ring.
  rewrite U in *. apply Rabs_le_inv in E1, E2. apply Rabs_le. lra.
Qed.

Lemma zero32_fin lm : fin (f0 (S := F32 lm)) 0.
Proof.
  assert (E : rnd (0 / 1) = 0) by (unfold Rdiv; rewrite Rmult_0_l; apply rnd_0).
  change (fin (Bdiv mode_NE (f32_ofZ 0) (f32_ofZ 1)) 0). rewrite <- E.
  apply div_fin; [apply (ofZ_fin 0); simpl; lia | apply (ofZ_fin 1); simpl; lia | lra |].
  unfold Rdiv. rewrite Rmult_0_l, Rabs_R0. apply bpow_ge_0.
Qed.

(** Encoding a decoded index, one dimension. *)
Lemma trip32 lm (lo hi : f32) bins : disc_dim lo hi bins -> trip1 (S := F32 lm) lo hi bins.
Proof.
  intros (a & b & Flo & Fhi & Lt & La & R & B). split; [lia|]. intros i [I1 I2].
  destruct (scale_fin lm lo hi bins a b Flo Fhi Lt R B) as (s & FS & [S0 S1] & S2 & EP).
  assert (U : u32 = / 16777216) by reflexivity.
  set (sf := sc1 (S := F32 lm) lo hi bins) in *.
  assert (HI : 0 <= IZR i <= IZR bins) by (split; apply IZR_le; lia).
  assert (Hn : 1 <= IZR bins <= 1048576) by (split; apply IZR_le; lia).
  set (P := (b - a) * s) in *.
  assert (EP' := EP). rewrite U in EP'. apply Rabs_le_inv in EP'.
  assert (Fi : fin (f32_ofZ i) (IZR i)) by (apply ofZ_fin; change (2 ^ 24)%Z with 16777216%Z; lia).
  assert (Fb : fin (f32_ofZ bins) (IZR bins)) by (apply ofZ_fin; change (2 ^ 24)%Z with 16777216%Z; lia).
  (* the quotient *)
  assert (QS : IZR i / s * s = IZR i) by (field; lra).
  assert (Q0 : 0 <= IZR i / s) by (apply Rmult_le_pos; [lra | left; now apply Rinv_0_lt_compat]).
  assert (QU : IZR i / s <= b32 82).
  { apply Rmult_le_reg_r with s; [exact S0|]. rewrite QS.
    apply Rle_trans with (b32 82 * b32 (-62)); [rewrite <- bpow_plus; change (b32 (82 + -62)) with 1048576; lra|].
    apply Rmult_le_compat_l; [apply bpow_ge_0 | exact S2]. }
  assert (Fq : fin (Bdiv mode_NE (f32_ofZ i) sf) (rnd (IZR i / s))).
  { apply (div_fin _ _ _ _ Fi FS); [lra|]. rewrite Rabs_pos_eq by lra.
    eapply Rle_trans; [exact QU|]. apply bpow_le. lia. }
  assert (Eq : Rabs (rnd (IZR i / s) - IZR i / s) <= u32 * (IZR i / s)).
  { destruct (Z.eq_dec i 0) as [->|N].
    - unfold Rdiv. rewrite Rmult_0_l, rnd_0, Rminus_0_r, Rabs_R0. lra.
    - rewrite <- (Rabs_pos_eq (IZR i / s)) at 3 by lra. apply rnd_rel. rewrite Rabs_pos_eq by lra.
      assert (1 <= IZR i) by (apply IZR_le; lia).
      apply Rmult_le_reg_r with s; [exact S0|]. rewrite QS.
      apply Rle_trans with (b32 (-126) * b32 82).
      + apply Rmult_le_compat_l; [apply bpow_ge_0 | lra].
      + rewrite <- bpow_plus. apply Rle_trans with (b32 0); [apply bpow_le; lia | simpl; lra]. }
  set (c := rnd (IZR i / s)) in *.
  pose proof (abs_scale _ _ _ _ S0 Eq) as EC. rewrite QS in EC.
  replace (u32 * (IZR i / s) * s) with (u32 * (IZR i / s * s)) in EC by ring. rewrite QS in EC.
  (* sizes, for overflow *)
  assert (R60 : b - a <= b32 60) by (rewrite <- pow60; lra).
  assert (C0 : 0 <= c <= b32 82 * 2).
  { rewrite U in Eq. apply Rabs_le_inv in Eq. lra. }
  assert (H84 : b32 84 = b32 82 * 4) by (change 84%Z with (82 + 2)%Z; rewrite bpow_plus; reflexivity).
  assert (H86 : b32 86 = b32 82 * 16) by (change 86%Z with (82 + 4)%Z; rewrite bpow_plus; reflexivity).
  assert (H60 : b32 60 <= b32 82) by (apply bpow_le; lia).
  assert (La' := La). apply Rabs_le_inv in La'.
  assert (Fv : fin (Bplus mode_NE (Bdiv mode_NE (f32_ofZ i) sf) lo) (rnd (c + a))).
  { apply (add_fin _ _ _ _ Fq Flo). apply Rle_trans with (b32 84); [apply Rabs_le; lra | apply bpow_le; lia]. }
  assert (Ev := add_err c a (fin_rep _ _ Fq) (fin_rep _ _ Flo)).
  set (v := rnd (c + a)) in *.
  assert (VB : Rabs v <= b32 84).
  { apply rnd_abs; [apply rep_bpow; lia|]. apply Rabs_le; lra. }
  apply Rabs_le_inv in VB.
  assert (Ft : fin (Bminus mode_NE (Bplus mode_NE (Bdiv mode_NE (f32_ofZ i) sf) lo) lo) (rnd (v - a))).
  { apply (sub_fin _ _ _ _ Fv Flo). apply Rle_trans with (b32 86); [apply Rabs_le; lra | apply bpow_le; lia]. }
  assert (Et := sub_err v a (fin_rep _ _ Fv) (fin_rep _ _ Flo)).
  set (t := rnd (v - a)) in *.
  (* everything in units of one bin *)
  pose proof (abs_scale _ _ _ _ S0 Ev) as EV. pose proof (abs_scale _ _ _ _ S0 Et) as ET.
  replace (u32 * Rabs (c + a) * s) with (u32 * Rabs ((c + a) * s)) in EV
    by (rewrite Rabs_mult, (Rabs_pos_eq s) by lra; ring).
  replace (u32 * Rabs (v - a) * s) with (u32 * Rabs ((v - a) * s)) in ET
    by (rewrite Rabs_mult, (Rabs_pos_eq s) by lra; ring).
  replace ((c + a) * s) with (c * s + a * s) in EV by ring.
  replace ((v - a) * s) with (v * s - a * s) in ET by ring.
  assert (LP : - P <= a * s <= P).
  { unfold P. split.
    - replace (- ((b - a) * s)) with (- (b - a) * s) by ring. apply Rmult_le_compat_r; lra.
    - apply Rmult_le_compat_r; lra. }
  set (C := c * s) in *. set (L := a * s) in *. set (V := v * s) in *. set (X := t * s) in *.
  rewrite U in EC, EV, ET. apply Rabs_le_inv in EC.
  assert (A1 : Rabs (C + L) <= 201 / 100 * IZR bins) by (apply Rabs_le; lra).
  assert (EV' : Rabs (V - (C + L)) <= / 16777216 * (201 / 100 * IZR bins)) by lra.
  apply Rabs_le_inv in EV'.
  assert (A2 : Rabs (V - L) <= 101 / 100 * IZR bins) by (apply Rabs_le; lra).
  assert (ET' : Rabs (X - (V - L)) <= / 16777216 * (101 / 100 * IZR bins)) by lra.
  apply Rabs_le_inv in ET'.
  assert (XB : Rabs X <= 101 / 100 * IZR bins) by (apply Rabs_le; lra).
  assert (Fx : fin (Bmult mode_NE (Bminus mode_NE (Bplus mode_NE (Bdiv mode_NE (f32_ofZ i) sf) lo) lo) sf) (rnd X)).
  { apply (mul_fin _ _ _ _ Ft FS). fold X. apply Rle_trans with (b32 22); [change (b32 22) with 4194304; lra | apply bpow_le; lia]. }
  assert (Ex := rnd_err X). rewrite U in Ex.
  assert (TINY : b32 (-150) <= / 1000).
  { apply Rle_trans with (b32 (-10)); [apply bpow_le; lia | simpl; lra]. }
  assert (Ex' : Rabs (rnd X - X) <= / 16777216 * (101 / 100 * IZR bins) + / 1000) by lra.
  apply Rabs_le_inv in Ex'.
  pose proof (max_fin _ _ _ _ (min_fin _ _ _ _ Fx Fb) (zero32_fin lm)) as FM.
  unfold en1, de1. change (f32_rint (f32_max (f32_min (Bmult mode_NE (Bminus mode_NE (Bplus mode_NE
    (Bdiv mode_NE (f32_ofZ i) sf) lo) lo) sf) (f32_ofZ bins)) (f0 (S := F32 lm))) = i).
  apply (rint_near _ _ _ FM).
  unfold Rmax, Rmin. destruct (Rle_dec (rnd X) (IZR bins)); destruct (Rle_dec _ 0); apply Rabs_lt; lra.
Qed.
