(** Proofs for C19. *)
From Coq Require Import Reals ZArith List Lia Lra Bool.
From Verif.Lib Require Import Base JaxIndex Scalar XR.
From Verif.Model Require Import Operations State Dynamics Geometry Discretizer.
From Verif.Spec Require Import StateSpec GeomSpec DynSpec DiscSpec.
From Verif.Proofs Require Import Core P_Delta.
Import ListNotations.

(* ---------------- mixed radix ---------------- *)
Section Radix.
  Local Open Scope Z_scope.

  Lemma num_actions_prod bins : num_actions bins = prodZ (map (fun b => b + 1) bins).
  Proof. induction bins; simpl; congruence. Qed.

  Lemma prodZ_pos ds : Forall (fun d => 1 <= d) ds -> 1 <= prodZ ds.
  Proof. induction 1; simpl; [lia|]. unfold prodZ in *. simpl. nia. Qed.

  Lemma prodZ_cons d ds : prodZ (d :: ds) = d * prodZ ds.
  Proof. reflexivity. Qed.

  Lemma zclip_id x lo hi : lo <= x <= hi -> zclip x lo hi = x.
  Proof. unfold zclip. lia. Qed.
  Lemma zclip_range x lo hi : lo <= hi -> lo <= zclip x lo hi <= hi.
  Proof. unfold zclip. lia. Qed.

  Lemma ravel_range idx ds : Forall (fun d => 1 <= d) ds ->
    0 <= ravel_multi_index idx ds <= prodZ ds - 1.
  Proof.
    intros H. revert idx. induction H as [|d ds Hd Hds IH]; intros [|i idx].
    - simpl. lia.
    - simpl. lia.
    - pose proof (prodZ_pos _ (Forall_cons _ Hd Hds)). cbn [ravel_multi_index]. lia.
    - cbn [ravel_multi_index]. rewrite prodZ_cons. specialize (IH idx).
      pose proof (prodZ_pos _ Hds). pose proof (zclip_range i 0 (d - 1) ltac:(lia)). nia.
  Qed.

  (** Adding multiples of the total size does not change the coordinates. *)
  Lemma unravel_shift ds k m : Forall (fun d => 1 <= d) ds ->
    unravel_from (k + m * prodZ ds) ds = unravel_from k ds.
  Proof.
    intros H. revert k m. induction H as [|d ds Hd Hds IH]; intros k m; [reflexivity|].
    pose proof (prodZ_pos _ Hds). rewrite prodZ_cons. cbn [unravel_from]. f_equal.
    - rewrite Z.mod_add by nia. reflexivity.
    - replace (k + m * (d * prodZ ds)) with (k + (m * d) * prodZ ds) by ring. apply IH.
  Qed.

  Lemma unravel_ravel idx ds :
    Forall2 (fun i d => 0 <= i < d) idx ds ->
    unravel_from (ravel_multi_index idx ds) ds = idx.
  Proof.
    induction 1 as [|i d idx ds Hi Hrest IH]; [reflexivity|].
    assert (Hds : Forall (fun d => 1 <= d) ds).
    { clear IH. induction Hrest; constructor; auto; lia. }
    pose proof (prodZ_pos _ Hds) as P. pose proof (ravel_range idx ds Hds) as RR.
    cbn [ravel_multi_index]. cbn [unravel_from].
    rewrite zclip_id by lia. f_equal.
    - rewrite Z.mod_small by nia. rewrite Z.div_add_l by lia.
      rewrite Z.div_small by lia. lia.
    - rewrite Z.add_comm, unravel_shift by auto. exact IH.
  Qed.

  Lemma ravel_unravel k ds : Forall (fun d => 1 <= d) ds -> 0 <= k < prodZ ds ->
    ravel_multi_index (unravel_from k ds) ds = k.
  Proof.
    intros H. revert k. induction H as [|d ds Hd Hds IH]; intros k Hk.
    - simpl in *. lia.
    - pose proof (prodZ_pos _ Hds) as P. rewrite prodZ_cons in Hk.
      cbn [unravel_from ravel_multi_index]. rewrite (Z.mod_small k) by lia.
      rewrite zclip_id.
      2:{ split; [apply Z.div_pos; lia|].
          assert (k / prodZ ds < d); [|lia]. apply Z.div_lt_upper_bound; nia. }
      assert (E : unravel_from k ds = unravel_from (k mod prodZ ds) ds).
      { rewrite (Z.div_mod k (prodZ ds)) at 1 by lia.
        rewrite Z.add_comm, (Z.mul_comm (prodZ ds)), unravel_shift by auto. reflexivity. }
      rewrite E, IH by (apply Z.mod_pos_bound; lia).
      pose proof (Z.div_mod k (prodZ ds) ltac:(lia)). lia.
  Qed.

  Lemma unravel_bounds k ds : Forall (fun d => 1 <= d) ds ->
    Forall2 (fun i d => 0 <= i < d) (unravel_from k ds) ds.
  Proof.
    intros H. induction H as [|d ds Hd Hds IH]; simpl; constructor; auto.
    pose proof (prodZ_pos _ Hds) as P.
    assert (B : 0 <= k mod (d * prodZ ds) < d * prodZ ds) by (apply Z.mod_pos_bound; nia).
    split; [apply Z.div_pos; lia|]. apply Z.div_lt_upper_bound; nia.
  Qed.

  Lemma unravel_length k ds : length (unravel_from k ds) = length ds.
  Proof. induction ds; simpl; auto. Qed.
End Radix.

(* ---------------- one dimension ---------------- *)
Open Scope R_scope.

Definition scale1 (lo hi : R) (b : Z) : R := IZR b / (hi - lo).
Definition cn (lo hi : R) (b : Z) (x : xr) : R := (nearest lo hi x - lo) * scale1 lo hi b.

Lemma scale1_pos lo hi b : lo < hi -> (1 <= b)%Z -> 0 < scale1 lo hi b.
Proof.
  intros H Hb. unfold scale1. apply IZR_le in Hb. apply Rdiv_lt_0_compat; lra.
Qed.

Lemma clamp_in lo hi x : lo <= hi -> lo <= clamp lo hi x <= hi.
Proof. intros H. unfold clamp. destruct (Rlt_dec x lo); [lra|]. destruct (Rlt_dec hi x); lra. Qed.

Lemma nearest_in lo hi x : x <> NaN -> lo <= hi -> lo <= nearest lo hi x <= hi.
Proof. intros N H. destruct x; simpl; [now apply clamp_in|lra|lra|congruence]. Qed.

Lemma cn_range lo hi b x : lo < hi -> (1 <= b)%Z -> x <> NaN -> 0 <= cn lo hi b x <= IZR b.
Proof.
  intros H Hb N. pose proof (nearest_in lo hi x N ltac:(lra)) as B.
  pose proof (scale1_pos lo hi b H Hb) as P. unfold cn.
  split; [nra|]. replace (IZR b) with ((hi - lo) * scale1 lo hi b) by (unfold scale1; field; lra).
  apply Rmult_le_compat_r; lra.
Qed.

Lemma norm1 lo hi b (x : xr) : lo < hi -> (1 <= b)%Z -> x <> NaN ->
  fmax (fmin (fmul (fsub x (Fin lo)) (Fin (scale1 lo hi b))) (fofZ b)) f0 = Fin (cn lo hi b x).
Proof.
  intros H Hb N. pose proof (scale1_pos lo hi b H Hb) as P.
  assert (Pb : 1 <= IZR b) by (apply IZR_le in Hb; exact Hb).
  assert (Eb : IZR b = (hi - lo) * scale1 lo hi b) by (unfold scale1; field; lra).
  rewrite f0_Fin, fofZ_Fin. destruct x as [r| | |]; [| | |congruence].
  - rewrite fsub_Fin, fmul_Fin, fmin_Fin, fmax_Fin. f_equal. unfold cn. simpl nearest. unfold clamp.
    destruct (Rlt_dec r lo).
    + rewrite Rmin_left by nra. rewrite Rmax_right by nra. ring.
    + destruct (Rlt_dec hi r).
      * rewrite Rmin_right by (rewrite Eb; apply Rmult_le_compat_r; lra). rewrite Rmax_left by lra. rewrite Eb. ring.
      * rewrite Rmin_left by (rewrite Eb; apply Rmult_le_compat_r; lra). rewrite Rmax_left by nra. ring.
  - (* +inf *)
    assert (E1 : fmul (fsub (Scalar := XR) PInf (Fin lo)) (Fin (scale1 lo hi b)) = PInf).
    { simpl. unfold inf_times. destruct (Rlt_dec 0 (scale1 lo hi b)); [reflexivity|lra]. }
    rewrite E1. change (fmin (Scalar := XR) PInf (Fin (IZR b))) with (Fin (IZR b)).
    rewrite fmax_Fin. f_equal. unfold cn; simpl. rewrite Rmax_left by lra. lra.
  - assert (E1 : fmul (fsub (Scalar := XR) MInf (Fin lo)) (Fin (scale1 lo hi b)) = MInf).
    { simpl. unfold inf_times. destruct (Rlt_dec 0 (- scale1 lo hi b)); [lra|].
      destruct (Rlt_dec (- scale1 lo hi b) 0); [reflexivity|lra]. }
    rewrite E1. change (fmin (Scalar := XR) MInf (Fin (IZR b))) with MInf.
    change (fmax (Scalar := XR) MInf (Fin 0)) with (Fin 0). f_equal. unfold cn; simpl. ring.
Qed.

Definition enc1 (lo hi : R) (b : Z) (x : xr) : Z := Rrint (cn lo hi b x).
Definition dec1 (lo hi : R) (b : Z) (i : Z) : R := IZR i / scale1 lo hi b + lo.

Lemma enc1_range lo hi b x : lo < hi -> (1 <= b)%Z -> x <> NaN -> (0 <= enc1 lo hi b x < b + 1)%Z.
Proof.
  intros H Hb N. pose proof (cn_range lo hi b x H Hb N) as [L U]. unfold enc1.
  apply Rrint_mono in L, U. change 0 with (IZR 0) in L. rewrite Rrint_IZR in L, U. lia.
Qed.

Lemma dec1_range lo hi b i : lo < hi -> (1 <= b)%Z -> (0 <= i <= b)%Z -> lo <= dec1 lo hi b i <= hi.
Proof.
  intros H Hb [I1 I2]. pose proof (scale1_pos lo hi b H Hb) as P. apply IZR_le in I1, I2. unfold dec1.
  assert (Eb : IZR b = (hi - lo) * scale1 lo hi b) by (unfold scale1; field; lra).
  split.
  - assert (0 <= IZR i / scale1 lo hi b); [|lra]. apply Rmult_le_pos; [lra|]. left. now apply Rinv_0_lt_compat.
  - assert (IZR i / scale1 lo hi b <= hi - lo); [|lra].
    apply Rmult_le_reg_r with (scale1 lo hi b); auto. unfold Rdiv.
    rewrite Rmult_assoc, Rinv_l by lra. lra.
Qed.

Lemma enc1_dec1 lo hi b i : lo < hi -> (1 <= b)%Z -> (0 <= i <= b)%Z ->
  enc1 lo hi b (Fin (dec1 lo hi b i)) = i.
Proof.
  intros H Hb I. pose proof (dec1_range lo hi b i H Hb I) as R. pose proof (scale1_pos lo hi b H Hb) as P.
  unfold enc1, cn. simpl nearest.
  assert (E : clamp lo hi (dec1 lo hi b i) = dec1 lo hi b i).
  { unfold clamp. destruct (Rlt_dec _ lo); [lra|]. destruct (Rlt_dec hi _); lra. }
  rewrite E. unfold dec1. replace ((IZR i / scale1 lo hi b + lo - lo) * scale1 lo hi b) with (IZR i) by (field; lra).
  apply Rrint_IZR.
Qed.

Lemma half_bin lo hi b x : lo < hi -> (1 <= b)%Z -> x <> NaN ->
  Rabs (dec1 lo hi b (enc1 lo hi b x) - nearest lo hi x) <= (hi - lo) / (2 * IZR b).
Proof.
  intros H Hb N. pose proof (scale1_pos lo hi b H Hb) as P.
  assert (Pb : 1 <= IZR b) by (apply IZR_le in Hb; exact Hb).
  pose proof (Rrint_bounds (cn lo hi b x)) as B. fold (enc1 lo hi b x) in B.
  set (e := IZR (enc1 lo hi b x)) in *. unfold dec1. fold e.
  assert (En : nearest lo hi x = cn lo hi b x / scale1 lo hi b + lo) by (unfold cn; field; lra).
  rewrite En. set (c := cn lo hi b x) in *.
  replace (e / scale1 lo hi b + lo - (c / scale1 lo hi b + lo)) with ((e - c) * / scale1 lo hi b) by (field; lra).
  rewrite Rabs_mult. rewrite (Rabs_pos_eq (/ scale1 lo hi b)) by (left; now apply Rinv_0_lt_compat).
  replace ((hi - lo) / (2 * IZR b)) with (1 / 2 * / scale1 lo hi b) by (unfold scale1; field; lra).
  apply Rmult_le_compat_r; [left; now apply Rinv_0_lt_compat|]. apply Rabs_le. lra.
Qed.

(* ---------------- vectors ---------------- *)

Fixpoint encs (mins maxs : list R) (bins : list Z) (vs : list xr) : list Z :=
  match mins, maxs, bins, vs with
  | lo :: mins', hi :: maxs', b :: bins', v :: vs' => enc1 lo hi b v :: encs mins' maxs' bins' vs'
  | _, _, _, _ => []
  end.
Fixpoint decs (mins maxs : list R) (bins : list Z) (is : list Z) : list R :=
  match mins, maxs, bins, is with
  | lo :: mins', hi :: maxs', b :: bins', i :: is' => dec1 lo hi b i :: decs mins' maxs' bins' is'
  | _, _, _, _ => []
  end.
Fixpoint scales (mins maxs : list R) (bins : list Z) : list R :=
  match mins, maxs, bins with
  | lo :: mins', hi :: maxs', b :: bins' => scale1 lo hi b :: scales mins' maxs' bins'
  | _, _, _ => []
  end.

Inductive dok : list R -> list R -> list Z -> Prop :=
| dok_nil : dok [] [] []
| dok_cons lo hi b mins maxs bins : lo < hi -> (1 <= b)%Z -> dok mins maxs bins ->
    dok (lo :: mins) (hi :: maxs) (b :: bins).

Lemma disc_bounds_dok mins maxs bins : disc_bounds mins maxs bins -> dok mins maxs bins.
Proof.
  revert maxs bins. induction mins as [|lo mins IH]; intros [|hi maxs] [|b bins] (L1 & L2 & R & B);
    try discriminate; constructor.
  - apply (R 0%nat); reflexivity.
  - apply (B 0%nat); reflexivity.
  - apply IH. split; [simpl in L1; lia|]. split; [simpl in L2; lia|]. split.
    + intros j lo' hi' E1 E2. apply (R (Datatypes.S j)); auto.
    + intros j b' E. apply (B (Datatypes.S j)); auto.
Qed.

Lemma dok_len mins maxs bins : dok mins maxs bins -> length maxs = length mins /\ length bins = length mins.
Proof. induction 1; simpl; lia. Qed.

Lemma scales_len mins maxs bins : dok mins maxs bins -> length (scales mins maxs bins) = length mins.
Proof. induction 1; simpl; lia. Qed.

Definition rdisc (mins maxs : list R) (bins : list Z) : discretizer (S := XR) :=
  mkdisc (map Fin mins) bins (map Fin (scales mins maxs bins)).

Lemma bcast2_eq {A B C} (f : A -> B -> C) l m : length l = length m -> bcast2 f l m = Ok (map2 f l m).
Proof. intros H. unfold bcast2. rewrite H, Nat.eqb_refl. reflexivity. Qed.

Lemma make_discretizer_rdisc mins maxs bins : dok mins maxs bins ->
  make_discretizer (S := XR) (map Fin mins) (map Fin maxs) bins = Ok (rdisc mins maxs bins).
Proof.
  intros D. pose proof (dok_len _ _ _ D) as [L1 L2]. unfold make_discretizer.
  rewrite !map_length, L1, L2, Nat.eqb_refl. cbn [negb andb guard bind].
  rewrite bcast2_eq by (rewrite !map_length; lia). cbn [bind].
  rewrite bcast2_eq by (rewrite map2_length, !map_length; lia). cbn [bind].
  unfold rdisc. do 2 f_equal. clear L1 L2. induction D; [reflexivity|].
  simpl map. simpl map2. simpl scales. simpl map. rewrite <- IHD. f_equal.
  simpl. unfold xdiv. destruct (Req_EM_T (hi + - lo) 0); [lra|]. reflexivity.
Qed.

Lemma encs_len mins maxs bins vs : dok mins maxs bins -> length vs = length mins ->
  length (encs mins maxs bins vs) = length mins.
Proof.
  intros D. revert vs. induction D; intros [|v vs] L; simpl in *; try lia.
  rewrite IHD; lia.
Qed.

Lemma discretize_rdisc mins maxs bins vs : dok mins maxs bins ->
  length vs = length mins -> Forall (fun v => v <> NaN) vs ->
  discretize (S := XR) (rdisc mins maxs bins) vs
  = Ok (ravel_multi_index (encs mins maxs bins vs) (map (fun b => (b + 1)%Z) bins)).
Proof.
  intros D L N. pose proof (dok_len _ _ _ D) as [L1 L2]. pose proof (scales_len _ _ _ D) as L3.
  unfold discretize, rdisc; cbn [dz_mins dz_bins dz_scale dz_dims].
  change (@F XR) with xr. rewrite map_length, L, Nat.eqb_refl. cbn [guard bind].
  rewrite bcast2_eq by (rewrite map_length; exact L). cbn [bind].
  rewrite bcast2_eq by (rewrite map2_length, !map_length; lia). cbn [bind].
  rewrite bcast2_eq by (rewrite !map2_length, !map_length; lia). cbn [bind].
  match goal with |- context [ravel_multi_index ?nd _] =>
    assert (E : nd = encs mins maxs bins vs) end.
  { clear L1 L2 L3. revert vs L N. induction D as [|lo hi b mins maxs bins Hlo Hb D IH];
      intros [|v vs] L N; try discriminate; [reflexivity|].
    simpl in L. inversion N as [|? ? Nv Nvs]; subst.
    simpl map. simpl scales. simpl map2. simpl encs. rewrite IH by (auto; lia). f_equal.
    pose proof (norm1 lo hi b v Hlo Hb Nv) as NN.
    transitivity (frint (Scalar := XR) (Fin (cn lo hi b v))); [|reflexivity].
    rewrite <- NN. reflexivity. }
  rewrite E, encs_len, L2, Nat.eqb_refl by auto. reflexivity.
Qed.

Lemma make_continuous_rdisc mins maxs bins k : dok mins maxs bins ->
  make_continuous (S := XR) (rdisc mins maxs bins) k
  = Ok (map Fin (decs mins maxs bins (unravel_index k (map (fun b => (b + 1)%Z) bins)))).
Proof.
  intros D. pose proof (dok_len _ _ _ D) as [L1 L2]. pose proof (scales_len _ _ _ D) as L3.
  unfold make_continuous, rdisc; cbn [dz_mins dz_bins dz_scale dz_dims].
  change (dz_dims (mkdisc (S := XR) (map Fin mins) bins (map Fin (scales mins maxs bins))))
    with (map (fun b => (b + 1)%Z) bins).
  set (is := unravel_index k _).
  assert (Li : length is = length mins) by (unfold is, unravel_index; rewrite unravel_length, map_length; lia).
  rewrite bcast2_eq by (rewrite map_length; lia). cbn [bind].
  rewrite bcast2_eq by (rewrite map2_length, !map_length; lia). f_equal.
  clearbody is. clear L1 L2 L3. revert is Li.
  induction D as [|lo hi b mins maxs bins Hlo Hb D IH]; intros [|i is] Li; try discriminate; [reflexivity|].
  simpl map. simpl scales. simpl map2. simpl decs. simpl map. simpl in Li. rewrite <- IH by lia. f_equal.
  pose proof (scale1_pos lo hi b Hlo Hb).
  unfold xdiv. destruct (Req_EM_T (scale1 lo hi b) 0); [lra|]. reflexivity.
Qed.

Lemma encs_bounds mins maxs bins vs : dok mins maxs bins ->
  length vs = length mins -> Forall (fun v => v <> NaN) vs ->
  Forall2 (fun i d => (0 <= i < d)%Z) (encs mins maxs bins vs) (map (fun b => (b + 1)%Z) bins).
Proof.
  intros D. revert vs. induction D as [|lo hi b mins maxs bins Hlo Hb D IH]; intros [|v vs] L N;
    try discriminate; simpl; constructor.
  - apply enc1_range; auto. inversion N; auto.
  - apply IH; [simpl in L; lia|]. inversion N; auto.
Qed.

Lemma dims_pos mins maxs bins : dok mins maxs bins ->
  Forall (fun d => (1 <= d)%Z) (map (fun b => (b + 1)%Z) bins).
Proof. induction 1; simpl; constructor; auto; lia. Qed.

Lemma unravel_index_in k ds : Forall (fun d => (1 <= d)%Z) ds -> (0 <= k < prodZ ds)%Z ->
  unravel_index k ds = unravel_from k ds.
Proof. intros H K. unfold unravel_index. rewrite zclip_id by lia. reflexivity. Qed.

(* ---------------- C19 ---------------- *)

Lemma disc_total mins maxs bins vs : disc_bounds mins maxs bins ->
  exists d, make_discretizer (S := XR) (map Fin mins) (map Fin maxs) bins = Ok d /\
    (forall k, exists r, make_continuous d k = Ok r) /\
    (length vs = length mins -> Forall (fun v => v <> NaN) vs -> exists k, discretize d vs = Ok k).
Proof.
  intros D. apply disc_bounds_dok in D. exists (rdisc mins maxs bins).
  split; [now apply make_discretizer_rdisc|]. split.
  - intros k. rewrite make_continuous_rdisc by auto. eauto.
  - intros L N. rewrite discretize_rdisc by auto. eauto.
Qed.

Lemma disc_index_range {S : Scalar} d vs k :
  discretize d vs = Ok k -> Forall (fun b => (0 <= b)%Z) (dz_bins d) ->
  (0 <= k <= num_actions (dz_bins d) - 1)%Z.
Proof.
  intros H B. unfold discretize in H. repeat apply bind_Ok in H as (? & _ & H).
  injection H as <-. rewrite num_actions_prod. apply ravel_range.
  induction B; simpl; constructor; auto; lia.
Qed.

Lemma disc_half_bin mins maxs bins d vs k r : disc_bounds mins maxs bins ->
  make_discretizer (S := XR) (map Fin mins) (map Fin maxs) bins = Ok d ->
  length vs = length mins -> Forall (fun v => v <> NaN) vs ->
  discretize d vs = Ok k -> make_continuous d k = Ok r ->
  length r = length mins /\
  forall j lo hi b v, nth_error mins j = Some lo -> nth_error maxs j = Some hi ->
    nth_error bins j = Some b -> nth_error vs j = Some v ->
    exists x, nth_error r j = Some (Fin x) /\
      Rabs (x - nearest lo hi v) <= (hi - lo) / (2 * IZR b).
Proof.
  intros DB HD L N HK HR. apply disc_bounds_dok in DB as D.
  rewrite make_discretizer_rdisc in HD by auto. injection HD as <-.
  rewrite discretize_rdisc in HK by auto. injection HK as <-.
  rewrite make_continuous_rdisc in HR by auto. injection HR as <-.
  pose proof (encs_bounds _ _ _ _ D L N) as EB. pose proof (dims_pos _ _ _ D) as DP.
  pose proof (ravel_range (encs mins maxs bins vs) _ DP) as RR.
  rewrite unravel_index_in by (auto; lia). rewrite unravel_ravel by auto.
  clear DB EB DP RR.
  revert vs L N. induction D as [|lo hi b mins maxs bins Hlo Hb D IH]; intros [|v vs] L N; try discriminate.
  - split; [reflexivity|]. intros [|j]; discriminate.
  - inversion N as [|? ? Nv Nvs]; subst. simpl in L.
    destruct (IH vs ltac:(lia) Nvs) as [IL IJ].
    simpl. split; [f_equal; exact IL|].
    intros [|j] lo' hi' b' v' E1 E2 E3 E4; simpl in *.
    + injection E1 as <-. injection E2 as <-. injection E3 as <-. injection E4 as <-.
      eexists. split; [reflexivity|]. now apply half_bin.
    + eapply IJ; eauto.
Qed.

Lemma disc_decode_encode mins maxs bins d k : disc_bounds mins maxs bins ->
  make_discretizer (S := XR) (map Fin mins) (map Fin maxs) bins = Ok d ->
  (0 <= k < num_actions bins)%Z ->
  exists r, make_continuous d k = Ok r /\ discretize d r = Ok k /\ length r = length mins /\
    forall j lo hi, nth_error mins j = Some lo -> nth_error maxs j = Some hi ->
      exists x, nth_error r j = Some (Fin x) /\ lo <= x <= hi.
Proof.
  intros DB HD K. apply disc_bounds_dok in DB as D.
  rewrite make_discretizer_rdisc in HD by auto. injection HD as <-.
  rewrite num_actions_prod in K. pose proof (dims_pos _ _ _ D) as DP.
  eexists. split; [now apply make_continuous_rdisc|].
  rewrite unravel_index_in by auto.
  pose proof (unravel_bounds k _ DP) as UB.
  set (is := unravel_from k (map (fun b => (b + 1)%Z) bins)) in *.
  assert (Lis : length is = length mins).
  { unfold is. rewrite unravel_length, map_length. apply (dok_len _ _ _ D). }
  assert (Q : length (decs mins maxs bins is) = length mins /\
    encs mins maxs bins (map Fin (decs mins maxs bins is)) = is /\
    forall j lo hi, nth_error mins j = Some lo -> nth_error maxs j = Some hi ->
      exists x, nth_error (map Fin (decs mins maxs bins is)) j = Some (Fin x) /\ lo <= x <= hi).
  { clearbody is. clear DB K DP.
    revert is UB Lis. induction D as [|lo hi b mins maxs bins Hlo Hb D IH]; intros [|i is] UB Lis; try discriminate.
    - split; [reflexivity|]. split; [reflexivity|]. intros [|j]; discriminate.
    - simpl in UB. inversion UB as [|? ? ? ? Hi UB']; subst. simpl in Lis.
      destruct (IH is UB' ltac:(lia)) as (Q1 & Q2 & Q3). simpl. split; [lia|]. split.
      + rewrite Q2, enc1_dec1 by (auto; lia). reflexivity.
      + intros [|j] lo' hi' E1 E2; simpl in *.
        * injection E1 as <-. injection E2 as <-. eexists. split; [reflexivity|]. apply dec1_range; auto; lia.
        * eapply Q3; eauto. }
  destruct Q as (Q1 & Q2 & Q3).
  split; [|split; [rewrite map_length; exact Q1|exact Q3]].
  rewrite discretize_rdisc; auto; [|rewrite map_length; exact Q1|].
  2:{ apply Forall_forall. intros x Hx. apply in_map_iff in Hx as (y & <- & _). discriminate. }
  rewrite Q2. unfold is. rewrite ravel_unravel by auto. reflexivity.
Qed.

Lemma disc_clamps mins maxs bins d vs : disc_bounds mins maxs bins ->
  make_discretizer (S := XR) (map Fin mins) (map Fin maxs) bins = Ok d ->
  length vs = length mins -> Forall (fun v => v <> NaN) vs ->
  discretize d vs
  = discretize d (map3 (fun lo hi v => Fin (nearest lo hi v)) mins maxs vs).
Proof.
  intros DB HD L N. apply disc_bounds_dok in DB as D.
  rewrite make_discretizer_rdisc in HD by auto. injection HD as <-.
  pose proof (dok_len _ _ _ D) as [L1 L2].
  rewrite !discretize_rdisc; auto.
  - f_equal. f_equal. clear DB L1 L2. revert vs L N.
    induction D as [|lo hi b mins maxs bins Hlo Hb D IH]; intros [|v vs] L N; try discriminate; [reflexivity|].
    inversion N as [|? ? Nv Nvs]; subst. simpl in *. rewrite <- IH by (auto; lia). f_equal.
    unfold enc1, cn. f_equal. f_equal. f_equal.
    pose proof (nearest_in lo hi v Nv ltac:(lra)) as B. simpl. unfold clamp.
    destruct (Rlt_dec _ lo); [lra|]. destruct (Rlt_dec hi _); lra.
  - rewrite map3_length. lia.
  - clear. revert maxs vs. induction mins; intros [|? ?] [|? ?]; simpl; constructor; auto; discriminate.
Qed.

(** Out-of-range indices: too large decodes like the last one, a negative one
    counts from the end, far too negative decodes like the first. *)
Lemma disc_decode_out_of_range mins maxs bins d k : disc_bounds mins maxs bins ->
  make_discretizer (S := XR) (map Fin mins) (map Fin maxs) bins = Ok d ->
  let n := num_actions bins in
  make_continuous d k = make_continuous d
    (if Z.ltb k (- n) then 0 else if Z.ltb k 0 then k + n else if Z.ltb k n then k else n - 1)%Z.
Proof.
  intros DB HD n. apply disc_bounds_dok in DB as D.
  rewrite make_discretizer_rdisc in HD by auto. injection HD as <-.
  rewrite !make_continuous_rdisc by auto. do 3 f_equal.
  pose proof (dims_pos _ _ _ D) as DP. pose proof (prodZ_pos _ DP) as P.
  unfold n. rewrite num_actions_prod. set (ds := map (fun b => (b + 1)%Z) bins) in *.
  unfold unravel_index.
  destruct (Z.ltb_spec k (- prodZ ds)).
  { replace (zclip k (- prodZ ds) (prodZ ds - 1)) with (0 + (-1) * prodZ ds)%Z by (unfold zclip; lia).
    rewrite unravel_shift by auto. f_equal. unfold zclip. lia. }
  destruct (Z.ltb_spec k 0).
  { rewrite <- (unravel_shift ds (zclip k _ _) 1) by auto. f_equal. unfold zclip. lia. }
  destruct (Z.ltb_spec k (prodZ ds)); f_equal; unfold zclip; lia.
Qed.
