(** Proofs for C82: the linear reward in float32. *)
From Coq Require Import String.
From Coq Require Import List ZArith Reals Lra Lia Bool.
From Flocq Require Import Core.Raux IEEE754.BinarySingleNaN.
From Verif.Lib Require Import Base JaxIndex Scalar F32.
From Verif.Model Require Import Operations State Dynamics Discretizer Comfort Metrics.
From Verif.Spec Require Import StateSpec MetricSpec RewardSpec F32Spec F32RewardSpec.
From Verif.Proofs Require Import Core P_Discretizer P_Metrics P_Reward P_F32 P_F32Bicycle P_F32Overlap P_F32Wrap P_F32Idm P_F32Obs.
Import ListNotations.
Open Scope R_scope.

(* ---------------- the sequence of operations, any arithmetic ---------------- *)

Section Any.
  Context {S : Scalar}.
  Definition entry (v : mval) (i : nat) (x : F) : Prop :=
    match v with
    | PerObject l => exists m, nth_error l i = Some m /\ masked_value m = x
    | Scalar0 m => masked_value m = x
    end.
  Definition shapedS (n : nat) (v : mval) : Prop := match v with PerObject l => length l = n | Scalar0 _ => True end.

  Lemma term_any n (v : mval) (mask : list F) : shapedS n v -> length mask = n ->
    exists l, metric_times_mask v mask = Ok l /\ length l = n /\
      forall i a x, nth_error mask i = Some a -> entry v i x -> nth_error l i = Some (fmul x a).
  Proof.
    intros Sh L. destruct v as [ms|m]; cbn [metric_times_mask shapedS entry] in *.
    - unfold bcast2. rewrite Sh, L, Nat.eqb_refl. eexists. split; [reflexivity|]. split.
      + rewrite map2_length, Sh, L. lia.
      + intros i a x Ha (m & Hm & <-). rewrite nth_error_map2, Hm, Ha. reflexivity.
    - eexists. split; [reflexivity|]. split.
      + rewrite map_length. exact L.
      + intros i a x Ha <-. rewrite nth_error_map, Ha. reflexivity.
  Qed.

  Definition lstepS (all : list (string * mval)) (mask : list F) (acc : res (list F)) (r : string * F) : res (list F) :=
    let* reward := acc in
    match lookup (fst r) all with
    | None => Err KeyError
    | Some v =>
        let* metric := metric_times_mask v mask in
        bcast2 fadd reward (map (fun m => fmul m (snd r)) metric)
    end.
  Definition chain (wt : string -> F) (val : string -> nat -> F) (i : nat) (a : F) (names : list string) (acc : F) : F :=
    fold_left (fun acc name => fadd acc (fmul (fmul (val name i) a) (wt name))) names acc.

  Lemma lstep_any n all (mask : list F) (wt : string -> F) (val : string -> nat -> F) names acc :
    length mask = n -> length acc = n ->
    (forall name, In name names -> exists v, lookup name all = Some v /\ shapedS n v /\
       forall i, (i < n)%nat -> entry v i (val name i)) ->
    exists r, fold_left (lstepS all mask) (map (fun name : string => (name, wt name)) names) (Ok acc) = Ok r /\ length r = n /\
      forall i a x, nth_error mask i = Some a -> nth_error acc i = Some x -> nth_error r i = Some (chain wt val i a names x).
  Proof.
    revert acc. induction names as [|name names IH]; intros acc LM LA HN.
    - exists acc. split; [reflexivity|]. split; auto.
    - cbn [map fold_left]. destruct (HN name) as (v & Hv & Sh & Hc); [now left|].
      unfold lstepS at 2. cbn [bind fst snd]. rewrite Hv.
      destruct (term_any n v mask Sh LM) as (l & El & Ll & Nl). rewrite El. cbn [bind].
      rewrite bcast2_eq by (rewrite map_length; congruence).
      destruct (IH (map2 fadd acc (map (fun m => fmul m (wt name)) l)) LM) as (r & Er & Lr & Nr).
      + rewrite map2_length, map_length. lia.
      + intros. apply HN. now right.
      + exists r. split; [exact Er|]. split; auto. intros i a x Ha Hx.
        assert (Li : (i < n)%nat) by (rewrite <- LM; eapply nth_error_Some_lt; eauto).
        assert (Ni := Nl i a (val name i) Ha (Hc i Li)).
        assert (Hx' : nth_error (map2 fadd acc (map (fun m => fmul m (wt name)) l)) i = Some (fadd x (fmul (fmul (val name i) a) (wt name)))).
        { rewrite nth_error_map2, nth_error_map, Ni, Hx. reflexivity. }
        exact (Nr i a _ Ha Hx').
  Qed.

  Lemma reward_any n reg s (mask : list F) (wt : string -> F) (val : string -> nat -> F) names :
    length mask = n ->
    (forall name, In name names -> exists m v, lookup name reg = Some m /\ m s = Ok v /\ shapedS n v /\
       forall i, (i < n)%nat -> entry v i (val name i)) ->
    exists r, linear_reward reg (map (fun name => (name, wt name)) names) s mask = Ok r /\ length r = n /\
      forall i a, nth_error mask i = Some a -> nth_error r i = Some (chain wt val i a names f0).
  Proof.
    intros LM HN. unfold linear_reward.
    assert (K : map fst (map (fun name : string => (name, wt name)) names) = names) by (rewrite map_map; apply map_id).
    rewrite K. destruct (run_metrics_total reg s names) as [all Hall].
    { intros name Hin. destruct (HN name Hin) as (m & v & L & E & _). eauto. }
    rewrite Hall. cbn [bind]. destruct (run_metrics_Ok _ _ _ _ Hall) as [_ V].
    destruct (lstep_any n all mask wt val names (map (fun _ => f0) mask) LM) as (r & Er & Lr & Nr).
    - now rewrite map_length.
    - intros name Hin. destruct (V name Hin) as (m & v & L & E & Lv).
      destruct (HN name Hin) as (m' & v' & L' & E' & Sh & C).
      assert (m = m') by congruence. subst m'. assert (v = v') by congruence. subst v'. eauto.
    - exists r. split; [exact Er|]. split; auto. intros i a Ha. apply (Nr i a f0 Ha). rewrite nth_error_map, Ha. reflexivity.
  Qed.
End Any.

(* ---------------- float32 ---------------- *)

Section Reward.
  Variable lm : libm.
  Notation S32 := (F32 lm).

  Lemma entry32 (v : mval (S := S32)) i r : contributes32 v i r -> exists x, entry (S := S32) v i x /\ fin x r.
  Proof.
    assert (C : forall m : mres (S := S32), counts32 m r -> fin (masked_value (S := S32) m) r).
    { intros m H. unfold masked_value. destruct H as [[-> H]|[-> ->]]; [exact H | apply f0_fin]. }
    destruct v as [l|m]; cbn [contributes32 entry].
    - intros (m & Hm & Hc). exists (masked_value m). split; [exists m; auto | auto].
    - intros Hc. exists (masked_value m). auto.
  Qed.

  Definition total (wt : string -> R) (val : string -> nat -> R) (i : nat) names := Rsum (map (fun name => wt name * val name i) names).

  Lemma chain_out wtF wt valF val i (a : f32) names acc :
    (forall name, In name names -> fin (wtF name) (wt name) /\ fin (valF name i) (val name i)) ->
    fin a 0 -> fin acc 0 -> fin (chain (S := S32) wtF valF i a names acc) 0.
  Proof.
    intros H Fa. revert acc H. induction names as [|name names IH]; intros acc H F0; [exact F0|].
    destruct (H name (or_introl eq_refl)) as (Fw & Fv). cbn [chain fold_left]. apply IH; [intros; apply H; now right|].
    refine (add0_fin _ _ _ F0 _ _); [|rewrite Rabs_R0; apply pow_le; lra].
    refine (mul0l_fin _ _ _ (mul0_fin _ _ _ Fv Fa) Fw).
  Qed.

  (** [k] terms so far, each at most [W]. *)
  Lemma chain_in W wtF wt valF val i (a : f32) names k acc v s :
    1 <= W <= 2 ^ 40 ->
    (forall name, In name names -> fin (wtF name) (wt name) /\ fin (valF name i) (val name i) /\
       Rabs (wt name * val name i) <= W /\ Rabs (val name i) <= 2 ^ 60) ->
    fin a 1 -> fin acc v -> 0 <= k -> k + INR (length names) <= 2 ^ 20 ->
    Rabs s <= k * W -> Rabs (v - s) <= k * k * (4 * u32 * W) ->
    exists v', fin (chain (S := S32) wtF valF i a names acc) v' /\
      Rabs (v' - (s + total wt val i names)) <= (k + INR (length names)) * (k + INR (length names)) * (4 * u32 * W).
  Proof.
    intros HW H Fa. revert k acc v s H. induction names as [|name names IH]; intros k acc v s H Fv Hk HK Hs He.
    - exists v. split; [exact Fv|]. cbn [total map Rsum fold_right length INR]. rewrite !Rplus_0_r. exact He.
    - destruct (H name (or_introl eq_refl)) as (Fw & Fx & Bp & Bx). cbn [chain fold_left].
      cbn [length] in *. rewrite S_INR in *. pose proof (pos_INR (length names)) as Hn.
      set (p := wt name * val name i) in *. assert (U : u32 = / 16777216) by reflexivity. pose proof tiny_small as TS.
      assert (T100 : tiny <= / 1000000000) by (eapply Rle_trans; [apply TS|]; simpl; lra).
      assert (P40 : 2 ^ 40 = 1099511627776) by (simpl; lra). assert (P20 : 2 ^ 20 = 1048576) by (simpl; lra).
      assert (P70 : 2 ^ 70 = 1180591620717411303424) by (simpl; lra).
      assert (Fm : fin (Bmult mode_NE (Bmult mode_NE (valF name i) a) (wtF name)) (rnd p)).
      { unfold p. rewrite Rmult_comm. apply mul_fin; auto.
        - apply mul1_fin; auto. eapply Rle_trans; [exact Bx|]. apply Rle_pow; [lra | lia].
        - apply big127. rewrite Rmult_comm. fold p. lra. }
      pose proof (rnd_cap p W Bp) as Ep.
      assert (KW : k * W <= 1048576 * W) by (apply Rmult_le_compat_r; lra).
      assert (KKW : k * k * (4 * u32 * W) <= k * W).
      { replace (k * k * (4 * u32 * W)) with (k * W * (k * (4 * u32))) by ring. rewrite <- (Rmult_1_r (k * W)) at 2.
        apply Rmult_le_compat_l; [apply Rmult_le_pos; lra|]. rewrite U. lra. }
      assert (Bv : Rabs v <= 2 * (k * W)).
      { replace v with ((v - s) + s) by ring. eapply Rle_trans; [apply Rabs_triang|]. lra. }
      assert (Bq : Rabs (rnd p) <= W + (u32 * W + tiny)).
      { replace (rnd p) with ((rnd p - p) + p) by ring. eapply Rle_trans; [apply Rabs_triang|]. lra. }
      assert (Bs : Rabs (v + rnd p) <= 2 * (k * W) + 2 * W).
      { eapply Rle_trans; [apply Rabs_triang|]. rewrite U in Bq. lra. }
      assert (Fs : fin (Bplus mode_NE acc (Bmult mode_NE (Bmult mode_NE (valF name i) a) (wtF name))) (rnd (v + rnd p))).
      { apply add_fin; auto. apply big127. lra. }
      pose proof (rnd_cap _ _ Bs) as Es.
      destruct (IH (k + 1) _ (rnd (v + rnd p)) (s + p) (fun n' Hn' => H n' (or_intror Hn')) Fs ltac:(lra) ltac:(lra)) as (v' & Fv' & E').
      + eapply Rle_trans; [apply Rabs_triang|]. lra.
      + replace (rnd (v + rnd p) - (s + p)) with ((rnd (v + rnd p) - (v + rnd p)) + (v - s) + (rnd p - p)) by ring.
        eapply Rle_trans; [apply Rabs_triang|]. eapply Rle_trans; [apply Rplus_le_compat_r, Rabs_triang|].
        replace ((k + 1) * (k + 1) * (4 * u32 * W)) with (k * k * (4 * u32 * W) + (8 * u32) * (k * W) + 4 * u32 * W) by ring.
        rewrite U in *. assert (0 <= k * W) by (apply Rmult_le_pos; lra). lra.
      + exists v'. split; [exact Fv'|].
        replace (k + (INR (length names) + 1)) with (k + 1 + INR (length names)) by ring.
        replace (s + total wt val i (name :: names)) with (s + p + total wt val i names) by (unfold total, Rsum, p; cbn [map fold_right]; ring).
        exact E'.
  Qed.

  Lemma chain_exact wtF wt valF val i (a : f32) names acc z :
    (forall name, In name names -> fin (wtF name) (IZR (wt name)) /\ fin (valF name i) (IZR (val name i)) /\ Rabs (IZR (val name i)) <= 2 ^ 60) ->
    fin a 1 -> fin acc (IZR z) -> (Z.abs z + Zsum (map (fun name => Z.abs (wt name * val name i)) names) <= 2 ^ 24)%Z ->
    fin (chain (S := S32) wtF valF i a names acc) (IZR (z + Zsum (map (fun name => wt name * val name i)%Z names))).
  Proof.
    intros H Fa. revert acc z H. induction names as [|name names IH]; intros acc z H Fz B.
    - cbn [map Zsum fold_right chain fold_left]. rewrite Z.add_0_r. exact Fz.
    - destruct (H name (or_introl eq_refl)) as (Fw & Fx & Bx). cbn [chain fold_left map Zsum fold_right] in *.
      assert (NN : (0 <= fold_right Z.add 0 (map (fun name => Z.abs (wt name * val name i)) names))%Z).
      { clear. induction names; cbn [map fold_right]; lia. }
      set (p := (wt name * val name i)%Z) in *.
      assert (Big : forall q, (Z.abs q <= 2 ^ 24)%Z -> Rabs (IZR q) <= b32 127).
      { intros q Hq. apply big127. rewrite <- abs_IZR. apply Rle_trans with (IZR (2 ^ 24)); [now apply IZR_le|]. simpl. lra. }
      assert (Fm : fin (Bmult mode_NE (Bmult mode_NE (valF name i) a) (wtF name)) (IZR p)).
      { assert (E : IZR (val name i) * IZR (wt name) = IZR p) by (rewrite <- mult_IZR; f_equal; unfold p; ring).
        rewrite <- (rnd_id (IZR p)) by (apply rep_IZR; lia). rewrite <- E. apply mul_fin; auto.
        - apply mul1_fin; auto. eapply Rle_trans; [exact Bx|]. apply Rle_pow; [lra | lia].
        - rewrite E. apply Big. lia. }
      assert (Fs : fin (Bplus mode_NE acc (Bmult mode_NE (Bmult mode_NE (valF name i) a) (wtF name))) (IZR (z + p))).
      { rewrite <- (rnd_id (IZR (z + p))) by (apply rep_IZR; lia). rewrite plus_IZR. apply add_fin; auto.
        rewrite <- plus_IZR. apply Big. lia. }
      rewrite Z.add_assoc. apply (IH _ (z + p)%Z (fun n' Hn' => H n' (or_intror Hn')) Fs). unfold Zsum. lia.
  Qed.

  (** Float values for the contributions. *)
  Lemma choose32 n reg (s : state (S := S32)) names (val : string -> nat -> R) :
    (forall name, In name names -> exists m v, lookup name reg = Some m /\ m s = Ok v /\ shaped32 n v /\
       forall i, (i < n)%nat -> contributes32 v i (val name i)) ->
    exists valF : string -> nat -> f32,
      (forall name i, In name names -> (i < n)%nat -> fin (valF name i) (val name i)) /\
      (forall name, In name names -> exists m v, lookup name reg = Some m /\ m s = Ok v /\ shapedS (S := S32) n v /\
         forall i, (i < n)%nat -> entry (S := S32) v i (valF name i)).
  Proof.
    intros H.
    set (valF := fun name i => match lookup name reg with
      | Some m => match m s with
        | Ok (PerObject l) => match nth_error l i with Some m' => masked_value (S := S32) m' | None => f0 (S := S32) end
        | Ok (Scalar0 m') => masked_value (S := S32) m' | Err _ => f0 (S := S32) end
      | None => f0 (S := S32) end).
    assert (E : forall name, In name names -> exists m v, lookup name reg = Some m /\ m s = Ok v /\ shaped32 n v /\
       forall i, (i < n)%nat -> entry (S := S32) v i (valF name i) /\ fin (valF name i) (val name i)).
    { intros name Hin. destruct (H name Hin) as (m & v & L & Em & Sh & C). exists m, v. split; [exact L|]. split; [exact Em|]. split; [exact Sh|].
      intros i Hi. unfold valF. rewrite L, Em. destruct (entry32 v i _ (C i Hi)) as (x & Ex & Fx). destruct v as [l|m']; cbn [entry] in *.
      - destruct Ex as (m' & Hm & <-). rewrite Hm. split; [exists m'; auto | exact Fx].
      - rewrite <- Ex in Fx. split; [reflexivity | exact Fx]. }
    exists valF. split.
    - intros name i Hin Hi. destruct (E name Hin) as (m & v & _ & _ & _ & C). now apply C.
    - intros name Hin. destruct (E name Hin) as (m & v & L & Em & Sh & C). exists m, v. split; [exact L|]. split; [exact Em|]. split; [exact Sh|].
      intros i Hi. now apply C.
  Qed.

  Lemma reward32 n reg (s : state (S := S32)) ms mask wtF (wt : string -> R) (val : string -> nat -> R) names W :
    mask32 ms mask -> length mask = n -> 1 <= W <= 2 ^ 40 -> (length names <= 2 ^ 20)%nat ->
    (forall name, In name names -> fin (wtF name) (wt name)) ->
    (forall name, In name names -> exists m v, lookup name reg = Some m /\ m s = Ok v /\ shaped32 n v /\
       forall i, (i < n)%nat -> contributes32 v i (val name i) /\ Rabs (wt name * val name i) <= W /\ Rabs (val name i) <= 2 ^ 60) ->
    exists r, linear_reward (S := S32) reg (map (fun name => (name, wtF name)) names) s ms = Ok r /\ length r = n /\
      forall i b, nth_error mask i = Some b -> exists x v, nth_error r i = Some x /\ fin x v /\
        if b then Rabs (v - total wt val i names) <= INR (length names) ^ 2 * W / 2 ^ 22 else v = 0.
  Proof.
    intros [LF HM] LM HW HN Hw H.
    destruct (choose32 n reg s names val) as (valF & V1 & V2).
    { intros name Hin. destruct (H name Hin) as (m & v & L & E & Sh & C). exists m, v. split; [exact L|]. split; [exact E|]. split; [exact Sh|]. intros i Hi. now apply C. }
    destruct (reward_any (S := S32) n reg s ms wtF valF names) as (r & Er & Lr & Nr).
    { etransitivity; [exact LF | exact LM]. }
    { exact V2. }
    exists r. split; [exact Er|]. split; [exact Lr|]. intros i b Hb. destruct (HM i b Hb) as (a & Ha & Fa). pose proof (Nr i a Ha) as Ni.
    assert (Li : (i < n)%nat) by (rewrite <- LM; eapply nth_error_Some_lt; eauto).
    destruct b.
    - destruct (chain_in W wtF wt valF val i a names 0 (f0 (S := S32)) 0 0 HW) as (v & Fv & E).
      + intros name Hin. destruct (H name Hin) as (m & v & _ & _ & _ & C). destruct (C i Li) as (_ & B1 & B2). auto.
      + exact Fa.
      + apply f0_fin.
      + lra.
      + rewrite Rplus_0_l. replace (2 ^ 20) with (INR (2 ^ 20)); [now apply le_INR|]. rewrite pow_INR. reflexivity.
      + rewrite Rabs_R0. lra.
      + rewrite Rminus_0_r, Rabs_R0. lra.
      + exists (chain (S := S32) wtF valF i a names (f0 (S := S32))), v. split; [exact Ni|]. split; [exact Fv|].
        rewrite !Rplus_0_l in E. replace (INR (length names) ^ 2 * W / 2 ^ 22) with (INR (length names) * INR (length names) * (4 * u32 * W)); [exact E|].
        unfold u32. simpl. field.
    - exists (chain (S := S32) wtF valF i a names (f0 (S := S32))), 0. split; [exact Ni|]. split; [|reflexivity].
      apply (chain_out wtF wt valF val); [intros; auto | exact Fa | apply f0_fin].
  Qed.

  Lemma reward_exact32 n reg (s : state (S := S32)) ms mask wtF (wt : string -> Z) (val : string -> nat -> Z) names :
    mask32 ms mask -> length mask = n ->
    (forall name, In name names -> fin (wtF name) (IZR (wt name))) ->
    (forall name, In name names -> exists m v, lookup name reg = Some m /\ m s = Ok v /\ shaped32 n v /\
       forall i, (i < n)%nat -> contributes32 v i (IZR (val name i)) /\ Rabs (IZR (val name i)) <= 2 ^ 60) ->
    (forall i, (i < n)%nat -> (Zsum (map (fun name => Z.abs (wt name * val name i)) names) <= 2 ^ 24)%Z) ->
    exists r, linear_reward (S := S32) reg (map (fun name => (name, wtF name)) names) s ms = Ok r /\ length r = n /\
      forall i b, nth_error mask i = Some b -> exists x, nth_error r i = Some x /\
        fin x (IZR (if b then Zsum (map (fun name => wt name * val name i)%Z names) else 0)).
  Proof.
    intros [LF HM] LM Hw H HB.
    destruct (choose32 n reg s names (fun name i => IZR (val name i))) as (valF & V1 & V2).
    { intros name Hin. destruct (H name Hin) as (m & v & L & E & Sh & C). exists m, v. split; [exact L|]. split; [exact E|]. split; [exact Sh|]. intros i Hi. now apply C. }
    destruct (reward_any (S := S32) n reg s ms wtF valF names) as (r & Er & Lr & Nr).
    { etransitivity; [exact LF | exact LM]. }
    { exact V2. }
    exists r. split; [exact Er|]. split; [exact Lr|]. intros i b Hb. destruct (HM i b Hb) as (a & Ha & Fa). pose proof (Nr i a Ha) as Ni.
    assert (Li : (i < n)%nat) by (rewrite <- LM; eapply nth_error_Some_lt; eauto).
    destruct b.
    - exists (chain (S := S32) wtF valF i a names (f0 (S := S32))). split; [exact Ni|].
      apply (chain_exact wtF wt valF val i a names (f0 (S := S32)) 0).
      + intros name Hin. destruct (H name Hin) as (m & v & _ & _ & _ & C). destruct (C i Li) as (_ & B2). auto.
      + exact Fa.
      + apply f0_fin.
      + rewrite Z.abs_0, Z.add_0_l. apply HB. exact Li.
    - exists (chain (S := S32) wtF valF i a names (f0 (S := S32))). split; [exact Ni|].
      apply (chain_out wtF (fun name => IZR (wt name)) valF (fun name i => IZR (val name i))); [intros; auto | exact Fa | apply f0_fin].
  Qed.
End Reward.
