(** The IDM agent in float32. *)
From Coq Require Import List ZArith Reals Lra Lia Bool.
From Flocq Require Import Core.Zaux Core.Raux Core.Float_prop IEEE754.BinarySingleNaN.
From Verif.Lib Require Import Base JaxIndex Scalar F32.
From Verif.Model Require Import Operations State Dynamics BaseEnv Dyn_State Geometry Discretizer Comfort Metrics Actor Waypoint.
From Verif.Spec Require Import StateSpec GeomSpec DynSpec AgentSpec F32Spec F32EpisodeSpec F32DriveSpec.
From Verif.Proofs Require Import Core P_Metrics P_F32 P_F32Wrap P_F32Delta P_F32Bicycle P_F32Kim P_F32Special P_F32Overlap.
Import ListNotations.
Open Scope R_scope.

Section AnyNumbers.
  Context {S : Scalar}.

  Lemma combine_nth {A B} (l : list A) (m : list B) i a b :
    nth_error l i = Some a -> nth_error m i = Some b -> nth_error (combine l m) i = Some (a, b).
  Proof.
    revert i m. induction l as [|x l IH]; intros [|i] [|y m] Hl Hm; try discriminate; simpl in *; [congruence|]. now apply IH.
  Qed.

  (** The speed of object [i]; the leader's speed and distance are finite. *)
  Lemma idm_entry_any p s cur sv i log me :
    current_sim s = Ok cur -> idm_update_speed p s = Ok sv ->
    nth_error (s_log s) i = Some log -> nth_error cur i = Some me ->
    exists u d, (u = fm1 \/ fisfinite u = true) /\ (d = fm1 \/ fisfinite d = true) /\
      nth_error sv i = Some (next_speed default_time_delta (obj_speed me) (idm_accel p (obj_speed me) u d), true).
  Proof.
    intros Hc H Hl Hm. unfold idm_update_speed in H. rewrite Hc in H. cbn [bind] in H.
    apply bind_Ok in H as ([] & Hg & H). apply bind_Ok in H as (trs & Ht & H). apply Ok_inj in H. subst sv.
    destruct (mapM_nth _ _ _ _ _ Ht (combine_nth _ _ _ _ _ Hl Hm)) as (tr & Htr & Etr).
    rewrite nth_error_mapi, (combine_nth _ _ _ _ _ Etr Hm). cbn [option_map fst snd]. unfold object_accel.
    destruct (object_lead i tr cur me) as [u d] eqn:E.
    exists u, d. split; [|split; [|reflexivity]].
    - apply (f_equal fst) in E. cbn [fst object_lead] in E. unfold compute_lead_velocity in E. rewrite <- E.
      match goal with |- context [if fisfinite ?a then _ else _] => destruct (fisfinite a) eqn:G; [right; exact G | left; reflexivity] end.
    - apply (f_equal snd) in E. cbn [snd object_lead] in E. unfold compute_lead_distance in E. rewrite <- E.
      match goal with |- context [if fisfinite ?a then _ else _] => destruct (fisfinite a) eqn:G; [right; exact G | left; reflexivity] end.
  Qed.
End AnyNumbers.

Section Speed.
  Variable lm : libm.
  Lemma lit_int n : (Z.abs n <= 2 ^ 24)%Z -> fin (flit (Scalar := F32 lm) n 1) (IZR n).
  Proof.
    intros H. replace (IZR n) with (rnd (IZR n / IZR (Zpos 1))) by (unfold Rdiv; rewrite Rinv_1, Rmult_1_r; apply rnd_id, rep_IZR, H).
    apply lit_fin; [exact H | simpl; lia].
  Qed.
  Lemma f0_fin : fin (f0 (S := F32 lm)) 0. Proof. exact (lit_int 0 ltac:(simpl; lia)). Qed.
  Lemma f1_fin : fin (f1 (S := F32 lm)) 1. Proof. exact (lit_int 1 ltac:(simpl; lia)). Qed.
  Lemma fm1_finite : is_finite (fm1 (S := F32 lm)) = true. Proof. vm_compute. reflexivity. Qed.
  Hypothesis PW : pow32 lm.
  Notation S32 := (F32 lm).
  Variables (p : idm_params (S := S32)) (v0 s0 th a b delta : R).
  Hypothesis HP : idm32 p v0 s0 th a b delta.

  Lemma gap_notnan (cs u : f32) v : fin cs v -> 0 <= v <= 2 ^ 50 -> is_finite u = true ->
    is_nan (desired_gap p cs u) = false.
  Proof.
    intros Fv Bv Fu. destruct HP as (_ & Fs & Ft & Fa & Fb & _ & _ & Bs & Bt & Ba & Bb & _).
    unfold desired_gap.
    apply (add_notnan _ _ _ Fs). apply max_notnan; [reflexivity|].
    assert (Fvt : fin (Bmult mode_NE cs (safe_time_headway p)) (rnd (v * th))).
    { apply mul_fin; auto. apply big127. rewrite Rabs_pos_eq by (apply Rmult_le_pos; lra).
      replace (2 ^ 70) with (2 ^ 50 * 2 ^ 20) by (rewrite <- pow_add; reflexivity). apply Rmult_le_compat; lra. }
    apply (add_notnan _ _ _ Fvt).
    assert (AB : / 2 ^ 40 <= a * b <= 2 ^ 40).
    { replace (/ 2 ^ 40) with (/ 2 ^ 20 * / 2 ^ 20) by (rewrite <- Rinv_mult, <- pow_add; reflexivity).
      replace (2 ^ 40) with (2 ^ 20 * 2 ^ 20) by (rewrite <- pow_add; reflexivity).
      split; apply Rmult_le_compat; lra. }
    pose proof tiny_small as TS. assert (U : u32 = / 16777216) by reflexivity.
    assert (Fab : fin (Bmult mode_NE (max_accel p) (max_decel p)) (rnd (a * b))).
    { apply mul_fin; auto. apply big127. rewrite Rabs_pos_eq by lra. lra. }
    assert (Rab : / 2 ^ 41 <= rnd (a * b) <= 2 ^ 41).
    { pose proof (rnd_err (a * b)) as E. rewrite (Rabs_pos_eq (a * b)) in E by lra. change (b32 (-150)) with tiny in E.
      apply Rabs_le_inv in E. rewrite U in E. split; lra. }
    pose proof (sqrt_fin _ _ Fab ltac:(lra)) as Fq.
    assert (Sq : / 2 ^ 41 <= sqrt (rnd (a * b)) <= 2 ^ 41).
    { split.
      - rewrite <- (sqrt_square (/ 2 ^ 41)) by lra. apply sqrt_le_1_alt. apply Rle_trans with (/ 2 ^ 41 * 1); [apply Rmult_le_compat_l; lra | lra].
      - rewrite <- (sqrt_square (2 ^ 41)) by lra. apply sqrt_le_1_alt. apply Rle_trans with (2 ^ 41 * 1); [lra | apply Rmult_le_compat_l; lra]. }
    assert (Rq : / 2 ^ 42 <= rnd (sqrt (rnd (a * b))) <= 2 ^ 42).
    { pose proof (rnd_err (sqrt (rnd (a * b)))) as E. rewrite (Rabs_pos_eq (sqrt _)) in E by lra. change (b32 (-150)) with tiny in E.
      apply Rabs_le_inv in E. rewrite U in E. split; lra. }
    assert (Fd : fin (Bmult mode_NE (f2 (S := S32)) (Bsqrt mode_NE (Bmult mode_NE (max_accel p) (max_decel p)))) (rnd (2 * rnd (sqrt (rnd (a * b)))))).
    { apply mul_fin; [apply f2_fin | exact Fq |]. apply big127. rewrite Rabs_pos_eq by lra. lra. }
    apply (div_notnan _ _ _) with (2 := Fd).
    - destruct (Req_dec v 0) as [Z|NZ].
      + assert (Fi : is_finite (Bminus mode_NE cs u) = true).
        { destruct Fv as [Fc Ev]. destruct cs as [sc| | |sc mc ec Hc]; try discriminate.
          - destruct u as [su| | |su mu eu Hu]; try discriminate; [destruct sc, su; reflexivity | reflexivity].
          - exfalso. assert (Z0 : Core.Zaux.cond_Zopp sc (Z.pos mc) = 0%Z) by (apply (Core.Float_prop.eq_0_F2R Core.Zaux.radix2 _ ec); rewrite <- Z; exact Ev). destruct sc; discriminate. }
        exact (approx_notnan _ _ (mul_approx _ _ _ _ Fv (fin_B2R _ Fi))).
      + apply (mul_notnan _ _ _ Fv NZ). apply (sub_notnan _ _ _ Fv). destruct u; try discriminate; reflexivity.
    - pose proof (rnd_err (2 * rnd (sqrt (rnd (a * b))))) as E. rewrite (Rabs_pos_eq (2 * _)) in E by lra. change (b32 (-150)) with tiny in E.
      apply Rabs_le_inv in E. rewrite U in E. lra.
  Qed.

  Lemma lit01_near : exists t, fin (flit (Scalar := S32) 1 10) t /\ Rabs (t - 1 / 10) <= / 100000000.
  Proof. exact (tenth_fin lm). Qed.

  Lemma gap_ratio_notnan (cs u d : f32) v : fin cs v -> 0 <= v <= 2 ^ 50 -> is_finite u = true -> is_finite d = true ->
    is_nan (fdiv (Scalar := S32) (if feqb (Scalar := S32) d default_lead_distance || feqb (Scalar := S32) u default_lead_velocity then f0 else desired_gap p cs u)
             (if feqb (Scalar := S32) d f0 then minimum_lead_distance (S := S32) else d)) = false.
  Proof.
    intros Fv Bv Fu Fd.
    assert (exists w, fin (if feqb (Scalar := S32) d f0 then minimum_lead_distance (S := S32) else d) w /\ w <> 0) as (w & Fw & Nw).
    { destruct (feqb (Scalar := S32) d f0) eqn:E.
      - destruct lit01_near as (t & Ft & Et). exists t. split; [exact Ft|]. apply Rabs_le_inv in Et. lra.
      - exists (B2R d). split; [now apply fin_B2R|]. intros Z.
        assert (E2 : Beqb d (f0 (S := S32)) = true); [|change (Beqb d (f0 (S := S32)) = false) in E; congruence].
        rewrite (eqb_fin _ _ _ _ (fin_B2R d Fd) f0_fin). apply Req_bool_true. exact Z. }
    apply (div_notnan _ _ w); auto.
    destruct (_ || _); [reflexivity | now apply (gap_notnan _ _ v)].
  Qed.

  (** The next speed is finite, not negative, limited by the maximal acceleration, and
      does not grow above the desired speed. *)
  Lemma next_speed32 (cs u d : f32) v : fin cs v -> 0 <= v <= 2 ^ 50 -> is_finite u = true -> is_finite d = true ->
    exists r, fin (next_speed (S := S32) default_time_delta cs (idm_accel p cs u d)) r /\ 0 <= r /\
      r <= v + a / 10 + v / 16777216 + a / 4194304 /\ (v0 <= v -> r <= v).
  Proof.
    intros Fv Bv Fu Fd. pose proof (gap_ratio_notnan cs u d v Fv Bv Fu Fd) as NN.
    destruct HP as (Fv0 & _ & _ & Fa & _ & Fdel & Bv0 & _ & _ & Ba & _ & Bdel).
    destruct lit01_near as (t & Ft & Et). apply Rabs_le_inv in Et.
    pose proof tiny_small as TS. assert (U : u32 = / 16777216) by reflexivity.
    unfold idm_accel. cbv zeta.
    match type of NN with is_nan ?x = false => set (ratio := x) in * end.
    pose proof (square_above _ NN) as SQ.
    assert (Q : Rabs (v / v0) <= 2 ^ 70).
    { rewrite Rabs_pos_eq by (apply Rle_mult_inv_pos; lra). apply Rmult_le_reg_r with v0; [lra|]. unfold Rdiv. rewrite Rmult_assoc, Rinv_l, Rmult_1_r by lra.
      apply Rle_trans with (2 ^ 70 * / 2 ^ 20); [|apply Rmult_le_compat_l; lra].
      replace (2 ^ 70) with (2 ^ 50 * 2 ^ 20) by (rewrite <- pow_add; reflexivity). rewrite Rmult_assoc, Rinv_r, Rmult_1_r by lra. lra. }
    pose proof (div_fin _ _ _ _ Fv Fv0 ltac:(lra) (big127 _ Q)) as Fq.
    assert (Q0 : 0 <= rnd (v / v0)) by (rewrite <- rnd_0; apply rnd_le, Rle_mult_inv_pos; lra).
    assert (Q1 : v0 <= v -> 1 <= rnd (v / v0)).
    { intros L. rewrite <- (rnd_id 1) by (apply (rep_IZR 1); simpl; lia). apply rnd_le.
      apply Rmult_le_reg_r with v0; [lra|]. unfold Rdiv. rewrite Rmult_assoc, Rinv_l by lra. lra. }
    pose proof (PW _ _ _ _ Fq Fdel Q0 (proj1 Bdel)) as PP.
    change (fpow (Scalar := S32)) with (lm_pow lm). change (fdiv (Scalar := S32)) with (@Bdiv f32_prec f32_emax f32_prec_gt_0 f32_prec_lt_emax mode_NE).
    set (pw := lm_pow lm _ _) in *. fold pw in PP.
    assert (A0 : above0 pw). { destruct PP as [->|(r & F & R0 & _)]; [left; reflexivity | right; exists r; auto]. }
    assert (K : forall c, 0 <= c <= 1 -> rep c -> below (Bminus mode_NE (f1 (S := S32)) pw) c ->
      exists r, fin (next_speed (S := S32) default_time_delta cs
        (fmul (Scalar := S32) (max_accel p) (fsub (Scalar := S32) (fsub (Scalar := S32) f1 pw) (fmul (Scalar := S32) ratio ratio)))) r /\ 0 <= r /\
        r <= rnd (v + rnd (t * rnd (a * c)))).
    { intros c Bc Rc H.
      pose proof (sub_below _ _ c H SQ (big127 c ltac:(rewrite Rabs_pos_eq; lra)) Rc) as H1.
      assert (AC : 0 <= a * c <= 2 ^ 20).
      { split; [apply Rmult_le_pos; lra|]. replace (2 ^ 20) with (2 ^ 20 * 1) by ring. apply Rmult_le_compat; lra. }
      assert (AC' : 0 <= rnd (a * c) <= 2 ^ 21).
      { split; [rewrite <- rnd_0; apply rnd_le; lra|]. pose proof (rnd_err (a * c)) as E. rewrite (Rabs_pos_eq (a * c)) in E by lra.
        change (b32 (-150)) with tiny in E. apply Rabs_le_inv in E. rewrite U in E. lra. }
      assert (B1 : a * c <= b32 127). { apply Rle_trans with (Rabs (a * c)); [apply Rle_abs|]. apply big127. rewrite Rabs_pos_eq; lra. }
      pose proof (mul_below _ _ a c Fa ltac:(lra) H1 ltac:(lra) B1) as H2.
      assert (TA : 0 <= t * rnd (a * c) <= 2 ^ 21).
      { split; [apply Rmult_le_pos; lra|]. replace (2 ^ 21) with (1 * 2 ^ 21) by ring. apply Rmult_le_compat; lra. }
      assert (TA' : 0 <= rnd (t * rnd (a * c)) <= 2 ^ 22).
      { split; [rewrite <- rnd_0; apply rnd_le; lra|]. pose proof (rnd_err (t * rnd (a * c))) as E. rewrite (Rabs_pos_eq (t * _)) in E by lra.
        change (b32 (-150)) with tiny in E. apply Rabs_le_inv in E. rewrite U in E. lra. }
      assert (B2 : t * rnd (a * c) <= b32 127). { apply Rle_trans with (Rabs (t * rnd (a * c))); [apply Rle_abs|]. apply big127. rewrite Rabs_pos_eq; lra. }
      pose proof (mul_below _ _ t _ Ft ltac:(lra) H2 ltac:(lra) B2) as H3.
      pose proof (add_below _ _ v _ Fv H3 (big127 (v + rnd (t * rnd (a * c))) ltac:(rewrite Rabs_pos_eq; lra))) as H4.
      assert (P0 : 0 <= rnd (v + rnd (t * rnd (a * c)))) by (rewrite <- rnd_0; apply rnd_le; lra).
      unfold next_speed. cbv zeta.
      change (fadd (Scalar := S32)) with (@Bplus f32_prec f32_emax f32_prec_gt_0 f32_prec_lt_emax mode_NE).
      change (fsub (Scalar := S32)) with (@Bminus f32_prec f32_emax f32_prec_gt_0 f32_prec_lt_emax mode_NE).
      change (fmul (Scalar := S32)) with (@Bmult f32_prec f32_emax f32_prec_gt_0 f32_prec_lt_emax mode_NE).
      change (default_time_delta (S := S32)) with (flit (Scalar := S32) 1 10).
      match type of H4 with below ?x _ => set (z := x) in * end.
      match goal with |- context [fltb ?x f0] => change x with z end.
      destruct H4 as [->|(r & Fr & Hr)].
      - exists 0. split; [apply f0_fin | lra].
      - change (fltb (Scalar := S32) z f0) with (Bltb z (f0 (S := S32))). rewrite (ltb_fin _ _ _ _ Fr f0_fin).
        destruct (Rlt_bool_spec r 0).
        + exists 0. split; [apply f0_fin | lra].
        + exists r. auto. }
    assert (R1 : rep 1) by (apply (rep_IZR 1); simpl; lia).
    destruct (K 1 ltac:(lra) R1) as (r & Fr & R0 & Hr).
    { apply sub_below; auto; [|apply big127; rewrite Rabs_R1; lra]. right. exists 1. split; [apply f1_fin | lra]. }
    exists r. split; [exact Fr|]. split; [exact R0|]. split.
    - rewrite Rmult_1_r, (rnd_id a) in Hr by (eapply fin_rep; eauto).
      assert (TA : 0 <= t * a <= a * (1 / 10) + a * / 100000000).
      { split; [apply Rmult_le_pos; lra|]. replace (a * (1 / 10) + a * / 100000000) with ((1 / 10 + / 100000000) * a) by ring. apply Rmult_le_compat_r; lra. }
      pose proof (rnd_err (t * a)) as E1. rewrite (Rabs_pos_eq (t * a)) in E1 by lra. change (b32 (-150)) with tiny in E1. apply Rabs_le_inv in E1.
      assert (0 <= rnd (t * a)) by (rewrite <- rnd_0; apply rnd_le; lra).
      pose proof (rnd_err (v + rnd (t * a))) as E2. rewrite (Rabs_pos_eq (v + _)) in E2 by lra. change (b32 (-150)) with tiny in E2. apply Rabs_le_inv in E2.
      rewrite U in E1, E2. lra.
    - intros L. destruct (K 0 ltac:(lra) rep_0) as (r' & Fr' & R0' & Hr').
      { destruct PP as [->|(q & F & _ & Hq)]; [left; reflexivity|]. rewrite <- rnd_0.
        apply (approx_below _ (1 - q)); [exact (sub_approx _ _ _ _ f1_fin F) | specialize (Hq (Q1 L)); lra | apply big127; rewrite Rabs_R0; lra]. }
      rewrite Rmult_0_r, rnd_0, Rmult_0_r, rnd_0, Rplus_0_r, rnd_id in Hr' by (eapply fin_rep; eauto).
      rewrite (fin_fun _ _ _ Fr Fr'). exact Hr'.
  Qed.
End Speed.
