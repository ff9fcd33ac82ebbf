(** The overlap test in float32. *)
From Coq Require Import List ZArith Reals Lra Lia Bool.
From Flocq Require Import Core.Raux IEEE754.BinarySingleNaN.
From Verif.Lib Require Import Base JaxIndex Scalar XR F32.
From Verif.Model Require Import Operations State Geometry Metrics.
From Verif.Spec Require Import StateSpec GeomSpec F32Spec F32EpisodeSpec F32GeomSpec.
From Verif.Proofs Require Import P_F32 P_F32Wrap P_F32Delta P_F32Bicycle P_Pose P_Overlap.
Import ListNotations.
Open Scope R_scope.

(** [x] is [r] up to [e], and [r] is at most [m]. *)
Definition ap (x : f32) (r e m : R) : Prop := exists v, fin x v /\ Rabs (v - r) <= e /\ Rabs r <= m.

Lemma ap_weaken x r e m e' m' : ap x r e m -> e <= e' -> m <= m' -> ap x r e' m'.
Proof. intros (v & F & E & M) He Hm. exists v. split; [exact F|]. lra. Qed.

Lemma ap_exact x r m : fin x r -> Rabs r <= m -> ap x r 0 m.
Proof. intros F M. exists r. split; [exact F|]. split; [|exact M]. rewrite Rminus_eq_0, Rabs_R0. lra. Qed.

Lemma ap_val x r e m v : fin x v -> Rabs (v - r) <= e -> Rabs r <= m -> Rabs v <= m + e.
Proof. intros _ E M. replace v with (r + (v - r)) by ring. now apply abs_add. Qed.

Lemma big127 r : Rabs r <= 2 ^ 70 -> Rabs r <= b32 127.
Proof. intros H. apply cap127. eapply Rle_trans; [exact H|]. apply Rle_pow; [lra | lia]. Qed.

Lemma ap_add x y r s e f m n : ap x r e m -> ap y s f n -> m + n + e + f <= 2 ^ 70 ->
  ap (Bplus mode_NE x y) (r + s) (e + f + (u32 * (m + n + e + f) + tiny)) (m + n).
Proof.
  intros (v & Fv & Ev & Mv) (w & Fw & Ew & Mw) B.
  pose proof (abs_add _ _ _ _ (ap_val _ _ _ _ _ Fv Ev Mv) (ap_val _ _ _ _ _ Fw Ew Mw)) as Z.
  exists (rnd (v + w)). split; [apply add_fin; auto; apply big127; lra|]. split; [|now apply abs_add].
  replace (rnd (v + w) - (r + s)) with ((v - r) + (w - s) + (rnd (v + w) - (v + w))) by ring.
  apply abs_add; [now apply abs_add|]. apply rnd_cap. lra.
Qed.

Lemma ap_opp x r e m : ap x r e m -> ap (Bopp x) (- r) e m.
Proof.
  intros (v & F & E & M). exists (- v). split; [now apply opp_fin|]. rewrite Rabs_Ropp. split; [|exact M].
  replace (- v - - r) with (- (v - r)) by ring. now rewrite Rabs_Ropp.
Qed.

Lemma ap_sub x y r s e f m n : ap x r e m -> ap y s f n -> m + n + e + f <= 2 ^ 70 ->
  ap (Bminus mode_NE x y) (r - s) (e + f + (u32 * (m + n + e + f) + tiny)) (m + n).
Proof.
  intros (v & Fv & Ev & Mv) (w & Fw & Ew & Mw) B.
  assert (Aw : Rabs (- w) <= n + f) by (rewrite Rabs_Ropp; exact (ap_val _ _ _ _ _ Fw Ew Mw)).
  pose proof (abs_add _ _ _ _ (ap_val _ _ _ _ _ Fv Ev Mv) Aw) as Z. fold (v - w) in Z.
  exists (rnd (v - w)). split; [apply sub_fin; auto; apply big127; lra|].
  split; [|apply abs_add; [exact Mv | now rewrite Rabs_Ropp]].
  replace (rnd (v - w) - (r - s)) with ((v - r) + - (w - s) + (rnd (v - w) - (v - w))) by ring.
  apply abs_add; [apply abs_add; [exact Ev | now rewrite Rabs_Ropp]|]. apply rnd_cap. lra.
Qed.

Lemma ap_mul x y r s e f m n : ap x r e m -> ap y s f n -> (m + e) * (n + f) <= 2 ^ 70 ->
  ap (Bmult mode_NE x y) (r * s) (m * f + e * (n + f) + (u32 * ((m + e) * (n + f)) + tiny)) (m * n).
Proof.
  intros (v & Fv & Ev & Mv) (w & Fw & Ew & Mw) B.
  pose proof (ap_val _ _ _ _ _ Fw Ew Mw) as Aw.
  pose proof (abs_mul _ _ _ _ (ap_val _ _ _ _ _ Fv Ev Mv) Aw) as Z.
  exists (rnd (v * w)). split; [apply mul_fin; auto; apply big127; lra|]. split; [|now apply abs_mul].
  replace (rnd (v * w) - r * s) with (r * (w - s) + (v - r) * w + (rnd (v * w) - v * w)) by ring.
  apply abs_add; [|now apply rnd_cap]. apply abs_add; now apply abs_mul.
Qed.

Lemma ap_max x y r s e m n : ap x r e m -> ap y s e n -> ap (f32_max x y) (Rmax r s) e (Rmax m n).
Proof.
  intros (v & Fv & Ev & Mv) (w & Fw & Ew & Mw). exists (Rmax v w). split; [now apply max_fin|].
  apply Rabs_le_inv in Ev, Ew, Mv, Mw.
  pose proof (Rmax_l m n). pose proof (Rmax_r m n).
  split; apply Rabs_le; unfold Rmax in *; repeat destruct (Rle_dec _ _); lra.
Qed.

Lemma ap_min x y r s e m n : ap x r e m -> ap y s e n -> ap (f32_min x y) (Rmin r s) e (Rmax m n).
Proof.
  intros (v & Fv & Ev & Mv) (w & Fw & Ew & Mw). exists (Rmin v w). split; [now apply min_fin|].
  apply Rabs_le_inv in Ev, Ew, Mv, Mw.
  pose proof (Rmax_l m n). pose proof (Rmax_r m n).
  split; apply Rabs_le; unfold Rmin in *; repeat destruct (Rle_dec _ _); lra.
Qed.

(** The sign of a difference is exact. *)
Lemma sub_sign x y a b : fin x a -> fin y b -> Rabs (a - b) <= b32 127 ->
  exists d, fin (Bminus mode_NE x y) d /\ (0 < d <-> b < a).
Proof.
  intros Fx Fy B. exists (rnd (a - b)). split; [now apply sub_fin|].
  pose proof (sub_err a b (fin_rep _ _ Fx) (fin_rep _ _ Fy)) as E. apply Rabs_le_inv in E.
  assert (U : u32 = / 16777216) by reflexivity. rewrite U in E.
  unfold Rabs in E. destruct (Rcase_abs (a - b)); split; intros; lra.
Qed.

Section Overlap.
  Variable lm : libm.
  Hypothesis AC : accurate32 lm.
  Notation S32 := (F32 lm).
  Variable P : R.
  Hypothesis P1 : 1 <= P <= 2 ^ 60.

  Let T1 : 0 < tiny <= P / 16777216 / 1000.
  Proof. pose proof tiny_small as T. lra. Qed.

  (** Corner coordinates. *)
  Lemma corner_part (b : box (S := S32)) r : box32 P b r ->
    exists c s, fcos (Scalar := S32) (b_yaw b) = c /\ fsin (Scalar := S32) (b_yaw b) = s /\
      ap c (cos (ryaw r)) (2 * u32) 1 /\ ap s (sin (ryaw r)) (2 * u32) 1 /\
      (forall h z, (h = b_len b /\ z = rlen r) \/ (h = b_wid b /\ z = rwid r) ->
         ap (Bmult mode_NE (Bdiv mode_NE h (f2 (S := S32))) c) (z / 2 * cos (ryaw r)) (3 / 10 * (u32 * P)) (P / 16) /\
         ap (Bmult mode_NE (Bdiv mode_NE h (f2 (S := S32))) s) (z / 2 * sin (ryaw r)) (3 / 10 * (u32 * P)) (P / 16)).
  Proof.
    intros (Fx & Fy & Fl & Fw & Fa & Bx & By & Bl & Bw & Ba).
    destruct (proj1 AC _ _ Fa Ba) as (c & s & Fc & Fs & Bc & Bs & Ec & Es).
    exists (lm_cos lm (b_yaw b)), (lm_sin lm (b_yaw b)). split; [reflexivity|]. split; [reflexivity|].
    replace (/ 2 ^ 23) with (2 * u32) in * by (unfold u32; simpl; lra).
    assert (Ac : ap (lm_cos lm (b_yaw b)) (cos (ryaw r)) (2 * u32) 1).
    { exists c. split; [exact Fc|]. split; [exact Ec | apply Rabs_le, COS_bound]. }
    assert (As : ap (lm_sin lm (b_yaw b)) (sin (ryaw r)) (2 * u32) 1).
    { exists s. split; [exact Fs|]. split; [exact Es | apply Rabs_le, SIN_bound]. }
    split; [exact Ac|]. split; [exact As|].
    intros h z Hz.
    assert (Fh : fin h z /\ 0 <= z <= P / 8) by (destruct Hz as [(-> & ->)|(-> & ->)]; auto).
    destruct Fh as [Fh Bh].
    assert (Mh : Rabs (z / 2) <= P / 16) by (rewrite Rabs_pos_eq; lra).
    assert (Ah : ap (Bdiv mode_NE h (f2 (S := S32))) (z / 2) (u32 * P / 15) (P / 16)).
    { exists (rnd (z / 2)). split.
      - apply (div_fin _ _ _ _ Fh (f2_fin lm)); [lra|]. apply big127. lra.
      - split; [|exact Mh]. eapply Rle_trans; [apply (rnd_cap _ _ Mh)|]. unfold u32; lra. }
    assert (U : u32 = / 16777216) by reflexivity.
    split.
    - eapply ap_weaken; [apply (ap_mul _ _ _ _ _ _ _ _ Ah Ac)| |]; rewrite ?U; lra.
    - eapply ap_weaken; [apply (ap_mul _ _ _ _ _ _ _ _ Ah As)| |]; rewrite ?U; lra.
  Qed.

  (** Projections of the corners of [b] on a direction known up to 2 u. *)
  Lemma projected (b : box (S := S32)) r (n1 n2 : f32) (m1 m2 : R) : box32 P b r ->
    ap n1 m1 (2 * u32) 1 -> ap n2 m2 (2 * u32) 1 ->
    let l := map (fun p : vec (S := S32) => fadd (Scalar := S32) (fmul (Scalar := S32) (fst p) n1) (fmul (Scalar := S32) (snd p) n2))
               (corners_from_bbox b) in
    exists M N, fin (list_max (S := S32) l) M /\ fin (list_min (S := S32) l) N /\
      Rabs (M - (pc r m1 m2 + pr r m1 m2)) <= P / 2 ^ 20 /\ Rabs (N - (pc r m1 m2 - pr r m1 m2)) <= P / 2 ^ 20 /\
      Rabs M <= 2 ^ 65 /\ Rabs N <= 2 ^ 65.
  Proof.
    intros B A1 A2. destruct (corner_part b r B) as (c & s & Ec & Es & Ac & As & Hh).
    destruct B as (Fx & Fy & Fl & Fw & Fa & Bx & By & Bl & Bw & Ba).
    destruct (Hh _ _ (or_introl (conj eq_refl eq_refl))) as (LC & LS).
    destruct (Hh _ _ (or_intror (conj eq_refl eq_refl))) as (WC & WS). clear Hh.
    unfold corners_from_bbox. rewrite Ec, Es. cbn [map fst snd]. cbv zeta. cbn [map fst snd].
    pose proof (ap_exact _ _ _ Fx Bx) as X. pose proof (ap_exact _ _ _ Fy By) as Y.
    assert (U : u32 = / 16777216) by reflexivity.
    set (lc := Bmult mode_NE (Bdiv mode_NE (b_len b) (f2 (S := S32))) c) in *.
    set (ls := Bmult mode_NE (Bdiv mode_NE (b_len b) (f2 (S := S32))) s) in *.
    set (wc := Bmult mode_NE (Bdiv mode_NE (b_wid b) (f2 (S := S32))) c) in *.
    set (ws := Bmult mode_NE (Bdiv mode_NE (b_wid b) (f2 (S := S32))) s) in *.
    assert (Sum : forall x y r s, ap x r (3 / 10 * (u32 * P)) (P / 16) -> ap y s (3 / 10 * (u32 * P)) (P / 16) ->
              ap (Bplus mode_NE x y) (r + s) (3 / 4 * (u32 * P)) (P / 8) /\ ap (Bminus mode_NE x y) (r - s) (3 / 4 * (u32 * P)) (P / 8)).
    { intros x y r0 s0 Hx Hy. split.
      - eapply ap_weaken; [apply (ap_add _ _ _ _ _ _ _ _ Hx Hy)| |]; rewrite ?U; lra.
      - eapply ap_weaken; [apply (ap_sub _ _ _ _ _ _ _ _ Hx Hy)| |]; rewrite ?U; lra. }
    assert (Off : forall x o r q, ap x r (3 / 4 * (u32 * P)) (P / 8) -> ap o q 0 P ->
              ap (Bplus mode_NE x o) (r + q) (2 * (u32 * P)) (9 / 8 * P)).
    { intros x o r0 q Hx Ho. eapply ap_weaken; [apply (ap_add _ _ _ _ _ _ _ _ Hx Ho)| |]; rewrite ?U; lra. }
    assert (Prj : forall x y r q, ap x r (2 * (u32 * P)) (9 / 8 * P) -> ap y q (2 * (u32 * P)) (9 / 8 * P) ->
              ap (Bplus mode_NE (Bmult mode_NE x n1) (Bmult mode_NE y n2)) (r * m1 + q * m2) (P / 2 ^ 20) (9 / 4 * P)).
    { intros x y r0 q Hx Hy.
      assert (G : forall x n r m, ap x r (2 * (u32 * P)) (9 / 8 * P) -> ap n m (2 * u32) 1 ->
                ap (Bmult mode_NE x n) (r * m) (55 / 10 * (u32 * P)) (9 / 8 * P)).
      { intros x0 n r1 m Hx0 Hn. eapply ap_weaken; [apply (ap_mul _ _ _ _ _ _ _ _ Hx0 Hn)| |]; rewrite ?U; lra. }
      eapply ap_weaken; [apply (ap_add _ _ _ _ _ _ _ _ (G _ _ _ _ Hx A1) (G _ _ _ _ Hy A2))| |]; rewrite ?U; lra. }
    clear A1 A2 Ac As.
    pose proof (ap_opp _ _ _ _ LC) as NLC. pose proof (ap_opp _ _ _ _ LS) as NLS.
    pose proof (Prj _ _ _ _ (Off _ _ _ _ (proj1 (Sum _ _ _ _ LC WS)) X) (Off _ _ _ _ (proj2 (Sum _ _ _ _ LS WC)) Y)) as Q1.
    pose proof (Prj _ _ _ _ (Off _ _ _ _ (proj2 (Sum _ _ _ _ LC WS)) X) (Off _ _ _ _ (proj1 (Sum _ _ _ _ LS WC)) Y)) as Q2.
    pose proof (Prj _ _ _ _ (Off _ _ _ _ (proj2 (Sum _ _ _ _ NLC WS)) X) (Off _ _ _ _ (proj1 (Sum _ _ _ _ NLS WC)) Y)) as Q3.
    pose proof (Prj _ _ _ _ (Off _ _ _ _ (proj1 (Sum _ _ _ _ NLC WS)) X) (Off _ _ _ _ (proj2 (Sum _ _ _ _ NLS WC)) Y)) as Q4.
    set (m := pc r m1 m2).
    set (u := rlen r / 2 * (cos (ryaw r) * m1 + sin (ryaw r) * m2)).
    set (v := rwid r / 2 * (- sin (ryaw r) * m1 + cos (ryaw r) * m2)).
    match type of Q1 with ap _ ?t _ _ => replace t with (m + u - v) in Q1 by (unfold m, u, v, pc; ring) end.
    match type of Q2 with ap _ ?t _ _ => replace t with (m + u + v) in Q2 by (unfold m, u, v, pc; ring) end.
    match type of Q3 with ap _ ?t _ _ => replace t with (m - u + v) in Q3 by (unfold m, u, v, pc; ring) end.
    match type of Q4 with ap _ ?t _ _ => replace t with (m - u - v) in Q4 by (unfold m, u, v, pc; ring) end.
    pose proof (ap_max _ _ _ _ _ _ _ (ap_max _ _ _ _ _ _ _ (ap_max _ _ _ _ _ _ _ Q1 Q2) Q3) Q4) as (M & FM & EM & _).
    pose proof (ap_min _ _ _ _ _ _ _ (ap_min _ _ _ _ _ _ _ (ap_min _ _ _ _ _ _ _ Q1 Q2) Q3) Q4) as (N & FN & EN & _).
    rewrite max4 in EM. rewrite min4 in EN.
    assert (Hu : pr r m1 m2 = Rabs u + Rabs v) by reflexivity.
    exists M, N. split; [exact FM|]. split; [exact FN|].
    assert (EM' : Rabs (M - (m + pr r m1 m2)) <= P / 2 ^ 20).
    { rewrite Hu. replace (m + (Rabs u + Rabs v)) with (m + Rabs u + Rabs v) by ring. exact EM. }
    assert (EN' : Rabs (N - (m - pr r m1 m2)) <= P / 2 ^ 20).
    { rewrite Hu. replace (m - (Rabs u + Rabs v)) with (m - Rabs u - Rabs v) by ring. exact EN. }
    split; [exact EM'|]. split; [exact EN'|].
    (* a crude bound *)
    destruct Q1 as (_ & _ & _ & K1). destruct Q2 as (_ & _ & _ & K2). destruct Q3 as (_ & _ & _ & K3). destruct Q4 as (_ & _ & _ & K4).
    apply Rabs_le_inv in K1, K2, K3, K4, EM', EN'. rewrite Hu in EM', EN'.
    replace (P / 2 ^ 20) with (P / 1048576) in * by (simpl; lra).
    assert (P <= 1152921504606846976) by lra.
    split; apply Rabs_le; (replace (2 ^ 65) with 36893488147419103232 by (simpl; lra));
      unfold Rabs in *; destruct (Rcase_abs u), (Rcase_abs v); lra.
  Qed.

  (** One axis. *)
  Lemma axis32 (a b : box (S := S32)) ra rb (n1 n2 : f32) (m1 m2 : R) : box32 P a ra -> box32 P b rb ->
    ap n1 m1 (2 * u32) 1 -> ap n2 m2 (2 * u32) 1 ->
    let f := fun p : vec (S := S32) => fadd (Scalar := S32) (fmul (Scalar := S32) (fst p) n1) (fmul (Scalar := S32) (snd p) n2) in
    let E := P / 2 ^ 20 in
    (axis_overlap (S := S32) (map f (corners_from_bbox a)) (map f (corners_from_bbox b)) = true ->
       Rabs (pc ra m1 m2 - pc rb m1 m2) < pr ra m1 m2 + pr rb m1 m2 + 2 * E) /\
    (E < pr ra m1 m2 -> E < pr rb m1 m2 ->
       Rabs (pc ra m1 m2 - pc rb m1 m2) < pr ra m1 m2 + pr rb m1 m2 - 2 * E ->
       axis_overlap (S := S32) (map f (corners_from_bbox a)) (map f (corners_from_bbox b)) = true).
  Proof.
    intros Ha Hb A1 A2 f E.
    destruct (projected a ra n1 n2 m1 m2 Ha A1 A2) as (MA & NA & FMA & FNA & EMA & ENA & BMA & BNA).
    destruct (projected b rb n1 n2 m1 m2 Hb A1 A2) as (MB & NB & FMB & FNB & EMB & ENB & BMB & BNB).
    fold f in FMA, FNA, FMB, FNB. fold E in EMA, ENA, EMB, ENB.
    pose proof (min_fin _ _ _ _ FMA FMB) as Fm. pose proof (max_fin _ _ _ _ FNA FNB) as FM.
    assert (Bd : Rabs (Rmin MA MB - Rmax NA NB) <= 2 ^ 70).
    { apply Rabs_le_inv in BMA, BNA, BMB, BNB. apply Rabs_le.
      replace (2 ^ 65) with 36893488147419103232 in * by (simpl; lra).
      replace (2 ^ 70) with 1180591620717411303424 by (simpl; lra).
      unfold Rmin, Rmax. destruct (Rle_dec MA MB), (Rle_dec NA NB); lra. }
    destruct (sub_sign _ _ _ _ Fm FM (big127 _ Bd)) as (d & Fd & Sd).
    assert (Z0 : fin (f0 (S := S32)) 0).
    { split; [reflexivity|]. vm_compute. reflexivity. }
    unfold axis_overlap.
    change (fltb (Scalar := S32)) with (@Bltb f32_prec f32_emax).
    change (fsub (Scalar := S32)) with (@Bminus f32_prec f32_emax f32_prec_gt_0 f32_prec_lt_emax mode_NE).
    change (fmin (Scalar := S32)) with f32_min. change (fmax (Scalar := S32)) with f32_max.
    rewrite (ltb_fin _ _ _ _ Z0 Fd).
    apply Rabs_le_inv in EMA, ENA, EMB, ENB. fold (Rabs (pc ra m1 m2 - pc rb m1 m2)).
    split.
    - intros H. destruct (Rlt_bool_spec 0 d) as [G|]; [|discriminate]. apply Sd in G.
      apply Rabs_def1; unfold Rmin, Rmax in G; destruct (Rle_dec MA MB), (Rle_dec NA NB); lra.
    - intros G1 G2 G3. apply Rlt_bool_true, Sd. apply Rabs_def2 in G3.
      unfold Rmin, Rmax; destruct (Rle_dec MA MB), (Rle_dec NA NB); lra.
  Qed.

  Lemma pr_grown e r m1 m2 : 0 <= rlen r -> 0 <= rwid r -> 0 <= rlen r + 2 * e -> 0 <= rwid r + 2 * e -> m1 * m1 + m2 * m2 = 1 ->
    exists k, 1 <= k /\ pr (grown e r) m1 m2 = pr r m1 m2 + e * k.
  Proof.
    intros L W L' W' Hn. unfold pr, grown; cbn [rlen rwid ryaw].
    pose proof (cs1 (ryaw r)) as Q. set (C := cos (ryaw r)) in *. set (D := sin (ryaw r)) in *. clearbody C D.
    set (g := C * m1 + D * m2). set (h := - D * m1 + C * m2).
    assert (GH : g * g + h * h = 1).
    { unfold g, h. transitivity ((C * C + D * D) * (m1 * m1 + m2 * m2)); [ring|]. rewrite Q, Hn. ring. }
    exists (Rabs g + Rabs h). split.
    - pose proof (Rabs_pos g). pose proof (Rabs_pos h).
      assert (Rabs g * Rabs g + Rabs h * Rabs h = 1) by (rewrite <- !Rabs_mult, !Rabs_pos_eq by apply Rle_0_sqr; exact GH).
      nra.
    - rewrite !Rabs_mult, (Rabs_pos_eq ((rlen r + 2 * e) / 2)), (Rabs_pos_eq ((rwid r + 2 * e) / 2)),
        (Rabs_pos_eq (rlen r / 2)), (Rabs_pos_eq (rwid r / 2)) by lra. field.
  Qed.

  Lemma overlap_test32 (a b : box (S := S32)) ra rb : box32 P a ra -> box32 P b rb ->
    let E := P / 2 ^ 20 in
    (has_overlap (S := S32) a b = true -> share (grown E ra) (grown E rb)) /\
    (2 * E <= rlen ra -> 2 * E <= rwid ra -> 2 * E <= rlen rb -> 2 * E <= rwid rb ->
     share (grown (- E) ra) (grown (- E) rb) -> has_overlap (S := S32) a b = true).
  Proof.
    intros Ha Hb E. assert (E0 : 0 < E) by (unfold E; lra).
    destruct (corner_part a ra Ha) as (ca & sa & Eca & Esa & Aca & Asa & _).
    destruct (corner_part b rb Hb) as (cb & sb & Ecb & Esb & Acb & Asb & _).
    pose proof (cs1 (ryaw ra)) as Qa. pose proof (cs1 (ryaw rb)) as Qb.
    assert (Dims : 0 <= rlen ra /\ 0 <= rwid ra /\ 0 <= rlen rb /\ 0 <= rwid rb) by (unfold box32 in Ha, Hb; lra).
    pose proof (axis32 a b ra rb _ _ _ _ Ha Hb Aca Asa) as X1.
    pose proof (axis32 a b ra rb _ _ _ _ Ha Hb (ap_opp _ _ _ _ Asa) Aca) as X2.
    pose proof (axis32 b a rb ra _ _ _ _ Hb Ha Acb Asb) as X3.
    pose proof (axis32 b a rb ra _ _ _ _ Hb Ha (ap_opp _ _ _ _ Asb) Acb) as X4.
    cbv zeta in X1, X2, X3, X4. fold E in X1, X2, X3, X4.
    unfold has_overlap, overlap_a_over_b. rewrite Eca, Esa, Ecb, Esb. cbv zeta.
    change (fopp (Scalar := S32)) with (@Bopp f32_prec f32_emax). rewrite !andb_true_iff. split.
    - intros ((H1 & H2) & (H3 & H4)).
      apply (proj1 X1) in H1. apply (proj1 X2) in H2. apply (proj1 X3) in H3. apply (proj1 X4) in H4. clear X1 X2 X3 X4.
      apply overlap_exact, has_overlap_axes. unfold grown at 1 2 3 4 5 6 7 8. cbn [ryaw].
      assert (G : forall n1 n2, n1 * n1 + n2 * n2 = 1 -> Rabs (pc ra n1 n2 - pc rb n1 n2) < pr ra n1 n2 + pr rb n1 n2 + 2 * E ->
                0 < pr (grown E ra) n1 n2 /\ 0 < pr (grown E rb) n1 n2 /\
                Rabs (pc (grown E ra) n1 n2 - pc (grown E rb) n1 n2) < pr (grown E ra) n1 n2 + pr (grown E rb) n1 n2).
      { intros n1 n2 Hn Hax.
        destruct (pr_grown E ra n1 n2) as (k & K & ->); try lra. destruct (pr_grown E rb n1 n2) as (k' & K' & ->); try lra.
        assert (0 <= pr ra n1 n2) by (unfold pr; apply Rplus_le_le_0_compat; apply Rabs_pos).
        assert (0 <= pr rb n1 n2) by (unfold pr; apply Rplus_le_le_0_compat; apply Rabs_pos).
        assert (E * 1 <= E * k) by (apply Rmult_le_compat_l; lra). assert (E * 1 <= E * k') by (apply Rmult_le_compat_l; lra).
        unfold pc, grown in *; cbn [rx ry]. lra. }
      intros n1 n2 [(-> & ->)|[(-> & ->)|[(-> & ->)|(-> & ->)]]]; apply G; try lra; rewrite Rabs_minus_sym; lra.
    - intros L1 L2 L3 L4 Sh. apply overlap_exact in Sh. rewrite has_overlap_axes in Sh.
      unfold grown at 1 2 3 4 5 6 7 8 in Sh. cbn [ryaw] in Sh.
      assert (G : forall n1 n2, n1 * n1 + n2 * n2 = 1 ->
                0 < pr (grown (- E) ra) n1 n2 /\ 0 < pr (grown (- E) rb) n1 n2 /\
                Rabs (pc (grown (- E) ra) n1 n2 - pc (grown (- E) rb) n1 n2) < pr (grown (- E) ra) n1 n2 + pr (grown (- E) rb) n1 n2 ->
                E < pr ra n1 n2 /\ E < pr rb n1 n2 /\ Rabs (pc ra n1 n2 - pc rb n1 n2) < pr ra n1 n2 + pr rb n1 n2 - 2 * E).
      { intros n1 n2 Hn.
        destruct (pr_grown (- E) ra n1 n2) as (k & K & ->); try lra. destruct (pr_grown (- E) rb n1 n2) as (k' & K' & ->); try lra.
        assert (E * 1 <= E * k) by (apply Rmult_le_compat_l; lra). assert (E * 1 <= E * k') by (apply Rmult_le_compat_l; lra).
        unfold pc, grown; cbn [rx ry]. lra. }
      destruct (G _ _ Qa (Sh _ _ (or_introl (conj eq_refl eq_refl)))) as (A1 & B1 & C1).
      destruct (G (- sin (ryaw ra)) (cos (ryaw ra)) ltac:(lra) (Sh _ _ (or_intror (or_introl (conj eq_refl eq_refl))))) as (A2 & B2 & C2).
      destruct (G _ _ Qb (Sh _ _ (or_intror (or_intror (or_introl (conj eq_refl eq_refl)))))) as (A3 & B3 & C3).
      destruct (G (- sin (ryaw rb)) (cos (ryaw rb)) ltac:(lra) (Sh _ _ (or_intror (or_intror (or_intror (conj eq_refl eq_refl)))))) as (A4 & B4 & C4).
      rewrite Rabs_minus_sym in C3, C4. rewrite Rplus_comm in C3, C4.
      split; split; [apply (proj2 X1) | apply (proj2 X2) | apply (proj2 X3) | apply (proj2 X4)]; auto;
        rewrite Rabs_minus_sym; lra.
  Qed.
End Overlap.

(** Log divergence. *)
Lemma divergence32 lm (p l : pt (S := F32 lm)) x y x' y' B :
  fin (p_x p) x -> fin (p_y p) y -> fin (p_x l) x' -> fin (p_y l) y' -> 1 <= B <= 2 ^ 40 -> GeomSpec.dist (x, y) (x', y') <= B ->
  exists d, fin (Metrics.log_divergence p l) d /\ 0 <= d /\ Rabs (d - GeomSpec.dist (x, y) (x', y')) <= B / 2 ^ 21.
Proof.
  intros X Y X' Y' HB. change (GeomSpec.dist (x, y) (x', y')) with (len (x - x') (y - y')). intros HL.
  assert (U : u32 = / 16777216) by reflexivity.
  pose proof (len_fst (x - x') (y - y')) as L1. pose proof (len_snd (x - x') (y - y')) as L2.
  assert (Fx : fin (fsub (Scalar := F32 lm) (p_x p) (p_x l)) (rnd (x - x'))) by (apply sub_fin; auto; apply big127; lra).
  assert (Fy : fin (fsub (Scalar := F32 lm) (p_y p) (p_y l)) (rnd (y - y'))) by (apply sub_fin; auto; apply big127; lra).
  pose proof (sub_err x x' (fin_rep _ _ X) (fin_rep _ _ X')) as E1.
  pose proof (sub_err y y' (fin_rep _ _ Y) (fin_rep _ _ Y')) as E2.
  pose proof (len_triangle (x - x') (y - y') (rnd (x - x')) (rnd (y - y'))) as T.
  assert (T' : Rabs (len (rnd (x - x')) (rnd (y - y')) - len (x - x') (y - y')) <= 2 * u32 * B) by (rewrite U in *; lra).
  pose proof (Rabs_le_inv _ _ T') as T2.
  destruct (vel_norm_fin lm _ _ _ _ (1001 / 1000 * B) Fx Fy ltac:(lra) ltac:(rewrite U in *; lra)) as (d & Fd & Pd & Ed).
  exists d. split; [exact Fd|]. split; [exact Pd|].
  replace (d - len (x - x') (y - y')) with ((d - len (rnd (x - x')) (rnd (y - y'))) + (len (rnd (x - x')) (rnd (y - y')) - len (x - x') (y - y'))) by ring.
  eapply Rle_trans; [apply (abs_add _ _ _ _ Ed T')|]. rewrite U. lra.
Qed.
