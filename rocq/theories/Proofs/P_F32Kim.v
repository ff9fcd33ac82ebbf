(** In float32, motion produced by the bicycle model is not reported as
    infeasible. *)
From Coq Require Import List ZArith Reals Lra Lia Bool.
From Flocq Require Import Core.Raux IEEE754.BinarySingleNaN.
From Verif.Lib Require Import Base JaxIndex Scalar F32.
From Verif.Model Require Import Operations State Dynamics BaseEnv Geometry Dyn_State Dyn_Delta Dyn_Bicycle Comfort.
From Verif.Spec Require Import StateSpec DynSpec F32Spec F32EpisodeSpec.
From Verif.Proofs Require Import Core Episode P_Step P_Actions P_Delta P_F32 P_F32Wrap P_F32Delta P_F32Bicycle P_F32Angles P_F32Disc P_Expert P_Config P_F32Episode.
Import ListNotations.
Open Scope R_scope.

(** The rounded distance travelled, [s d + 1/2 a d^2]. *)
Definition dist32 (d s a : R) : R := rnd (rnd (s * d) + rnd (rnd (1 / 2 * a) * rnd (d * d))).

Section Real.
  Variable d : R.
  Hypothesis Dd : Rabs (d - 1 / 10) <= / 100000000.

  Lemma d_range : 999999 / 10000000 <= d <= 1000001 / 10000000.
  Proof. apply Rabs_le_inv in Dd. lra. Qed.

  Lemma dd_range : 99 / 10000 <= d * d <= 101 / 10000.
  Proof. pose proof d_range. split; nra. Qed.

  Lemma dist32_near s a : 0 <= s <= 1003 -> Rabs a <= 7 ->
    Rabs (dist32 d s a - (s * d + 1 / 2 * a * (d * d))) <= u32 * (s + 1).
  Proof.
    intros Hs Ha. pose proof d_range as D0. pose proof dd_range as D2. pose proof tiny_small as TS.
    assert (U : u32 = / 16777216) by reflexivity.
    assert (T1 : tiny <= u32 / 1000) by (rewrite U; simpl in TS; lra).
    unfold dist32.
    assert (SD : 0 <= s * d <= 101 / 1000 * s) by nra.
    assert (E1 := rnd_cap (s * d) (101 / 1000 * s) ltac:(rewrite Rabs_pos_eq; lra)).
    assert (Ma : Rabs (1 / 2 * a) <= 7 / 2) by (pose proof (abs_mul (1 / 2) a (1 / 2) 7 ltac:(rewrite Rabs_pos_eq; lra) Ha); lra).
    assert (E2 := rnd_cap _ _ Ma).
    assert (E3 := rnd_cap (d * d) (101 / 10000) ltac:(rewrite Rabs_pos_eq; lra)).
    set (h := rnd (1 / 2 * a)) in *. set (q := rnd (d * d)) in *.
    assert (Bh : Rabs h <= 36 / 10).
    { replace h with (1 / 2 * a + (h - 1 / 2 * a)) by ring. pose proof (abs_add _ _ _ _ Ma E2). rewrite U in *. lra. }
    assert (E4 : Rabs (h * q - 1 / 2 * a * (d * d)) <= 8 / 100 * u32).
    { replace (h * q - 1 / 2 * a * (d * d)) with (h * (q - d * d) + (h - 1 / 2 * a) * (d * d)) by ring.
      pose proof (abs_add _ _ _ _ (abs_mul _ _ _ _ Bh E3)
        (abs_mul _ (d * d) _ (101 / 10000) E2 ltac:(rewrite Rabs_pos_eq; lra))) as Z.
      eapply Rle_trans; [exact Z|]. lra. }
    assert (Bq : Rabs (h * q) <= 4 / 100).
    { assert (Rabs (1 / 2 * a * (d * d)) <= 7 / 2 * (101 / 10000)) by (apply abs_mul; [exact Ma | rewrite Rabs_pos_eq; lra]).
      replace (h * q) with (1 / 2 * a * (d * d) + (h * q - 1 / 2 * a * (d * d))) by ring.
      pose proof (abs_add _ _ _ _ H E4). rewrite U in *. lra. }
    assert (E5 := rnd_cap _ _ Bq).
    set (m := rnd (s * d)) in *. set (g := rnd (h * q)) in *.
    assert (Bs : Rabs (m + g) <= 102 / 1000 * s + 5 / 100).
    { apply Rabs_le_inv in E1, E5, Bq. apply Rabs_le. rewrite U in *. lra. }
    assert (E6 := rnd_cap _ _ Bs).
    apply Rabs_le_inv in E1, E4, E5, E6. apply Rabs_le. lra.
  Qed.

  (** The distance inferred from the two speeds against the one travelled. *)
  Lemma distances s0 s1 ac ai :
    599 / 1000 <= s0 <= 1002 -> 599 / 1000 <= s1 -> Rabs ac <= 6 -> Rabs ai <= 7 ->
    Rabs (ai * d - (s1 - s0)) <= 3 * u32 -> Rabs (s1 - s0 - ac * d) <= u32 * (13 * s0 + 21) ->
    597 / 10000 <= dist32 d s0 ai /\ Rabs (dist32 d s0 ac) <= (1 + 1 / 100000) * dist32 d s0 ai.
  Proof.
    intros H0 H1 Ba Bi Ei Es. pose proof d_range as D0. assert (U : u32 = / 16777216) by reflexivity.
    assert (N1 := dist32_near s0 ac ltac:(lra) ltac:(lra)).
    assert (N2 := dist32_near s0 ai ltac:(lra) Bi).
    set (D := dist32 d s0 ac) in *. set (D' := dist32 d s0 ai) in *.
    assert (Df : Rabs (ai * d - ac * d) <= u32 * (13 * s0 + 24)).
    { replace (ai * d - ac * d) with ((ai * d - (s1 - s0)) + (s1 - s0 - ac * d)) by ring.
      pose proof (abs_add _ _ _ _ Ei Es). lra. }
    assert (Dh : Rabs (1 / 2 * ai * (d * d) - 1 / 2 * ac * (d * d)) <= u32 * (13 * s0 + 24) * (51 / 1000)).
    { replace (1 / 2 * ai * (d * d) - 1 / 2 * ac * (d * d)) with ((ai * d - ac * d) * (1 / 2 * d)) by ring.
      apply abs_mul; [exact Df | rewrite Rabs_pos_eq; lra]. }
    assert (Low : 499 / 10000 * s0 + 299 / 10000 <= D').
    { assert (P : 1 / 2 * ai * (d * d) = (ai * d) * (1 / 2 * d)) by ring.
      apply Rabs_le_inv in N2, Ei.
      assert (Q : (s1 - s0 - 3 * u32) * (1 / 2 * d) <= (ai * d) * (1 / 2 * d)) by (apply Rmult_le_compat_r; lra).
      assert (Q' : s0 * d + (s1 - s0 - 3 * u32) * (1 / 2 * d) = (s0 + s1 - 3 * u32) * (1 / 2 * d)) by field.
      assert (Q2 : (s0 + s1 - 3 * u32) * (499999 / 10000000) <= (s0 + s1 - 3 * u32) * (1 / 2 * d)).
      { apply Rmult_le_compat_l; [rewrite U; lra | lra]. }
      rewrite U in *. lra. }
    split; [lra|].
    assert (Cl : Rabs (D - D') <= 1 / 100000 * D').
    { apply Rabs_le_inv in N1, N2, Dh. apply Rabs_le. rewrite U in *. lra. }
    apply Rabs_le_inv in Cl. apply Rabs_le. lra.
  Qed.
End Real.

Lemma lit_fin lm n (p : positive) : (Z.abs n <= 2 ^ 24)%Z -> (Zpos p <= 2 ^ 24)%Z ->
  fin (flit (Scalar := F32 lm) n p) (rnd (IZR n / IZR (Zpos p))).
Proof.
  intros Hn Hp. cbn -[f32_ofZ].
  assert (P1 : 1 <= IZR (Zpos p)) by (apply IZR_le; lia).
  apply div_fin; [now apply ofZ_fin | apply ofZ_fin; lia | lra |].
  apply cap127. unfold Rdiv. rewrite Rabs_mult, <- abs_IZR, (Rabs_pos_eq (/ _)) by (left; apply Rinv_0_lt_compat; lra).
  assert (/ IZR (Zpos p) <= 1). { rewrite <- Rinv_1. apply Rinv_le_contravar; lra. }
  assert (0 < / IZR (Zpos p)) by (apply Rinv_0_lt_compat; lra).
  apply IZR_le in Hn. change (IZR (2 ^ 24)) with 16777216 in Hn.
  assert (0 <= IZR (Z.abs n)) by (apply IZR_le; lia).
  apply Rle_trans with (16777216 * 1); [apply Rmult_le_compat; lra | simpl; lra].
Qed.

Lemma lit_near lm n (p : positive) b : (Z.abs n <= 2 ^ 24)%Z -> (Zpos p <= 2 ^ 24)%Z -> Rabs (IZR n / IZR (Zpos p)) <= b ->
  exists r, fin (flit (Scalar := F32 lm) n p) r /\ Rabs (r - IZR n / IZR (Zpos p)) <= u32 * b + tiny.
Proof.
  intros Hn Hp Hb. eexists. split; [now apply lit_fin|]. now apply rnd_cap.
Qed.

Section Core.
  Variable lm : libm.
  Hypothesis AC : accurate32 lm.
  Notation S32 := (F32 lm).
  Variable q : bicycle_params (S := S32).
  Variables d A St : R.
  Hypothesis Hd : fin (bc_dt q) d.
  Hypothesis HA : fin (bc_max_accel q) A.
  Hypothesis HS : fin (bc_max_steering q) St.
  Hypothesis Dd : Rabs (d - 1 / 10) <= / 100000000.
  Hypothesis A1 : 0 <= A <= 6.
  Hypothesis S1 : 0 <= St <= 3001 / 10000.

  Lemma dist_fin (s a : f32) rs ra : fin s rs -> fin a ra -> 0 <= rs <= 1003 -> Rabs ra <= 7 ->
    fin (fadd (Scalar := S32) (fmul (Scalar := S32) s (bc_dt q))
           (fmul (Scalar := S32) (fmul (Scalar := S32) fhalf a) (fsq (S := S32) (bc_dt q)))) (dist32 d rs ra) /\
    Rabs (dist32 d rs ra) <= 102.
  Proof.
    intros Fs Fa Bs Ba. pose proof (d_range d Dd) as D0. pose proof (dd_range d Dd) as D2.
    pose proof (dist32_near d Dd rs ra Bs Ba) as N. assert (U : u32 = / 16777216) by reflexivity.
    assert (Big : forall r, Rabs r <= 2 ^ 10 -> Rabs r <= b32 127).
    { intros r H. apply cap127. eapply Rle_trans; [exact H|]. apply Rle_pow; [lra|lia]. }
    assert (K10 : (2:R) ^ 10 = 1024) by (simpl; lra).
    assert (M1 : Rabs (rs * d) <= 1003 * (101 / 1000)) by (apply abs_mul; rewrite Rabs_pos_eq; lra).
    assert (M1' : Rabs (rs * d) <= 2 ^ 7) by (simpl; lra).
    assert (F1 := mul_fin _ _ _ _ Fs Hd ltac:(apply Big; lra)).
    assert (M2 : Rabs (1 / 2 * ra) <= 2 ^ 2).
    { assert (Q : Rabs (1 / 2 * ra) <= 1 / 2 * 7) by (apply abs_mul; [rewrite Rabs_pos_eq; lra | exact Ba]). simpl. lra. }
    assert (F2 := mul_fin _ _ _ _ (half_fin lm) Fa ltac:(apply Big; lra)).
    assert (M3 : Rabs (d * d) <= 2 ^ 0) by (rewrite Rabs_pos_eq; simpl; lra).
    assert (F3 := mul_fin _ _ _ _ Hd Hd ltac:(apply Big; lra)).
    apply (rnd_pow _ 2) in M2. apply (rnd_pow _ 0) in M3. apply (rnd_pow _ 7) in M1'.
    assert (M4 := abs_mul _ _ _ _ M2 M3). rewrite <- pow_add in M4. change (2 + 0)%nat with 2%nat in M4.
    assert (F4 := mul_fin _ _ _ _ F2 F3 ltac:(apply Big; lra)).
    apply (rnd_pow _ 2) in M4.
    assert (M5 := abs_add _ _ _ _ M1' M4).
    split; [exact (add_fin _ _ _ _ F1 F4 ltac:(apply Big; lra))|].
    assert (Rabs (rs * d + 1 / 2 * ra * (d * d)) <= 1003 * (1000001 / 10000000) + 1 / 2 * 7 * (101 / 10000)).
    { apply abs_add; [apply abs_mul; rewrite Rabs_pos_eq; lra|].
      apply abs_mul; [|rewrite Rabs_pos_eq; lra]. apply abs_mul; [rewrite Rabs_pos_eq; lra | exact Ba]. }
    replace (dist32 d rs ra) with ((rs * d + 1 / 2 * ra * (d * d)) + (dist32 d rs ra - (rs * d + 1 / 2 * ra * (d * d)))) by ring.
    pose proof (abs_add _ _ _ _ H N). rewrite U in *. lra.
  Qed.

  (** The action inferred from a frame and the frame the bicycle model puts after
      it: both components finite, the acceleration at most 7, the steering at most
      0.3009. *)
  Lemma inferred32 (a : act (S := S32)) (p p1 : pt (S := S32)) u y0 vx vy :
    not_nan2 a -> fin (p_yaw p) y0 -> fin (p_vx p) vx -> fin (p_vy p) vy ->
    Rabs y0 <= 4 -> len vx vy <= 1000 -> bicycle_update q a p = Ok u ->
    p_yaw p1 = u_yaw u -> p_vx p1 = u_vx u -> p_vy p1 = u_vy u ->
    let '(ai, si, _) := bicycle_inverse1 (bc_dt q) true p p1 in
    exists ra rs, fin ai ra /\ fin si rs /\ Rabs ra <= 7 /\ Rabs rs <= 3009 / 10000.
  Proof.
    intros (da & ds & rest & Ed & Na & Ns) Fy Fvx Fvy By BV Eu Eyaw Evx Evy.
    assert (U : u32 = / 16777216) by reflexivity. pose proof tiny_small as TS.
    assert (T1 : tiny <= u32 / 1000) by (rewrite U; simpl in TS; lra).
    pose proof (d_range d Dd) as D0. pose proof (dd_range d Dd) as D2. pose proof pi32_val as PV. pose proof pi32_near as PN.
    assert (Big : forall r, Rabs r <= 2000 -> Rabs r <= b32 127).
    { intros r H. apply cap127. eapply Rle_trans; [exact H|]. simpl. lra. }
    assert (Hi : forall T (x y : T), Ok x = Ok y -> x = y) by (intros T x y HE; now inversion HE).
    (* the update *)
    unfold bicycle_update in Eu. rewrite Ed in Eu.
    assert (K := controls lm q A St HA HS (proj1 A1) ltac:(simpl; lra) da ds Na Ns ltac:(simpl; lra)).
    destruct (bicycle_clip q da ds) as [a0 st0]. destruct K as (ac & st & Fa & Fs & Ba & Bs).
    cbv zeta in Eu.
    set (accel := if bc_normalize q then fmul (Scalar := S32) a0 (bc_max_accel q) else a0) in *.
    set (steer := if bc_normalize q then fmul (Scalar := S32) st0 (bc_max_steering q) else st0) in *.
    set (h := len vx vy) in *. assert (h0 : 0 <= h) by apply len_pos.
    destruct (vel_norm_fin lm _ _ _ _ (h + 1) Fvx Fvy ltac:(simpl; lra) ltac:(fold h; lra)) as (s0 & Fs0 & P0 & E0).
    fold h in E0.
    set (sp := vel_norm (S := S32) (p_vx p) (p_vy p)) in *.
    assert (B0 : 0 <= s0 <= 1002) by (apply Rabs_le_inv in E0; rewrite U in *; lra).
    destruct (dist_fin sp accel s0 ac Fs0 Fa ltac:(lra) ltac:(lra)) as [FD BD].
    set (D := dist32 d s0 ac) in *.
    assert (Mdl : Rabs (st * D) <= 3001 / 10000 * 102) by (apply abs_mul; lra).
    assert (Fdl := mul_fin _ _ _ _ Fs FD ltac:(apply Big; lra)).
    set (dl := rnd (st * D)) in *.
    assert (Bdl : Rabs dl <= 31).
    { apply rnd_abs; [apply (rep_IZR 31); simpl; lia | lra]. }
    assert (Mz : Rabs (y0 + dl) <= 4 + 31) by (apply abs_add; lra).
    assert (Fz := add_fin _ _ _ _ Fy Fdl ltac:(apply Big; lra)).
    destruct (wrap_near lm _ _ Fz) as (k2 & w & Fw & Rw & Ew).
    destruct (proj1 AC _ _ Fw ltac:(apply Rabs_le; lra)) as (c & s & Fc & Fsn & Bc & Bsn & Ec & Es).
    assert (Mad : Rabs (ac * d) <= 6 * (1000001 / 10000000)).
    { apply abs_mul; [lra | rewrite Rabs_pos_eq; lra]. }
    assert (Fad := mul_fin _ _ _ _ Fa Hd ltac:(apply Big; lra)).
    assert (Ead := rnd_cap _ _ Mad).
    set (ad := rnd (ac * d)) in *.
    assert (Bad : Rabs ad <= 61 / 100).
    { replace ad with (ac * d + (ad - ac * d)) by ring. pose proof (abs_add _ _ _ _ Mad Ead). rewrite U in *. lra. }
    assert (Mv : Rabs (s0 + ad) <= s0 + 61 / 100) by (apply abs_add; [rewrite Rabs_pos_eq; lra | exact Bad]).
    assert (Fv := add_fin _ _ _ _ Fs0 Fad ltac:(apply Big; lra)).
    assert (Ev := rnd_cap _ _ Mv).
    set (V := rnd (s0 + ad)) in *.
    assert (EV : Rabs (V - (s0 + ac * d)) <= u32 * (s0 + 3)).
    { replace (V - (s0 + ac * d)) with ((V - (s0 + ad)) + (ad - ac * d)) by ring.
      pose proof (abs_add _ _ _ _ Ev Ead). lra. }
    assert (BVv : Rabs V <= 1004).
    { replace V with ((s0 + ad) + (V - (s0 + ad))) by ring. pose proof (abs_add _ _ _ _ Mv Ev). rewrite U in *. lra. }
    assert (RV : rep V) by apply rnd_rep.
    assert (Mx : Rabs (V * c) <= Rabs V) by (pose proof (abs_mul V c (Rabs V) 1 ltac:(lra) Bc); lra).
    assert (My : Rabs (V * s) <= Rabs V) by (pose proof (abs_mul V s (Rabs V) 1 ltac:(lra) Bsn); lra).
    assert (Fx1 := mul_fin _ _ _ _ Fv Fc ltac:(apply Big; lra)).
    assert (Fy1 := mul_fin _ _ _ _ Fv Fsn ltac:(apply Big; lra)).
    apply Hi in Eu. rewrite <- Eu in Eyaw, Evx, Evy. cbn [u_yaw u_vx u_vy] in Eyaw, Evx, Evy. clear Eu u.
    assert (Fnw : fin (p_yaw p1) w) by (rewrite Eyaw; exact Fw).
    assert (Gx : fin (p_vx p1) (rnd (V * c))) by (rewrite Evx; exact Fx1).
    assert (Gy : fin (p_vy p1) (rnd (V * s))) by (rewrite Evy; exact Fy1).
    set (r := len (rnd (V * c)) (rnd (V * s))) in *.
    assert (r0 : 0 <= r) by apply len_pos.
    assert (rV : r <= 2 * Rabs V).
    { pose proof (len_triangle 0 0 (rnd (V * c)) (rnd (V * s))) as T. fold r in T. rewrite !Rminus_0_r in T.
      assert (Z0 : len 0 0 = 0) by (unfold len; replace (0 * 0 + 0 * 0) with 0 by ring; apply sqrt_0).
      rewrite Z0 in T. apply Rabs_le_inv in T.
      assert (Rep : rep (Rabs V)) by (unfold Rabs; destruct (Rcase_abs V); auto using rep_opp).
      pose proof (rnd_abs _ _ Rep Mx). pose proof (rnd_abs _ _ Rep My). lra. }
    destruct (vel_norm_fin lm _ _ _ _ (r + 1) Gx Gy ltac:(simpl; lra) ltac:(fold r; lra)) as (s1 & Fs1 & P1 & E1).
    fold r in E1.
    (* the change of speed *)
    assert (Trig : Rabs (c * c + s * s - 1) <= / 2 ^ 20).
    { pose proof (sin2_cos2 w) as E. unfold Rsqr in E.
      replace (c * c + s * s - 1) with ((c - cos w) * (c + cos w) + (s - sin w) * (s + sin w)) by lra.
      assert (K1 : Rabs (c + cos w) <= 1 + 1) by (apply abs_add; [exact Bc | apply Rabs_le, COS_bound]).
      assert (K2 : Rabs (s + sin w) <= 1 + 1) by (apply abs_add; [exact Bsn | apply Rabs_le, SIN_bound]).
      pose proof (abs_add _ _ _ _ (abs_mul _ _ _ _ Ec K1) (abs_mul _ _ _ _ Es K2)) as Z.
      eapply Rle_trans; [exact Z|]. simpl. lra. }
    destruct (velocity32 lm q d A Hd ltac:(lra) (proj1 A1) sp accel _ _ h s0 ac c s (h + 1) Fs0 Fa Fc Fsn h0
                ltac:(lra) Ba Bc Bsn Trig ltac:(simpl; lra)) as (x' & y' & Fx' & Fy' & El).
    { assert (A * d <= 6 * (1000001 / 10000000)) by (apply Rmult_le_compat; lra). lra. }
    rewrite (fin_fun _ _ _ Fx' Fx1), (fin_fun _ _ _ Fy' Fy1) in El. fold r in El. clear x' y' Fx' Fy'.
    assert (El' : Rabs (r - h) <= 61 / 100).
    { eapply Rle_trans; [exact El|]. assert (A * d <= 6 * (1000001 / 10000000)) by (apply Rmult_le_compat; lra). simpl. lra. }
    assert (Ds : Rabs (s1 - s0) <= 62 / 100).
    { apply Rabs_le_inv in El', E0, E1. apply Rabs_le. rewrite U in *. lra. }
    assert (Fds := sub_fin _ _ _ _ Fs1 Fs0 ltac:(apply Big; lra)).
    assert (Eds := rnd_cap _ _ Ds).
    set (ds' := rnd (s1 - s0)) in *.
    assert (Bds : Rabs ds' <= 63 / 100).
    { replace ds' with ((s1 - s0) + (ds' - (s1 - s0))) by ring. pose proof (abs_add _ _ _ _ Ds Eds). rewrite U in *. lra. }
    assert (Mai : Rabs (ds' / d) <= 65 / 10).
    { unfold Rdiv. assert (0 < / d <= 10001 / 1000).
      { split; [apply Rinv_0_lt_compat; lra|]. replace (10001 / 1000) with (/ (1000 / 10001)) by lra.
        apply Rinv_le_contravar; lra. }
      pose proof (abs_mul ds' (/ d) _ (10001 / 1000) Bds ltac:(rewrite Rabs_pos_eq; lra)). lra. }
    assert (Fai := div_fin _ _ _ _ Fds Hd ltac:(lra) ltac:(apply Big; lra)).
    assert (Eai := rnd_cap _ _ Mai).
    set (ai := rnd (ds' / d)) in *.
    assert (Bai : Rabs ai <= 7).
    { replace ai with (ds' / d + (ai - ds' / d)) by ring. pose proof (abs_add _ _ _ _ Mai Eai). rewrite U in *. lra. }
    assert (Eaid : Rabs (ai * d - (s1 - s0)) <= 3 * u32).
    { replace (ai * d - (s1 - s0)) with ((ai - ds' / d) * d + (ds' - (s1 - s0))) by (field; lra).
      pose proof (abs_add _ _ _ _ (abs_mul _ d _ (1000001 / 10000000) Eai ltac:(rewrite Rabs_pos_eq; lra)) Eds).
      rewrite U in *. lra. }
    (* the inference *)
    unfold bicycle_inverse1. cbv zeta.
    set (sp1 := vel_norm (S := S32) (p_vx p1) (p_vy p1)) in *. fold sp.
    set (valid := p_valid p && p_valid p1).
    assert (Z0 : fin (f0 (S := S32)) 0) by (apply P_F32Disc.zero32_fin).
    assert (FaiV : fin (where_ valid (fdiv (Scalar := S32) (fsub (Scalar := S32) sp1 sp) (bc_dt q)) f0) (if valid then ai else 0)).
    { destruct valid; [exact Fai | exact Z0]. }
    destruct (lit_near lm 6 10 1 ltac:(simpl; lia) ltac:(simpl; lia) ltac:(rewrite Rabs_pos_eq; simpl; lra)) as (lim & Flim & Elim).
    fold (speed_limit (S := S32)) in Flim. apply Rabs_le_inv in Elim.
    assert (Blim : 5999 / 10000 <= lim <= 6001 / 10000) by (simpl in Elim; rewrite U in *; lra).
    exists (if valid then ai else 0).
    cut (exists rs, fin (where_ (fltb (Scalar := S32) (fabs sp1) speed_limit) f0
        (where_ (fltb (Scalar := S32) (fabs sp) speed_limit) f0
          (fdiv (Scalar := S32) (wrap_yaws (S := S32) (fsub (Scalar := S32)
              (where_ (fleb (Scalar := S32) (fabs sp1) speed_limit) (wrap_yaws (S := S32) (p_yaw p1))
                 (fatan2 (Scalar := S32) (p_vy p1) (p_vx p1))) (wrap_yaws (S := S32) (p_yaw p))))
            (fadd (Scalar := S32) (fmul (Scalar := S32) sp (bc_dt q))
               (fmul (Scalar := S32) (fmul (Scalar := S32) fhalf (fdiv (Scalar := S32) (fsub (Scalar := S32) sp1 sp) (bc_dt q)))
                  (fsq (S := S32) (bc_dt q))))))) rs /\ Rabs rs <= 3009 / 10000).
    { intros (rs & Frs & Brs). exists (if valid then rs else 0). split; [exact FaiV|]. split.
      { destruct valid; [exact Frs | exact Z0]. }
      destruct valid; rewrite ?Rabs_R0; lra. }
    assert (L1 : fltb (Scalar := S32) (fabs sp1) speed_limit = Rlt_bool (Rabs s1) lim) by (apply ltb_fin; [now apply abs_fin | exact Flim]).
    assert (L0 : fltb (Scalar := S32) (fabs sp) speed_limit = Rlt_bool (Rabs s0) lim) by (apply ltb_fin; [now apply abs_fin | exact Flim]).
    rewrite L1, L0. rewrite !Rabs_pos_eq by assumption.
    destruct (Rlt_bool_spec s1 lim) as [G1|G1]; [exists 0; split; [exact Z0 | rewrite Rabs_R0; lra]|].
    destruct (Rlt_bool_spec s0 lim) as [G0|G0]; [exists 0; split; [exact Z0 | rewrite Rabs_R0; lra]|].
    cbn [where_].
    (* the vehicle moves forward *)
    assert (V4 : 1 / 4 <= V).
    { assert (5 / 10 <= r) by (apply Rabs_le_inv in E1; rewrite U in *; lra).
      assert (- (1 / 100) <= V) by (apply Rabs_le_inv in EV, Mad; rewrite U in *; lra).
      unfold Rabs in rV. destruct (Rcase_abs V); lra. }
    assert (Sq : 0 < rnd (V * c) * rnd (V * c) + rnd (V * s) * rnd (V * s)).
    { rewrite <- len_sq. fold r. assert (5 / 10 <= r) by (apply Rabs_le_inv in E1; rewrite U in *; lra). apply Rmult_lt_0_compat; lra. }
    destruct (proj2 AC _ _ _ _ Gy Gx Sq) as (at2v & th & Fat & Eat & Rth & Px & Py).
    fold (len (rnd (V * c)) (rnd (V * s))) in Px, Py.
    destruct (direction V c s w th V4 Ec Es Bc Bsn Px Py) as [Er (j & Ej)]. fold r in Er.
    (* the heading used by the inference *)
    set (rho32 := where_ (fleb (Scalar := S32) (fabs sp1) speed_limit) (wrap_yaws (S := S32) (p_yaw p1))
                    (fatan2 (Scalar := S32) (p_vy p1) (p_vx p1))).
    assert (Rho : exists rho (j : Z), fin rho32 rho /\ Rabs (rho - w + IZR j * (2 * PI)) <= 30 * u32 /\ Rabs rho <= 4).
    { unfold rho32. destruct (fleb (Scalar := S32) (fabs sp1) speed_limit); cbn [where_].
      - destruct (wrap_in_range lm _ _ Fnw Rw) as (w' & Fw' & Ew'). exists w', 0%Z. split; [exact Fw'|].
        replace (w' - w + IZR 0 * (2 * PI)) with (w' - w) by (simpl; ring). split.
        + eapply Rle_trans; [exact Ew'|]. rewrite U. lra.
        + destruct (wrap_range lm _ _ Fnw) as (w2 & Fw2 & Rw2). rewrite (fin_fun _ _ _ Fw' Fw2). apply Rabs_le. lra.
      - exists at2v, j. split; [exact Fat|]. split.
        + replace (at2v - w + IZR j * (2 * PI)) with ((at2v - th) + (th - w + IZR j * (2 * PI))) by ring.
          pose proof (abs_add _ _ _ _ Eat Ej). replace (/ 2 ^ 20) with (16 * u32) in * by (rewrite U; simpl; lra). lra.
        + pose proof (abs_add _ _ _ _ Eat (Rabs_le th (32 / 10) ltac:(unfold pi32 in PN; lra))) as Z.
          replace (at2v - th + th) with at2v in Z by ring.
          replace (/ 2 ^ 20) with (16 * u32) in Z by (rewrite U; simpl; lra). rewrite U in Z. lra. }
    clear j Ej. destruct Rho as (rho & j & Frho & Erho & Brho).
    destruct (wrap_near lm _ _ Fy) as (k1 & yw & Fyw & Ryw & Eyw).
    assert (Mdf : Rabs (rho - yw) <= 4 + 4) by (apply abs_add; [exact Brho | rewrite Rabs_Ropp; apply Rabs_le; lra]).
    assert (Fdf := sub_fin _ _ _ _ Frho Fyw ltac:(apply Big; lra)).
    destruct (wrap_near lm _ _ Fdf) as (k3 & out & Fout & Rout & Eout).
    assert (Turn := inferred_turn y0 yw (rnd (y0 + dl)) w rho (rnd (rho - yw)) out dl k1 k2 k3 j By Bdl Eyw Ryw eq_refl Ew Rw
                      Erho Brho eq_refl Eout Rout).
    (* the distance *)
    assert (Es1 : Rabs (s1 - s0 - ac * d) <= u32 * (13 * s0 + 21)).
    { apply Rabs_le_inv in E1, EV, Mad. assert (V <= s0 + 1) by (rewrite U in *; lra).
      assert (7 * u32 * V <= 7 * u32 * (s0 + 1)) by (apply Rmult_le_compat_l; [rewrite U|]; lra).
      apply Rabs_le_inv in Er. apply Rabs_le. rewrite U in *. lra. }
    destruct (distances d Dd s0 s1 ac ai ltac:(lra) ltac:(lra) ltac:(lra) Bai Eaid Es1) as [Low Cl]. fold D in Cl.
    destruct (dist_fin sp _ s0 ai Fs0 Fai ltac:(lra) Bai) as [FD' BD'].
    set (D' := dist32 d s0 ai) in *.
    assert (Bdl' : Rabs dl <= 30012 / 100000 * D').
    { assert (M : Rabs (st * D) <= 3001 / 10000 * ((1 + 1 / 100000) * D')) by (apply abs_mul; lra).
      pose proof (rnd_cap _ _ M) as R. fold dl in R.
      replace dl with (st * D + (dl - st * D)) by ring. pose proof (abs_add _ _ _ _ M R). rewrite U in *. lra. }
    assert (Mst : Rabs (out / D') <= 3004 / 10000).
    { unfold Rdiv. rewrite Rabs_mult, (Rabs_pos_eq (/ D')) by (left; apply Rinv_0_lt_compat; lra).
      apply Rmult_le_reg_r with D'; [lra|]. rewrite Rmult_assoc, Rinv_l, Rmult_1_r by lra. lra. }
    exists (rnd (out / D')). split.
    - exact (div_fin _ _ _ _ Fout FD' ltac:(lra) ltac:(apply Big; lra)).
    - pose proof (rnd_cap _ _ Mst) as R. replace (rnd (out / D')) with (out / D' + (rnd (out / D') - out / D')) by ring.
      pose proof (abs_add _ _ _ _ Mst R). rewrite U in *. lra.
  Qed.
End Core.

(** The metric after a step, in float32. *)
Section Env.
  Context {S : Scalar}.
  Local Open Scope nat_scope.

  Lemma compute_inverse_frames n T tr (t : nat) (dt : F (Scalar := S)) e :
    rect n T tr -> t + 1 < T ->
    exists acts, compute_inverse tr (Z.of_nat t) dt e = Ok acts /\ length acts = n /\
      forall i p0 p1, i < n -> at2 tr i t = Some p0 -> at2 tr i (t + 1) = Some p1 ->
        nth_error acts i = Some (let '(a, s, v) := bicycle_inverse1 dt e p0 p1 in mkact [a; s] v).
  Proof.
    intros R Ht. unfold compute_inverse.
    destruct (two_frames_Ok n T tr t R Ht) as (ps & Hp & Lp & Ap). rewrite Hp; simpl.
    eexists. split; [reflexivity|]. rewrite map_length. split; auto.
    intros i p0 p1 Hi E0 E1. rewrite nth_error_map, (Ap i p0 p1) by auto. reflexivity.
  Qed.

  Lemma step_keeps_frames n T d c s acts s' mask (t : nat) i p :
    wf_state n T s -> env_step (S := S) d c s acts = Ok s' -> env_control_mask s c = Ok mask ->
    s_t s = Z.of_nat t -> t + 1 < T -> nth_error mask i = Some true ->
    at2 (s_sim s) i t = Some p ->
    wf_state n T s' /\ s_t s' = Z.of_nat (t + 1) /\ i < n /\ at2 (s_sim s') i t = Some p /\
    (p_valid p = true -> forall p', at2 (s_sim s') i (t + 1) = Some p' -> p_valid p' = true).
  Proof.
    intros W H Hm Et Ht Em Ep.
    destruct (step_one_frame n T d c s acts s' W H) as (W' & _ & E' & Fr); [lia|].
    assert (Hi : i < n).
    { destruct W as (R & _). destruct R as [R _]. unfold at2 in Ep.
      destruct (nth_error (s_sim s) i) eqn:E; [|discriminate]. apply nth_error_Some_lt in E. lia. }
    split; auto. split; [lia|]. split; auto. split; [rewrite Fr; auto; lia|].
    intros V p' E1.
    destruct (env_step_Ok _ _ _ _ _ _ _ W H)
      as (mask' & cur & us & nxt & Hm' & La & Lmask & Lc & Lu & Ln & Hc & Hnx & Hu & R & Hs & _).
    assert (mask' = mask) as -> by congruence.
    destruct (nth_error_lt_Some us i) as [u Eu]; [lia|].
    destruct (nth_error_lt_Some nxt i) as [pn Epn]; [lia|].
    assert (Epc : nth_error cur i = Some p).
    { rewrite Hc by auto. rewrite Et, norm_start_of_nat by lia. auto. }
    rewrite Hs in E1 by auto. replace (s_t s + 1)%Z with (Z.of_nat (t + 1)) in E1 by lia.
    rewrite norm_start_of_nat in E1 by lia. rewrite Nat.eqb_refl in E1.
    rewrite nth_error_map4, Em, Eu, Epc, Epn in E1. injection E1 as <-.
    simpl. unfold next_valid. rewrite V. simpl. now destruct (c_allow_new_objects c).
  Qed.
End Env.

Section KIM.
  Variable lm : libm.
  Hypothesis AC : accurate32 lm.
  Notation S32 := (F32 lm).

  Lemma tenth_fin : exists d, fin (flit (Scalar := S32) 1 10) d /\ Rabs (d - 1 / 10) <= / 100000000.
  Proof.
    destruct (lit_near lm 1 10 (11 / 100) ltac:(simpl; lia) ltac:(simpl; lia) ltac:(rewrite Rabs_pos_eq; simpl; lra)) as (d & Fd & E).
    exists d. split; [exact Fd|]. eapply Rle_trans; [exact E|]. pose proof tiny_small as TS. unfold u32. simpl in TS. lra.
  Qed.

  Lemma threshold_fin n (p : positive) b : (Z.abs n <= 2 ^ 24)%Z -> (Zpos p <= 2 ^ 24)%Z -> 0 <= IZR n / IZR (Zpos p) <= 16 ->
    b <= IZR n / IZR (Zpos p) + 9 / 10000 ->
    exists r, fin (fadd (Scalar := S32) (flit (Scalar := S32) n p) (kim_epsilon (S := S32))) r /\ b <= r.
  Proof.
    intros Hn Hp B Hb. pose proof tiny_small as TS. assert (U : u32 = / 16777216) by reflexivity.
    destruct (lit_near lm n p 16 Hn Hp ltac:(rewrite Rabs_pos_eq; lra)) as (r & Fr & Er).
    destruct (lit_near lm 1 1000 1 ltac:(simpl; lia) ltac:(simpl; lia) ltac:(rewrite Rabs_pos_eq; simpl; lra)) as (e & Fe & Ee).
    fold (kim_epsilon (S := S32)) in Fe.
    apply Rabs_le_inv in Er, Ee. simpl (IZR 1 / _) in Ee.
    assert (M : Rabs (r + e) <= 18) by (apply Rabs_le; rewrite U in *; simpl in TS; lra).
    exists (rnd (r + e)). split.
    - apply add_fin; auto. apply cap127. eapply Rle_trans; [exact M|]. simpl. lra.
    - pose proof (rnd_cap _ _ M) as R. apply Rabs_le_inv in R. rewrite U in *. simpl in TS. lra.
  Qed.

  Lemma kim_step32 (q : bicycle_params (S := S32)) A St n T c s acts s' mask (t : nat) i (a : act (S := S32)) p y0 v rs :
    bc_dt q = km_dt kim_default -> fin (bc_max_accel q) A -> fin (bc_max_steering q) St ->
    0 <= A <= 6 -> 0 <= St <= 3001 / 10000 ->
    wf_state n T s -> env_step (InvertibleBicycleModel q) c s acts = Ok s' ->
    env_control_mask s c = Ok mask -> s_t s = Z.of_nat t -> (t + 1 < T)%nat ->
    nth_error mask i = Some true -> nth_error acts i = Some a -> not_nan2 a ->
    at2 (s_sim s) i t = Some p -> fin (p_yaw p) y0 -> Rabs y0 <= 4 -> speed32 p v -> v <= 1000 ->
    kim_compute kim_default s' = Ok rs ->
    exists r, nth_error rs i = Some r /\ fin (mr_value r) 0 /\ (p_valid p = true -> mr_valid r = true).
  Proof.
    intros Ed HA HS BA BS W H Hm Et Ht Em Ea NN Ep Fy By (vx & vy & Fvx & Fvy & Ev) Bv HK.
    destruct tenth_fin as (d & Fd & Dd).
    assert (Hd : fin (bc_dt q) d) by (rewrite Ed; exact Fd).
    destruct (step_controlled_pose _ _ _ _ _ _ _ _ _ W H Hm Et Ht) as (cur & us & Lc & Hc & HU & HP).
    destruct (step_keeps_frames n T _ c s acts s' mask t i p W H Hm Et Ht Em Ep) as (W' & Et' & Hi & E0 & V').
    assert (Ecur : nth_error cur i = Some p) by (rewrite Hc by auto; exact Ep).
    destruct (per_object_Ok _ _ _ _ HU) as (_ & _ & PO).
    destruct (PO i _ _ Ea Ecur) as (u & EU & Eu).
    destruct (HP i u Em Eu) as (p' & E' & X1 & X2 & X3 & X4 & X5).
    unfold kim_compute, compute_kinematics_infeasibility in HK. rewrite Et' in HK.
    replace (Z.of_nat (t + 1) - 1)%Z with (Z.of_nat t) in HK by lia.
    destruct (compute_inverse_frames n T (s_sim s') t (km_dt kim_default) true) as (ia & HI & Li & Ai); [apply W'|lia|].
    rewrite HI in HK. cbn [bind] in HK.
    assert (rs = map (kim1 kim_default) ia) as -> by now inversion HK.
    specialize (Ai i p p' Hi E0 E').
    eexists. split; [rewrite nth_error_map, Ai; reflexivity|].
    assert (Q := inferred32 lm AC q d A St Hd HA HS Dd BA BS a p p' u y0 vx vy NN Fy Fvx Fvy By ltac:(unfold len; lra) EU X3 X4 X5).
    rewrite Ed in Q.
    destruct (bicycle_inverse1 (km_dt kim_default) true p p') as [[ai si] vv] eqn:EI.
    destruct Q as (ra & rs & Fa & Fs & Ba & Bs).
    split.
    - unfold kim1. cbn [a_data mr_value].
      destruct (threshold_fin 104 10 10 ltac:(simpl; lia) ltac:(simpl; lia) ltac:(simpl; lra) ltac:(simpl; lra)) as (t1 & F1 & B1).
      destruct (threshold_fin 3 10 (3009 / 10000) ltac:(simpl; lia) ltac:(simpl; lia) ltac:(simpl; lra) ltac:(simpl; lra)) as (t2 & F2 & B2).
      change (km_max_acc kim_default) with (flit (Scalar := S32) 104 10).
      change (km_max_steering kim_default) with (flit (Scalar := S32) 3 10).
      assert (G1 : fgtb (S := S32) (fabs ai) (fadd (Scalar := S32) (flit (Scalar := S32) 104 10) kim_epsilon) = false).
      { unfold fgtb. cbn [fltb F32 fabs]. rewrite (ltb_fin _ _ _ _ F1 (abs_fin _ _ Fa)).
        apply Rlt_bool_false. lra. }
      assert (G2 : fgtb (S := S32) (fabs si) (fadd (Scalar := S32) (flit (Scalar := S32) 3 10) kim_epsilon) = false).
      { unfold fgtb. cbn [fltb F32 fabs]. rewrite (ltb_fin _ _ _ _ F2 (abs_fin _ _ Fs)).
        apply Rlt_bool_false. lra. }
      rewrite G1, G2. cbn [orb fbool].
      split; reflexivity.
    - intros V. specialize (V' V p' E'). unfold kim1. cbn [a_data mr_valid a_valid].
      unfold bicycle_inverse1 in EI. cbv zeta in EI. rewrite V, V' in EI. cbn [andb] in EI.
      apply (f_equal snd) in EI. cbn [snd] in EI. now symmetry.
  Qed.

  Lemma kim_episode32 (TR : trig32 lm) (q : bicycle_params (S := S32)) A St n T c pol s k s' j i X V :
    bc_dt q = km_dt kim_default -> fin (bc_max_accel q) A -> fin (bc_max_steering q) St ->
    0 <= A <= 6 -> 0 <= St <= 3001 / 10000 ->
    wf_scenario n T s -> run_policy (InvertibleBicycleModel q) c pol s k = Ok s' ->
    (1 <= c_init_steps c)%nat -> (c_init_steps c + k <= T)%nat -> in_control c s i -> (i < n)%nat ->
    (forall s1 a, pol s1 = Ok a -> Forall not_nan2 a) ->
    (forall t l, at2 (s_log s) i t = Some l -> (t < c_init_steps c + k)%nat ->
       bounded32 X V l /\ exists y, fin (p_yaw l) y /\ Rabs y <= 4) ->
    X <= 2 ^ 59 -> V + INR k <= 1000 -> (1 <= j <= k)%nat ->
    exists sj rs r, run_policy (InvertibleBicycleModel q) c pol s j = Ok sj /\
      kim_compute kim_default sj = Ok rs /\ nth_error rs i = Some r /\ fin (mr_value r) 0 /\
      (forall p, at2 (s_sim sj) i (c_init_steps c + j - 2) = Some p -> p_valid p = true -> mr_valid r = true).
  Proof.
    intros Ed HA HS BA BS W H HI HL HC Hi HP HB HX HV Hj.
    destruct tenth_fin as (d & Fd & Dd).
    assert (Hd : fin (bc_dt q) d) by (rewrite Ed; exact Fd).
    pose proof (d_range d Dd) as D0. pose proof (dd_range d Dd) as D2.
    assert (JK : exists j', j = Datatypes.S j') by (destruct j; [lia | eauto]). destruct JK as (j' & ->).
    (* the prefix *)
    assert (Pre : forall m, (m <= k)%nat -> exists sm, run_policy (InvertibleBicycleModel q) c pol s m = Ok sm).
    { intros m Hm. destruct (Nat.eq_dec m k) as [->|]; [eauto|].
      destruct (policy_frames n T _ _ _ _ _ _ W H HI HL m ltac:(lia)) as (s1 & _ & _ & _ & E & _). eauto. }
    destruct (Pre (Datatypes.S j')) as (sj & Ej); [lia|].
    pose proof Ej as Ej2. apply run_policy_snoc in Ej2 as (s1 & a & E1 & Ha & Es).
    destruct (run_policy_episode _ _ _ _ _ _ E1) as (acts & La & HE).
    assert (LE : (c_init_steps c + length acts <= T)%nat) by lia.
    destruct (episode_basic _ _ _ _ _ _ _ W HE LE) as (W1 & SC & _ & Et & _).
    destruct (env_step_Ok _ _ _ _ _ _ _ W1 Es) as (mask & _ & _ & _ & Hm & Lna & Lmask & _).
    destruct (nth_error_lt_Some mask i) as [b Eb]; [lia|].
    assert (b = true) as ->.
    { apply (episode_mask _ _ _ _ _ _ _ _ W HE HI LE Hm i b Eb). exact HC. }
    destruct (nth_error_lt_Some a i) as [ai Eai]; [lia|].
    assert (Nai : not_nan2 ai).
    { pose proof (HP _ _ Ha) as FA. rewrite Forall_forall in FA. apply FA. eapply nth_error_In; eauto. }
    (* the frame before the step *)
    assert (Fr : exists p, at2 (s_sim s1) i (c_init_steps c + j' - 1) = Some p /\
              (exists y, fin (p_yaw p) y /\ Rabs y <= 4) /\ exists v, speed32 p v /\ v <= 1000).
    { assert (Ky : 0 <= INR k) by apply pos_INR.
      assert (Kj : INR j' <= INR k) by (apply le_INR; lia). pose proof (pos_INR j').
      assert (L0 : at2 (s_log s) i 0 <> None).
      { destruct W as (R & _). destruct (rect_at2 n T (s_log s) i 0 R Hi) as [l El]; [lia|]. congruence. }
      destruct (at2 (s_log s) i 0) as [l0|] eqn:El0; [clear L0 | congruence].
      destruct (HB _ _ El0 ltac:(lia)) as ((xa0 & ya0 & wa0 & vx & vy & Q) & _).
      assert (V0 : 0 <= V). { destruct Q as (_ & _ & _ & _ & _ & _ & _ & _ & Q). pose proof (sqrt_pos (vx * vx + vy * vy)). lra. }
      assert (A * d <= 6 * (1000001 / 10000000)) by (apply Rmult_le_compat; lra).
      assert (A * (d * d) <= 6 * (101 / 10000)) by (apply Rmult_le_compat; lra).
      assert (Hk1 : INR k * (A * d + 1000 / 2 ^ 19) <= INR k * 1).
      { apply Rmult_le_compat_l; [lra|]. replace (1000 / 2 ^ 19) with (1000 / 524288) by (simpl; lra). lra. }
      assert (Hk2 : INR k * (1000 * d + A * (d * d) + 2 ^ 60 / 2 ^ 20) <= 1000 * (1000 + 2 ^ 40)).
      { assert (P40 : 2 ^ 60 / 2 ^ 20 = 2 ^ 40) by (simpl; lra). rewrite P40.
        apply Rmult_le_compat; try lra.
        assert (0 <= A * (d * d)) by (apply Rmult_le_pos; lra). assert (0 < 2 ^ 40) by (apply pow_lt; lra). lra. }
      assert (P59 : 2 ^ 59 + 1000 * (1000 + 2 ^ 40) <= 2 ^ 60) by (simpl; lra).
      pose proof (bicycle_episode32 lm TR q d A St Hd HA HS ltac:(lra) ltac:(simpl; lra) ltac:(simpl; lra) n T c pol s j' s1 i X V
                    1000 (2 ^ 60) W E1 HI ltac:(lia) Hi HP) as B1.
      specialize (B1 (fun t l G1 G2 => proj1 (HB t l G1 ltac:(lia)))).
      specialize (B1 ltac:(simpl; lra) ltac:(split; [apply pow_R1_Rle; lra | lra])).
      assert (Gv : 0 <= A * d + 1000 / 2 ^ 19).
      { assert (0 <= A * d) by (apply Rmult_le_pos; lra). replace (1000 / 2 ^ 19) with (1000 / 524288) by (simpl; lra). lra. }
      assert (Gx : 0 <= 1000 * d + A * (d * d) + 2 ^ 60 / 2 ^ 20).
      { assert (0 <= A * (d * d)) by (apply Rmult_le_pos; lra). assert (0 <= 2 ^ 60 / 2 ^ 20) by (apply Rle_mult_inv_pos; [|]; apply pow_lt || (left; apply pow_lt); lra). lra. }
      assert (Mv := Rmult_le_compat_r _ _ _ Gv Kj). assert (Mx := Rmult_le_compat_r _ _ _ Gx Kj).
      specialize (B1 ltac:(lra) ltac:(lra) (c_init_steps c + j' - 1)%nat).
      destruct (Nat.eq_dec j' 0) as [->|Nj].
      - (* warm-up frame *)
        destruct (episode_basic _ _ _ _ _ _ _ W HE LE) as (_ & _ & _ & _ & F & _).
        destruct W as (R & _). destruct (rect_at2 n T (s_log s) i (c_init_steps c + 0 - 1) R Hi) as [l El]; [lia|].
        exists l. split; [rewrite F by lia; exact El|].
        destruct (HB _ _ El ltac:(lia)) as ((x1 & y1 & w1 & vx1 & vy1 & G1 & G2 & G3 & G4 & G5 & G6 & G7 & G8 & G9) & HY).
        split; [exact HY|]. exists (sqrt (vx1 * vx1 + vy1 * vy1)). split; [exists vx1, vy1; auto | lra].
      - destruct (B1 ltac:(lia)) as (p & Ep & (x1 & y1 & w1 & vx1 & vy1 & G1 & G2 & G3 & G4 & G5 & G6 & G7 & G8 & G9)).
        exists p. split; [exact Ep|]. split.
        + (* heading *)
          assert (Hj1 : (j' - 1 < j')%nat) by lia.
          destruct (policy_frames n T _ _ _ _ _ _ W E1 HI ltac:(lia) (j' - 1) Hj1)
            as (s2 & a2 & cur & us & K1 & K2 & K3 & K4 & K5 & K6 & K7 & K8 & K9 & K10).
          destruct (K10 i Hi) as (J1 & J2 & u & p2 & nxt & ctrl & Eu & Ep2 & En & Ec & Ef).
          replace (c_init_steps c + (j' - 1))%nat with (c_init_steps c + j' - 1)%nat in * by lia.
          rewrite Ep in Ef. assert (p = next_pt (c_allow_new_objects c) false u p2 nxt ctrl) as -> by congruence.
          destruct ctrl; [|exact (proj2 (HB _ _ En ltac:(lia)))].
          cbn [next_pt p_yaw] in *.
          destruct (nth_error_lt_Some a2 i) as [ai2 Eai2]; [rewrite K6; exact Hi|].
          destruct (per_object_Ok _ _ _ _ K9) as (_ & _ & PO).
          destruct (PO i _ _ Eai2 Ep2) as (u' & EU & En').
          assert (u' = u) as -> by congruence.
          exists w1. split; [exact G3|].
          unfold bicycle_update in EU. destruct (a_data ai2) as [|? [|? ?]]; try discriminate.
          destruct (bicycle_clip q _ _) as [? ?]. cbv zeta in EU.
          assert (Hiv : forall T (x y : T), Ok x = Ok y -> x = y) by (intros ? ? ? HE'; now inversion HE').
          apply Hiv in EU. rewrite <- EU in G3. cbn [u_yaw] in G3.
          match type of G3 with fin (wrap_yaws ?z) _ => destruct (is_finite z) eqn:Fz end.
          * destruct (wrap_range lm _ _ (fin_B2R _ Fz)) as (w2 & Fw2 & Rw2). rewrite (fin_fun _ _ _ G3 Fw2).
            pose proof pi32_val. apply Rabs_le. lra.
          * rewrite (wrap_nan lm _ Fz) in G3. destruct G3 as [G3 _]. discriminate.
        + exists (sqrt (vx1 * vx1 + vy1 * vy1)). split; [exists vx1, vy1; auto|].
          assert (INR (c_init_steps c + j' - 1 + 1 - c_init_steps c) <= INR k) by (apply le_INR; lia).
          assert (Mv' := Rmult_le_compat_r _ _ _ Gv H3). lra. }
    destruct Fr as (p & Ep & (y & Fy & By) & v & Sv & Bv).
    assert (Et' : s_t s1 = Z.of_nat (c_init_steps c + j' - 1)) by (rewrite Et; lia).
    assert (Wj : wf_state n T sj) by (destruct (step_one_frame n T _ c s1 a sj W1 Es) as (Wj & _); [rewrite Et'; lia | exact Wj]).
    destruct (kim_total n T kim_default sj Wj ltac:(lia)) as (rs & Ers & _).
    destruct (kim_step32 q A St n T c s1 a sj mask (c_init_steps c + j' - 1) i ai p y v rs) as (r & Er & Vr & Qr); auto; [lia|].
    exists sj, rs, r. split; [exact Ej|]. split; [exact Ers|]. split; [exact Er|]. split; [exact Vr|].
    intros p0 Ep0 Vp. apply Qr.
    destruct (step_keeps_frames n T _ c s1 a sj mask _ i p W1 Es Hm Et' ltac:(lia) Eb Ep) as (_ & _ & _ & E0 & _).
    replace (c_init_steps c + Datatypes.S j' - 2)%nat with (c_init_steps c + j' - 1)%nat in Ep0 by lia. congruence.
  Qed.
End KIM.
