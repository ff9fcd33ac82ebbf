(** Bounds on one step of the bicycle model in float32. *)
From Coq Require Import List ZArith Reals Lra Lia Bool Psatz Rgeom.
From Flocq Require Import Core.Raux IEEE754.BinarySingleNaN.
From Verif.Lib Require Import Base JaxIndex Scalar F32.
From Verif.Model Require Import Operations State Dynamics BaseEnv Geometry Dyn_State Dyn_Delta Dyn_Bicycle.
From Verif.Spec Require Import StateSpec F32Spec F32EpisodeSpec.
From Verif.Proofs Require Import Core P_F32 P_F32Wrap P_F32Delta.
Import ListNotations.
Open Scope R_scope.

Lemma clip_any lm (x m : f32) mr : is_nan x = false -> fin m mr -> 0 <= mr ->
  exists r, fin (fclip (S := F32 lm) x (Bopp m) m) r /\ Rabs r <= mr.
Proof.
  intros N M P. unfold fclip. simpl.
  destruct (is_finite x) eqn:Fx.
  - pose proof (min_fin _ _ _ _ (max_fin _ _ _ _ (fin_B2R x Fx) (opp_fin _ _ M)) M) as R.
    eexists. split; [exact R|]. apply Rabs_le. unfold Rmin, Rmax. repeat destruct (Rle_dec _ _); lra.
  - assert (Nm := fin_notnan _ _ M). assert (No := fin_notnan _ _ (opp_fin _ _ M)).
    destruct M as [Fm Em]. destruct (opp_fin m mr (conj Fm Em)) as [Fo Eo].
    destruct x as [|[]| |]; try discriminate.
    + (* minus infinity *)
      exists (- mr). split; [|rewrite Rabs_Ropp, Rabs_pos_eq; lra].
      unfold f32_max at 1. rewrite No. simpl is_nan. cbn [orb].
      replace (Bleb (B754_infinity true) (Bopp m)) with true by (destruct m; try discriminate; reflexivity).
      pose proof (min_fin _ _ _ _ (conj Fo Eo) (conj Fm Em)) as R. rewrite Rmin_left in R by lra. exact R.
    + exists mr. split; [|rewrite Rabs_pos_eq; lra].
      unfold f32_max at 1. rewrite No. simpl is_nan. cbn [orb].
      replace (Bleb (B754_infinity false) (Bopp m)) with false by (destruct m; try discriminate; reflexivity).
      unfold f32_min. rewrite Nm. simpl is_nan. cbn [orb].
      replace (Bleb (B754_infinity false) m) with false by (destruct m; try discriminate; reflexivity).
      split; assumption.
Qed.

(** Half the smallest positive number is negligible. *)
Definition tiny : R := b32 (-150).
Lemma tiny_small : 0 < tiny <= / 2 ^ 100.
Proof.
  unfold tiny. split; [apply bpow_gt_0|].
  replace (/ 2 ^ 100) with (b32 (-100)); [apply bpow_le; lia|].
  change (b32 (-100)) with (/ IZR (Z.pow_pos 2 100)). f_equal. rewrite Zpower_pos_powerRZ. reflexivity.
Qed.

(** The error of rounding a number bounded by [B]. *)
Lemma rnd_cap a B : Rabs a <= B -> Rabs (rnd a - a) <= u32 * B + tiny.
Proof.
  intros H. eapply Rle_trans; [apply rnd_err|]. apply Rplus_le_compat_r.
  apply Rmult_le_compat_l; [unfold u32; lra | exact H].
Qed.
Lemma rnd_near a b e B : Rabs (a - b) <= e -> Rabs a <= B -> Rabs (rnd a - b) <= e + (u32 * B + tiny).
Proof.
  intros H1 H2. replace (rnd a - b) with ((rnd a - a) + (a - b)) by ring.
  eapply Rle_trans; [apply Rabs_triang|]. pose proof (rnd_cap a B H2). lra.
Qed.

Lemma cap127 a : Rabs a <= 2 ^ 120 -> Rabs a <= b32 127.
Proof.
  intros H. eapply Rle_trans; [exact H|].
  replace (2 ^ 120) with (b32 120); [apply bpow_le; lia|].
  change (b32 120) with (IZR (Z.pow_pos 2 120)). rewrite Zpower_pos_powerRZ. reflexivity.
Qed.

(** Square root of a perturbed square. *)
Lemma sqrt_near c h e f : 0 <= h -> 0 <= e <= 1 -> 0 <= f -> 0 <= c -> Rabs (c - h * h) <= e * (h * h) + f * f ->
  Rabs (sqrt c - h) <= e * h + f.
Proof.
  intros Hh He Hf Hc H. apply Rabs_le_inv in H. apply Rabs_le. split.
  - destruct (Rle_lt_dec (h * (1 - e) - f) 0) as [L|L].
    + pose proof (sqrt_pos c). lra.
    + assert (h * (1 - e) - f <= sqrt c); [|lra].
      rewrite <- (sqrt_square (h * (1 - e) - f)) by lra. apply sqrt_le_1_alt.
      assert (0 <= e * (h * h)) by (apply Rmult_le_pos; nra).
      assert (f * f <= h * (1 - e) * f) by (apply Rmult_le_compat_r; lra).
      assert ((1 - e) * (h * h) * (1 - e) <= (1 - e) * (h * h) * 1) by (apply Rmult_le_compat_l; [apply Rmult_le_pos; nra | lra]).
      nra.
  - assert (sqrt c <= h * (1 + e) + f); [|lra].
    assert (0 <= h * (1 + e)) by (apply Rmult_le_pos; lra).
    rewrite <- (sqrt_square (h * (1 + e) + f)) by lra. apply sqrt_le_1_alt.
    assert (0 <= h * (1 + e) * f) by (apply Rmult_le_pos; lra).
    assert ((1 + e) * (h * h) * 1 <= (1 + e) * (h * h) * (1 + e)) by (apply Rmult_le_compat_l; [apply Rmult_le_pos; nra | lra]).
    nra.
Qed.

(** Lengths of vectors. *)
Definition len (x y : R) : R := sqrt (x * x + y * y).
Lemma len_pos x y : 0 <= len x y.
Proof. apply sqrt_pos. Qed.
Lemma len_sq x y : len x y * len x y = x * x + y * y.
Proof. apply sqrt_sqrt. nra. Qed.
Lemma len_fst x y : Rabs x <= len x y.
Proof.
  rewrite <- sqrt_Rsqr_abs. unfold len. apply sqrt_le_1_alt. unfold Rsqr. nra.
Qed.
Lemma len_snd x y : Rabs y <= len x y.
Proof.
  rewrite <- sqrt_Rsqr_abs. unfold len. apply sqrt_le_1_alt. unfold Rsqr. nra.
Qed.
Lemma len_dist x y : dist_euc x y 0 0 = len x y.
Proof. unfold dist_euc, len, Rsqr. f_equal. ring. Qed.
Lemma len_triangle x y x' y' : Rabs (len x' y' - len x y) <= Rabs (x' - x) + Rabs (y' - y).
Proof.
  assert (T : dist_euc x' y' x y <= Rabs (x' - x) + Rabs (y' - y)).
  { unfold dist_euc. rewrite <- (sqrt_square (Rabs (x' - x) + Rabs (y' - y)))
      by (pose proof (Rabs_pos (x' - x)); pose proof (Rabs_pos (y' - y)); lra).
    apply sqrt_le_1_alt. rewrite (Rsqr_abs (x' - x)), (Rsqr_abs (y' - y)). unfold Rsqr.
    pose proof (Rabs_pos (x' - x)); pose proof (Rabs_pos (y' - y)). nra. }
  pose proof (triangle x' y' 0 0 x y) as T1. pose proof (triangle x y 0 0 x' y') as T2.
  rewrite !len_dist in T1, T2. rewrite (distance_symm x y x' y') in T2.
  apply Rabs_le. lra.
Qed.

Section Step.
  Variable lm : libm.
  Hypothesis TR : trig32 lm.
  Notation S32 := (F32 lm).

  (** The model's speed, for speeds up to [C]. *)
  Lemma vel_norm_fin (vx vy : f32) rx ry C : fin vx rx -> fin vy ry -> 1 <= C <= 2 ^ 50 -> len rx ry <= C ->
    exists s, fin (vel_norm (S := S32) vx vy) s /\ 0 <= s /\ Rabs (s - len rx ry) <= 5 * u32 * C.
  Proof.
    intros X Y HC HV. pose proof tiny_small as TS. pose proof (len_pos rx ry) as L0.
    pose proof (len_sq rx ry) as LQ.
    set (h := len rx ry) in *.
    assert (U : u32 = / 16777216) by reflexivity.
    assert (P100 : 2 ^ 50 * 2 ^ 50 = 2 ^ 100) by (rewrite <- pow_add; reflexivity).
    assert (HH : h * h <= 2 ^ 100) by (rewrite <- P100; apply Rmult_le_compat; lra).
    assert (B1 : (2 : R) ^ 100 * 4 <= 2 ^ 120) by (simpl; lra).
    pose proof (Rle_0_sqr rx) as Q1. pose proof (Rle_0_sqr ry) as Q2. unfold Rsqr in Q1, Q2.
    assert (Qx : 0 <= rx * rx <= h * h) by lra.
    assert (Qy : 0 <= ry * ry <= h * h) by lra.
    assert (Mx : fin (Bmult mode_NE vx vx) (rnd (rx * rx))).
    { apply mul_fin; auto. apply cap127. rewrite Rabs_pos_eq; lra. }
    assert (My : fin (Bmult mode_NE vy vy) (rnd (ry * ry))).
    { apply mul_fin; auto. apply cap127. rewrite Rabs_pos_eq; lra. }
    pose proof (rnd_err (rx * rx)) as Ex. pose proof (rnd_err (ry * ry)) as Ey.
    rewrite (Rabs_pos_eq (rx * rx)) in Ex by lra. rewrite (Rabs_pos_eq (ry * ry)) in Ey by lra. fold tiny in Ex, Ey.
    assert (Px : 0 <= rnd (rx * rx)) by (rewrite <- rnd_0; apply rnd_le; lra).
    assert (Py : 0 <= rnd (ry * ry)) by (rewrite <- rnd_0; apply rnd_le; lra).
    apply Rabs_le_inv in Ex, Ey.
    set (a := rnd (rx * rx)) in *. set (b := rnd (ry * ry)) in *.
    assert (AB : Rabs ((a + b) - h * h) <= u32 * (h * h) + 2 * tiny).
    { apply Rabs_le. rewrite LQ. lra. }
    assert (AB' := AB). apply Rabs_le_inv in AB'.
    assert (Ma : fin (Bplus mode_NE (Bmult mode_NE vx vx) (Bmult mode_NE vy vy)) (rnd (a + b))).
    { apply add_fin; auto. apply cap127. rewrite Rabs_pos_eq by lra. rewrite U in *. simpl in *. lra. }
    assert (Ec : Rabs (rnd (a + b) - h * h) <= 3 * u32 * (h * h) + 4 * tiny).
    { pose proof (rnd_err (a + b)) as E. rewrite (Rabs_pos_eq (a + b)) in E by lra. fold tiny in E.
      apply Rabs_le_inv in E. apply Rabs_le.
      assert (u32 * (a + b) <= u32 * (h * h + (u32 * (h * h) + 2 * tiny))) by (apply Rmult_le_compat_l; [rewrite U|]; lra).
      assert (0 <= h * h) by nra. rewrite U in *. lra. }
    assert (Pc : 0 <= rnd (a + b)) by (rewrite <- rnd_0; apply rnd_le; lra).
    pose proof (sqrt_fin _ _ Ma Pc) as Ms.
    set (f := / 2 ^ 49).
    assert (Ff : 4 * tiny <= f * f).
    { apply Rle_trans with (4 * / 2 ^ 100); [lra|]. unfold f. rewrite <- Rinv_mult, <- pow_add.
      change (49 + 49)%nat with 98%nat. apply Req_le. field. }
    assert (F0 : 0 < f <= u32 / 1000) by (unfold f; rewrite U; split; [apply Rinv_0_lt_compat, pow_lt; lra | simpl; lra]).
    pose proof (sqrt_near (rnd (a + b)) h (3 * u32) f L0 ltac:(rewrite U; lra) ltac:(lra) Pc ltac:(lra)) as SN.
    set (r := sqrt (rnd (a + b))) in *.
    assert (R0 : 0 <= r) by apply sqrt_pos.
    exists (rnd r). split; [exact Ms|]. split; [rewrite <- rnd_0; apply rnd_le; exact R0|].
    pose proof (rnd_near r h (3 * u32 * C + f) (C + (3 * u32 * C + f))) as RN.
    assert (3 * u32 * h <= 3 * u32 * C) by (apply Rmult_le_compat_l; [rewrite U|]; lra).
    assert (TS' : tiny <= u32 / 1000) by (rewrite U; simpl in TS; lra).
    eapply Rle_trans; [apply RN|].
    - lra.
    - apply Rabs_le_inv in SN. apply Rabs_le. lra.
    - rewrite U in *. lra.
  Qed.

  Variable q : bicycle_params (S := S32).
  Variables d A St : R.
  Hypothesis Hd : fin (bc_dt q) d.
  Hypothesis HA : fin (bc_max_accel q) A.
  Hypothesis HS : fin (bc_max_steering q) St.
  Hypothesis D1 : 0 < d <= 1.
  Hypothesis A1 : 0 <= A.
  Hypothesis S1 : 0 <= St <= 2 ^ 40.

  Lemma one_fin : fin (f1 (S := S32)) 1.
  Proof.
    unfold f1. simpl. pose proof (div_fin _ _ _ _ (ofZ_fin 1 ltac:(simpl; lia)) (ofZ_fin 1 ltac:(simpl; lia))) as H.
    replace 1 with (rnd (1 / 1)); [apply H; [lra|]|].
    - apply cap127. replace (1 / 1) with 1 by lra. rewrite Rabs_pos_eq by lra. apply pow_R1_Rle. lra.
    - replace (1 / 1) with 1 by lra. apply rnd_id. apply (rep_IZR 1). simpl; lia.
  Qed.
  Lemma half_fin : fin (fhalf (S := S32)) (1 / 2).
  Proof.
    unfold fhalf. simpl. pose proof (div_fin _ _ _ _ (ofZ_fin 1 ltac:(simpl; lia)) (ofZ_fin 2 ltac:(simpl; lia))) as H.
    replace (1 / 2) with (rnd (1 / 2)) at 1; [apply H; [lra|]|].
    - apply cap127. rewrite Rabs_pos_eq by lra. apply Rle_trans with 1; [lra|]. apply pow_R1_Rle. lra.
    - apply rnd_id. replace (1 / 2) with (b32 (-1)) by (simpl; lra). apply rep_bpow. lia.
  Qed.

  (** The acceleration and the steering that are applied, for an action without
      NaN: finite and within the limits. *)
  Lemma controls (ra rs : f32) : is_nan ra = false -> is_nan rs = false -> A <= 2 ^ 50 ->
    let '(a0, s0) := bicycle_clip q ra rs in
    exists a s,
      fin (if bc_normalize q then fmul (Scalar := S32) a0 (bc_max_accel q) else a0) a /\
      fin (if bc_normalize q then fmul (Scalar := S32) s0 (bc_max_steering q) else s0) s /\
      Rabs a <= A /\ Rabs s <= St.
  Proof.
    intros Na Ns BA. unfold bicycle_clip, bicycle_bound_accel, bicycle_bound_steering.
    destruct (bc_normalize q).
    - destruct (clip_any lm ra _ _ Na one_fin ltac:(lra)) as (a & Fa & Ba).
      destruct (clip_any lm rs _ _ Ns one_fin ltac:(lra)) as (s & Fs & Bs).
      assert (forall z m, Rabs z <= 1 -> 0 <= m -> Rabs (z * m) <= m).
      { intros z m Hz Hm. rewrite Rabs_mult, (Rabs_pos_eq m) by lra.
        replace m with (1 * m) at 2 by ring. apply Rmult_le_compat_r; lra. }
      assert ((2:R) ^ 40 <= 2 ^ 120) by (simpl; lra). assert ((2:R) ^ 50 <= 2 ^ 120) by (simpl; lra).
      exists (rnd (a * A)), (rnd (s * St)). split; [|split; [|split]].
      + apply mul_fin; auto. apply cap127. pose proof (H a A Ba A1). lra.
      + apply mul_fin; auto. apply cap127. pose proof (H s St Bs ltac:(lra)). lra.
      + apply rnd_abs; [eapply fin_rep; eauto | apply H; auto].
      + apply rnd_abs; [eapply fin_rep; eauto | apply H; lra].
    - destruct (clip_any lm ra _ _ Na HA A1) as (a & Fa & Ba).
      destruct (clip_any lm rs _ _ Ns HS ltac:(lra)) as (s & Fs & Bs). eauto 10.
  Qed.

  (** Rounding does not leave a range whose end is a power of two. *)
  Lemma rnd_pow r (m : nat) : Rabs r <= 2 ^ m -> Rabs (rnd r) <= 2 ^ m.
  Proof.
    intros H. apply rnd_abs; [|exact H].
    replace (2 ^ m) with (b32 (Z.of_nat m)); [apply rep_bpow; lia|].
    clear. induction m as [|m IH]; [reflexivity|].
    replace (Z.of_nat (Datatypes.S m)) with (1 + Z.of_nat m)%Z by lia.
    rewrite bpow_plus, IH. change (b32 1) with 2. reflexivity.
  Qed.

  Lemma abs_mul x y B D : Rabs x <= B -> Rabs y <= D -> Rabs (x * y) <= B * D.
  Proof. intros. rewrite Rabs_mult. apply Rmult_le_compat; auto using Rabs_pos. Qed.
  Lemma abs_add x y B D : Rabs x <= B -> Rabs y <= D -> Rabs (x + y) <= B + D.
  Proof. intros. eapply Rle_trans; [apply Rabs_triang|]. lra. Qed.

  (** [x + v t + ((1/2 a) c) t^2] for a coordinate. *)
  Lemma coord32 (x v a c : f32) rx rv ra rc X C P :
    fin x rx -> fin v rv -> fin a ra -> fin c rc ->
    Rabs rx <= X -> Rabs rv <= C -> Rabs ra <= A -> Rabs rc <= 1 -> 0 <= C <= 2 ^ 40 -> A <= 2 ^ 40 -> 1 <= P <= 2 ^ 60 ->
    X + (C * d + A * (d * d)) <= P ->
    exists r, fin (fadd (Scalar := S32) (fadd (Scalar := S32) x (fmul (Scalar := S32) v (bc_dt q)))
                     (fmul (Scalar := S32) (fmul (Scalar := S32) (fmul (Scalar := S32) fhalf a) c) (fsq (S := S32) (bc_dt q)))) r /\
      Rabs r <= X + (C * d + A * (d * d) + P / 2 ^ 20).
  Proof.
    intros Fx Fv Fa Fc Bx Bv Ba Bc BC BA BP BX. pose proof tiny_small as TS.
    assert (U : u32 = / 16777216) by reflexivity.
    assert (TU : tiny * 2 ^ 40 <= u32 / 1000).
    { apply Rle_trans with (/ 2 ^ 100 * 2 ^ 40); [apply Rmult_le_compat_r; [apply pow_le; lra | lra]|].
      rewrite U. simpl. lra. }
    assert (T1 : tiny <= u32 / 1000).
    { eapply Rle_trans; [|exact TU]. replace tiny with (tiny * 1) at 1 by ring. apply Rmult_le_compat_l; [lra|].
      apply pow_R1_Rle; lra. }
    assert (RA : rep A) by (eapply fin_rep; eauto).
    pose proof (Rabs_pos rx) as X0. assert (Dd : 0 < d * d <= 1) by nra.
    assert (CD : 0 <= C * d) by (apply Rmult_le_pos; lra).
    assert (AD : 0 <= A * (d * d)) by (apply Rmult_le_pos; lra).
    assert (P60 : (2:R) ^ 60 * 8 <= 2 ^ 120) by (simpl; lra).
    (* v t *)
    assert (M1 : Rabs (rv * d) <= C * d) by (apply abs_mul; [exact Bv | rewrite Rabs_pos_eq; lra]).
    assert (F1 : fin (Bmult mode_NE v (bc_dt q)) (rnd (rv * d))) by (apply mul_fin; auto; apply cap127; lra).
    assert (E1 := rnd_cap (rv * d) P ltac:(lra)).
    assert (G1 : Rabs (rnd (rv * d)) <= C * d + (u32 * P + tiny)).
    { replace (rnd (rv * d)) with ((rv * d) + (rnd (rv * d) - rv * d)) by ring. apply abs_add; auto. }
    (* x + v t *)
    assert (M2 : Rabs (rx + rnd (rv * d)) <= X + (C * d + (u32 * P + tiny))) by (apply abs_add; auto).
    assert (uP : 0 <= u32 * P <= P / 1000) by (rewrite U; lra).
    assert (tP : 0 < tiny <= u32 * P / 1000).
    { split; [lra|]. eapply Rle_trans; [exact T1|]. unfold Rdiv. apply Rmult_le_compat_r; [lra|].
      replace u32 with (u32 * 1) at 1 by ring. apply Rmult_le_compat_l; [rewrite U|]; lra. }
    assert (F2 : fin (Bplus mode_NE x (Bmult mode_NE v (bc_dt q))) (rnd (rx + rnd (rv * d)))).
    { apply add_fin; auto. apply cap127. lra. }
    assert (E2 := rnd_cap (rx + rnd (rv * d)) (2 * P) ltac:(lra)).
    set (s1 := rnd (rx + rnd (rv * d))) in *.
    assert (G2 : Rabs s1 <= X + (C * d + (u32 * P + tiny)) + (u32 * (2 * P) + tiny)).
    { replace s1 with ((rx + rnd (rv * d)) + (s1 - (rx + rnd (rv * d)))) by ring. apply abs_add; auto. }
    (* 1/2 a c *)
    assert (Ma : Rabs (1 / 2 * ra) <= A).
    { rewrite Rabs_mult, (Rabs_pos_eq (1 / 2)) by lra. pose proof (Rabs_pos ra). lra. }
    assert (A60 : A <= 2 ^ 120) by (simpl in *; lra).
    assert (F3 : fin (Bmult mode_NE (fhalf (S := S32)) a) (rnd (1 / 2 * ra))).
    { apply mul_fin; auto; [apply half_fin|]. apply cap127. lra. }
    assert (G3 : Rabs (rnd (1 / 2 * ra)) <= A) by (apply rnd_abs; auto).
    assert (Mc : Rabs (rnd (1 / 2 * ra) * rc) <= A).
    { replace A with (A * 1) by ring. apply abs_mul; auto. }
    assert (F4 : fin (Bmult mode_NE (Bmult mode_NE (fhalf (S := S32)) a) c) (rnd (rnd (1 / 2 * ra) * rc))).
    { apply mul_fin; auto. apply cap127. lra. }
    assert (G4 : Rabs (rnd (rnd (1 / 2 * ra) * rc)) <= A) by (apply rnd_abs; auto).
    set (g := rnd (rnd (1 / 2 * ra) * rc)) in *.
    (* t^2 *)
    assert (F5 : fin (Bmult mode_NE (bc_dt q) (bc_dt q)) (rnd (d * d))).
    { apply mul_fin; auto. apply cap127. rewrite Rabs_pos_eq by lra. simpl. lra. }
    assert (E5 := rnd_err (d * d)). fold tiny in E5. rewrite (Rabs_pos_eq (d * d)) in E5 by lra.
    assert (G5 : Rabs (rnd (d * d)) <= d * d + (u32 * (d * d) + tiny)).
    { replace (rnd (d * d)) with ((d * d) + (rnd (d * d) - d * d)) by ring. apply abs_add; auto.
      rewrite Rabs_pos_eq; lra. }
    assert (M6 : Rabs (g * rnd (d * d)) <= A * (d * d) + 2 * (u32 * P)).
    { eapply Rle_trans; [apply (abs_mul _ _ _ _ G4 G5)|].
      assert (A * (u32 * (d * d)) <= u32 * P).
      { replace (A * (u32 * (d * d))) with (u32 * (A * (d * d))) by ring. apply Rmult_le_compat_l; [rewrite U|]; lra. }
      assert (A * tiny <= u32 * P).
      { apply Rle_trans with (tiny * 2 ^ 40); [rewrite Rmult_comm; apply Rmult_le_compat_l; lra|].
        assert (u32 * 1 <= u32 * P) by (apply Rmult_le_compat_l; [rewrite U|]; lra). rewrite U in *; lra. }
      lra. }
    assert (F6 : fin (Bmult mode_NE (Bmult mode_NE (Bmult mode_NE (fhalf (S := S32)) a) c) (Bmult mode_NE (bc_dt q) (bc_dt q)))
                   (rnd (g * rnd (d * d)))).
    { apply mul_fin; auto. apply cap127. lra. }
    assert (E6 := rnd_cap (g * rnd (d * d)) (2 * P) ltac:(lra)).
    assert (G6 : Rabs (rnd (g * rnd (d * d))) <= A * (d * d) + 2 * (u32 * P) + (u32 * (2 * P) + tiny)).
    { replace (rnd (g * rnd (d * d))) with ((g * rnd (d * d)) + (rnd (g * rnd (d * d)) - g * rnd (d * d))) by ring.
      apply abs_add; auto. }
    assert (M7 := abs_add _ _ _ _ G2 G6).
    eexists. split.
    - apply (add_fin _ _ _ _ F2 F6). apply cap127. lra.
    - set (z := s1 + rnd (g * rnd (d * d))) in *.
      assert (E7 := rnd_cap z (3 * P) ltac:(lra)).
      replace (rnd z) with (z + (rnd z - z)) by ring.
      eapply Rle_trans; [apply (abs_add _ _ _ _ M7 E7)|].
      assert (P / 2 ^ 20 = 16 * (u32 * P)) by (rewrite U; simpl; field). lra.
  Qed.

  (** The heading never overflows before it is wrapped. *)
  Lemma heading32 (w st sp a : f32) rw rst rsp ra :
    fin w rw -> fin st rst -> fin sp rsp -> fin a ra ->
    Rabs rw <= 2 ^ 100 -> Rabs rst <= St -> Rabs rsp <= 2 ^ 41 -> Rabs ra <= A -> A <= 2 ^ 40 ->
    exists r, fin (wrap_yaws (S := S32) (fadd (Scalar := S32) w (fmul (Scalar := S32) st
        (fadd (Scalar := S32) (fmul (Scalar := S32) sp (bc_dt q))
           (fmul (Scalar := S32) (fmul (Scalar := S32) fhalf a) (fsq (S := S32) (bc_dt q))))))) r /\
      - pi32 <= r < pi32.
  Proof.
    intros Fw Fs Fp Fa Bw Bs Bp Ba BA.
    assert (Big : forall r m, Rabs r <= 2 ^ m -> (m <= 110)%nat -> Rabs r <= b32 127).
    { intros r m H Hm. apply cap127. eapply Rle_trans; [exact H|]. apply Rle_pow; [lra|lia]. }
    assert (M1 : Rabs (rsp * d) <= 2 ^ 41).
    { replace (2 ^ 41) with (2 ^ 41 * 1) by ring. apply abs_mul; auto. rewrite Rabs_pos_eq; lra. }
    assert (F1 := mul_fin _ _ _ _ Fp Hd (Big _ 41%nat M1 ltac:(lia))).
    apply (rnd_pow _ 41) in M1.
    assert (M2 : Rabs (1 / 2 * ra) <= 2 ^ 40).
    { rewrite Rabs_mult, (Rabs_pos_eq (1 / 2)) by lra. pose proof (Rabs_pos ra). lra. }
    assert (F2 := mul_fin _ _ _ _ half_fin Fa (Big _ 40%nat M2 ltac:(lia))).
    apply (rnd_pow _ 40) in M2.
    assert (M3 : Rabs (d * d) <= 2 ^ 0) by (rewrite Rabs_pos_eq; simpl; nra).
    assert (F3 := mul_fin _ _ _ _ Hd Hd (Big _ 0%nat M3 ltac:(lia))).
    apply (rnd_pow _ 0) in M3.
    assert (M4 := abs_mul _ _ _ _ M2 M3). rewrite <- pow_add in M4. change (40 + 0)%nat with 40%nat in M4.
    assert (F4 := mul_fin _ _ _ _ F2 F3 (Big _ 40%nat M4 ltac:(lia))).
    apply (rnd_pow _ 40) in M4.
    assert (M5 := abs_add _ _ _ _ M1 M4).
    assert (P2 : (2:R) ^ 41 + 2 ^ 40 <= 2 ^ 42) by (simpl; lra).
    assert (M5' := Rle_trans _ _ _ M5 P2).
    assert (F5 := add_fin _ _ _ _ F1 F4 (Big _ 42%nat M5' ltac:(lia))).
    apply (rnd_pow _ 42) in M5'.
    assert (M6 := abs_mul _ _ _ _ (Rle_trans _ _ _ Bs (proj2 S1)) M5'). rewrite <- pow_add in M6.
    change (40 + 42)%nat with 82%nat in M6.
    assert (F6 := mul_fin _ _ _ _ Fs F5 (Big _ 82%nat M6 ltac:(lia))).
    apply (rnd_pow _ 82) in M6.
    assert (M7 := abs_add _ _ _ _ Bw M6).
    assert (P3 : (2:R) ^ 100 + 2 ^ 82 <= 2 ^ 101) by (simpl; lra).
    assert (F7 := add_fin _ _ _ _ Fw F6 (Big _ 101%nat (Rle_trans _ _ _ M7 P3) ltac:(lia))).
    exact (wrap_range lm _ _ F7).
  Qed.

  (** The new velocity. *)
  Lemma velocity32 (sp a c s : f32) h rsp ra rc rs C :
    fin sp rsp -> fin a ra -> fin c rc -> fin s rs ->
    0 <= h -> Rabs (rsp - h) <= 5 * u32 * C -> Rabs ra <= A ->
    Rabs rc <= 1 -> Rabs rs <= 1 -> Rabs (rc * rc + rs * rs - 1) <= / 2 ^ 20 ->
    1 <= C <= 2 ^ 40 -> h + A * d <= C ->
    let nv := fadd (Scalar := S32) sp (fmul (Scalar := S32) a (bc_dt q)) in
    exists x y, fin (fmul (Scalar := S32) nv c) x /\ fin (fmul (Scalar := S32) nv s) y /\
      Rabs (len x y - h) <= A * d + C / 2 ^ 19.
  Proof.
    intros Fp Fa Fc Fs H0 Eh Ba Bc Bs Bcs HC Hs nv. pose proof tiny_small as TS.
    assert (U : u32 = / 16777216) by reflexivity.
    assert (AD : 0 <= A * d) by (apply Rmult_le_pos; lra).
    assert (tC : 0 < tiny <= u32 * C / 1000).
    { split; [lra|]. apply Rle_trans with (u32 * 1 / 1000); [rewrite U; simpl in TS; lra|]. rewrite U; lra. }
    assert (P40 : (2:R) ^ 40 * 8 <= 2 ^ 120) by (simpl; lra).
    assert (M1 : Rabs (ra * d) <= A * d) by (apply abs_mul; auto; rewrite Rabs_pos_eq; lra).
    assert (F1 : fin (Bmult mode_NE a (bc_dt q)) (rnd (ra * d))) by (apply mul_fin; auto; apply cap127; lra).
    assert (E1 := rnd_cap (ra * d) C ltac:(lra)).
    assert (G1 : Rabs (rsp + rnd (ra * d) - h) <= A * d + 7 * (u32 * C)).
    { replace (rsp + rnd (ra * d) - h) with ((rsp - h) + (ra * d + (rnd (ra * d) - ra * d))) by ring.
      pose proof (abs_add _ _ _ _ Eh (abs_add _ _ _ _ M1 E1)). lra. }
    assert (G1' : Rabs (rsp + rnd (ra * d)) <= C + 7 * (u32 * C)).
    { replace (rsp + rnd (ra * d)) with (h + (rsp + rnd (ra * d) - h)) by ring.
      pose proof (abs_add h (rsp + rnd (ra * d) - h) h _ ltac:(rewrite Rabs_pos_eq; lra) G1). lra. }
    assert (uC : 0 < u32 * C <= C / 1000) by (rewrite U; lra).
    assert (F2 : fin nv (rnd (rsp + rnd (ra * d)))) by (apply add_fin; auto; apply cap127; lra).
    set (v := rnd (rsp + rnd (ra * d))) in *.
    assert (Ev : Rabs (v - h) <= A * d + 9 * (u32 * C)).
    { pose proof (rnd_near _ h _ _ G1 G1') as R. fold v in R. rewrite U in *. lra. }
    assert (Bv : Rabs v <= 2 * C).
    { replace v with (h + (v - h)) by ring.
      pose proof (abs_add h (v - h) h _ ltac:(rewrite Rabs_pos_eq; lra) Ev). lra. }
    assert (Bv' : Rabs v <= h + (A * d + 9 * (u32 * C))).
    { replace v with (h + (v - h)) by ring. apply abs_add; [rewrite Rabs_pos_eq; lra | exact Ev]. }
    assert (Mx : Rabs (v * rc) <= Rabs v) by (pose proof (abs_mul v rc (Rabs v) 1 ltac:(lra) Bc); lra).
    assert (My : Rabs (v * rs) <= Rabs v) by (pose proof (abs_mul v rs (Rabs v) 1 ltac:(lra) Bs); lra).
    assert (Fx : fin (Bmult mode_NE nv c) (rnd (v * rc))) by (apply mul_fin; auto; apply cap127; lra).
    assert (Fy : fin (Bmult mode_NE nv s) (rnd (v * rs))) by (apply mul_fin; auto; apply cap127; lra).
    exists (rnd (v * rc)), (rnd (v * rs)). split; [exact Fx|]. split; [exact Fy|].
    assert (Bv2 : Rabs v <= C + 9 * (u32 * C)) by lra.
    assert (Ex := rnd_cap (v * rc) _ (Rle_trans _ _ _ Mx Bv2)).
    assert (Ey := rnd_cap (v * rs) _ (Rle_trans _ _ _ My Bv2)).
    assert (Tr := len_triangle (v * rc) (v * rs) (rnd (v * rc)) (rnd (v * rs))).
    (* the length before the last rounding *)
    set (L := len (v * rc) (v * rs)) in *.
    assert (SN : Rabs (L - Rabs v) <= / 2 ^ 20 * Rabs v + 0).
    { apply sqrt_near; [apply Rabs_pos | simpl; lra | lra | |].
      - pose proof (Rle_0_sqr (v * rc)). pose proof (Rle_0_sqr (v * rs)). unfold Rsqr in *. lra.
      - assert (VV : Rabs v * Rabs v = v * v) by (rewrite <- Rabs_mult; apply Rabs_pos_eq; nra).
        rewrite VV. replace (v * rc * (v * rc) + v * rs * (v * rs) - v * v) with (v * v * (rc * rc + rs * rs - 1)) by ring.
        rewrite Rabs_mult, (Rabs_pos_eq (v * v)) by nra.
        assert (v * v * Rabs (rc * rc + rs * rs - 1) <= v * v * / 2 ^ 20) by (apply Rmult_le_compat_l; [nra|lra]). lra. }
    assert (SN' : Rabs (L - Rabs v) <= 16 * u32 * (C + 9 * (u32 * C))).
    { eapply Rle_trans; [exact SN|]. replace (/ 2 ^ 20) with (16 * u32) by (rewrite U; simpl; field).
      rewrite Rplus_0_r. apply Rmult_le_compat_l; [rewrite U; lra | exact Bv2]. }
    assert (Ea : Rabs (Rabs v - h) <= A * d + 9 * (u32 * C)).
    { rewrite <- (Rabs_pos_eq h) at 1 by exact H0. eapply Rle_trans; [apply Rabs_triang_inv2 | exact Ev]. }
    replace (len (rnd (v * rc)) (rnd (v * rs)) - h)
      with ((len (rnd (v * rc)) (rnd (v * rs)) - L) + ((L - Rabs v) + (Rabs v - h))) by ring.
    pose proof (abs_add _ _ _ _ (Rle_trans _ _ _ Tr (Rplus_le_compat _ _ _ _ Ex Ey)) (abs_add _ _ _ _ SN' Ea)) as Z.
    eapply Rle_trans; [exact Z|]. replace (C / 2 ^ 19) with (32 * (u32 * C)) by (rewrite U; simpl; field).
    rewrite U in *. lra.
  Qed.

  Lemma bicycle_step32 (a : act (S := S32)) (p : pt (S := S32)) X V C P :
    not_nan2 a -> bounded32 X V p -> 1 <= C <= 2 ^ 40 -> A <= 2 ^ 40 -> V + A * d <= C ->
    1 <= P <= 2 ^ 60 -> X + (C * d + A * (d * d)) <= P ->
    exists u x y w vx vy vx0 vy0, bicycle_update q a p = Ok u /\
      fin (u_x u) x /\ fin (u_y u) y /\ fin (u_yaw u) w /\ fin (u_vx u) vx /\ fin (u_vy u) vy /\
      Rabs x <= X + (C * d + A * (d * d) + P / 2 ^ 20) /\ Rabs y <= X + (C * d + A * (d * d) + P / 2 ^ 20) /\
      - pi32 <= w < pi32 /\ fin (p_vx p) vx0 /\ fin (p_vy p) vy0 /\
      Rabs (len vx vy - len vx0 vy0) <= A * d + C / 2 ^ 19.
  Proof.
    intros (ra & rs & rest & Ed & Na & Ns) (x & y & w & vx & vy & Fx & Fy & Fw & Fvx & Fvy & Bx & By & Bw & BV)
      HC BA HV HP HX.
    unfold bicycle_update. rewrite Ed.
    assert (K := controls ra rs Na Ns ltac:(simpl in *; lra)).
    destruct (bicycle_clip q ra rs) as [a0 s0].
    destruct K as (ac & st & Fa & Fs & Ba & Bs).
    set (accel := if bc_normalize q then fmul (Scalar := S32) a0 (bc_max_accel q) else a0) in *.
    set (steer := if bc_normalize q then fmul (Scalar := S32) s0 (bc_max_steering q) else s0) in *.
    fold (len vx vy) in BV.
    assert (AD : 0 <= A * d) by (apply Rmult_le_pos; lra).
    destruct (vel_norm_fin _ _ _ _ C Fvx Fvy ltac:(simpl in *; lra) ltac:(lra)) as (sp & Fsp & Psp & Esp).
    assert (U : u32 = / 16777216) by reflexivity.
    assert (Bsp : Rabs sp <= 2 ^ 41).
    { apply Rabs_le_inv in Esp. rewrite Rabs_pos_eq by exact Psp. pose proof (len_pos vx vy). rewrite U in *. simpl in *. lra. }
    destruct (TR (p_yaw p) (proj1 Fw)) as (c & s & Fc & Fsn & Bc & Bsn & Bcs).
    pose proof (len_fst vx vy). pose proof (len_snd vx vy).
    destruct (coord32 (p_x p) (p_vx p) accel (lm_cos lm (p_yaw p)) x vx ac c X C P) as (x' & Fx' & Bx'); auto; [lra|lra|].
    destruct (coord32 (p_y p) (p_vy p) accel (lm_sin lm (p_yaw p)) y vy ac s X C P) as (y' & Fy' & By'); auto; [lra|lra|].
    destruct (heading32 (p_yaw p) steer (vel_norm (S := S32) (p_vx p) (p_vy p)) accel w st sp ac) as (w' & Fw' & Bw'); auto.
    cbv zeta. eexists.
    match goal with |- context [mkupd (S := S32) _ _ ?yaw _ _ _] => set (ny := yaw) end.
    destruct (TR ny (proj1 Fw')) as (c' & s' & Fc' & Fs' & Bc' & Bs' & Bcs').
    destruct (velocity32 (vel_norm (S := S32) (p_vx p) (p_vy p)) accel (lm_cos lm ny) (lm_sin lm ny) (len vx vy) sp ac c' s' C)
      as (vx' & vy' & Fvx' & Fvy' & Ev); auto; [apply len_pos | lra |].
    exists x', y', w', vx', vy', vx, vy. split; [reflexivity|]. cbn [u_x u_y u_yaw u_vx u_vy].
    split; [exact Fx'|]. split; [exact Fy'|]. split; [exact Fw'|]. split; [exact Fvx'|]. split; [exact Fvy'|].
    auto 10.
  Qed.
End Step.
