(** Angles and rounding: real-number lemmas used for float32 headings. *)
From Coq Require Import ZArith Reals Lra Lia Machin.
From Flocq Require Import Core.Raux.
From Verif.Spec Require Import GeomSpec F32Spec.
From Verif.Proofs Require Import P_Angles P_F32 P_F32Wrap P_F32Bicycle.
Open Scope R_scope.

(** The float32 nearest to pi is at most 10^-7 above pi. *)
Lemma pi32_near : PI <= pi32 <= PI + / 10000000.
Proof.
  pose proof (PI_2_3_7_ineq 4) as [L U].
  unfold tg_alt, PI_2_3_7_tg, Ratan_seq in L, U. simpl in L, U. unfold pi32. lra.
Qed.

(** An angle with a small sine and a positive cosine is near a whole turn. *)
Lemma arc z x : 0 <= x <= 1 / 2 -> Rabs (sin z) <= x -> 0 < cos z ->
  exists j : Z, Rabs (z + IZR j * (2 * PI)) <= 2 * x.
Proof.
  intros Hx Hs Hc. pose proof PI_RGT_0 as P0.
  assert (K : forall w, 0 <= w < PI -> 0 < cos w -> Rabs (sin w) <= x -> w <= 2 * x).
  { intros w Hw Cw Sw.
    destruct (Rle_lt_dec w (PI / 3)) as [L|L].
    - destruct (Req_dec w 0) as [->|N]; [lra|].
      destruct (MVT_cor2 sin cos 0 w) as (c & E & Hc'); [lra | intros; apply derivable_pt_lim_sin |].
      rewrite sin_0 in E.
      assert (1 / 2 <= cos c). { rewrite <- cos_PI3. apply cos_decr_1; lra. }
      assert (1 / 2 * w <= cos c * w) by (apply Rmult_le_compat_r; lra).
      pose proof (Rle_abs (sin w)). lra.
    - exfalso. destruct (Rle_lt_dec (PI / 2) w) as [G|G].
      + assert (cos w <= 0) by (apply cos_le_0; lra). lra.
      + assert (sin (PI / 3) < sin w) by (apply sin_increasing_1; lra).
        rewrite sin_PI3 in *. assert (1 < sqrt 3) by (rewrite <- sqrt_1; apply sqrt_lt_1; lra).
        pose proof (Rle_abs (sin w)). lra. }
  destruct (Rwrap_cong z) as [j E]. exists j. rewrite <- E.
  pose proof (Rwrap_range z) as [N1 N2].
  assert (Cw : 0 < cos (Rwrap z)) by (rewrite cos_wrap; exact Hc).
  assert (Sw : Rabs (sin (Rwrap z)) <= x) by (rewrite sin_wrap; exact Hs).
  unfold Rabs at 1. destruct (Rcase_abs (Rwrap z)) as [Ng|Ng].
  - apply K.
    + split; [lra|]. destruct (Req_dec (Rwrap z) (- PI)) as [Eq|]; [|lra].
      rewrite Eq, cos_neg, cos_PI in Cw. lra.
    + rewrite cos_neg. exact Cw.
    + rewrite sin_neg, Rabs_Ropp. exact Sw.
  - apply K; auto. lra.
Qed.

(** The direction of a rounded vector [v (c, s)], where (c, s) approximates the
    unit vector at angle [w]. *)
Lemma direction v c s w th :
  1 / 4 <= v -> Rabs (c - cos w) <= / 2 ^ 23 -> Rabs (s - sin w) <= / 2 ^ 23 ->
  Rabs c <= 1 -> Rabs s <= 1 ->
  rnd (v * c) = len (rnd (v * c)) (rnd (v * s)) * cos th ->
  rnd (v * s) = len (rnd (v * c)) (rnd (v * s)) * sin th ->
  Rabs (len (rnd (v * c)) (rnd (v * s)) - v) <= 7 * u32 * v /\
  exists j : Z, Rabs (th - w + IZR j * (2 * PI)) <= 13 * u32.
Proof.
  intros Hv Ec Es Bc Bs Ex Ey. set (r := len (rnd (v * c)) (rnd (v * s))) in *.
  assert (U : u32 = / 16777216) by reflexivity.
  pose proof tiny_small as TS.
  assert (T1 : tiny <= u32 * v / 1000).
  { apply Rle_trans with (u32 * (1 / 4) / 1000); [rewrite U; simpl in TS; lra|].
    rewrite U. lra. }
  assert (E23 : / 2 ^ 23 = 2 * u32) by (rewrite U; simpl; lra).
  rewrite E23 in Ec, Es.
  pose proof (SIN_bound w) as SB. pose proof (COS_bound w) as CB.
  assert (Av : Rabs v = v) by (apply Rabs_pos_eq; lra).
  assert (R1 : Rabs (rnd (v * c) - v * c) <= 1001 / 1000 * (u32 * v)).
  { pose proof (rnd_cap (v * c) v) as H. pose proof (abs_mul v c v 1 ltac:(lra) Bc). specialize (H ltac:(lra)). lra. }
  assert (R2 : Rabs (rnd (v * s) - v * s) <= 1001 / 1000 * (u32 * v)).
  { pose proof (rnd_cap (v * s) v) as H. pose proof (abs_mul v s v 1 ltac:(lra) Bs). specialize (H ltac:(lra)). lra. }
  pose proof (sin2_cos2 w) as P1. unfold Rsqr in P1.
  assert (Cw : Rabs (cos w) <= 1) by (apply Rabs_le; lra).
  assert (Sw : Rabs (sin w) <= 1) by (apply Rabs_le; lra).
  (* across *)
  assert (A : Rabs (r * sin (th - w)) <= 61 / 10 * (u32 * v)).
  { rewrite sin_minus. replace (r * (sin th * cos w - cos th * sin w)) with ((r * sin th) * cos w - (r * cos th) * sin w) by ring.
    rewrite <- Ex, <- Ey.
    replace (rnd (v * s) * cos w - rnd (v * c) * sin w)
      with ((rnd (v * s) - v * s) * cos w + (rnd (v * c) - v * c) * (- sin w)
            + (v * ((s - sin w) * cos w) + v * ((c - cos w) * (- sin w)))) by ring.
    assert (Sw' : Rabs (- sin w) <= 1) by (rewrite Rabs_Ropp; exact Sw).
    pose proof (abs_add _ _ _ _ (abs_add _ _ _ _ (abs_mul _ _ _ _ R2 Cw) (abs_mul _ _ _ _ R1 Sw'))
      (abs_add _ _ _ _ (abs_mul v _ v _ ltac:(lra) (abs_mul _ _ _ _ Es Cw)) (abs_mul v _ v _ ltac:(lra) (abs_mul _ _ _ _ Ec Sw')))) as Z.
    eapply Rle_trans; [exact Z|]. rewrite U in *. lra. }
  (* along *)
  assert (B : Rabs (r * cos (th - w) - v) <= 61 / 10 * (u32 * v)).
  { rewrite cos_minus. replace (r * (cos th * cos w + sin th * sin w) - v) with ((r * cos th) * cos w + (r * sin th) * sin w - v) by ring.
    rewrite <- Ex, <- Ey.
    replace (rnd (v * c) * cos w + rnd (v * s) * sin w - v)
      with ((rnd (v * c) - v * c) * cos w + (rnd (v * s) - v * s) * sin w
            + (v * ((c - cos w) * cos w) + v * ((s - sin w) * sin w))).
    2:{ assert (Pv : v * (sin w * sin w) + v * (cos w * cos w) = v) by (rewrite <- Rmult_plus_distr_l, P1; ring). lra. }
    pose proof (abs_add _ _ _ _ (abs_add _ _ _ _ (abs_mul _ _ _ _ R1 Cw) (abs_mul _ _ _ _ R2 Sw))
      (abs_add _ _ _ _ (abs_mul v _ v _ ltac:(lra) (abs_mul _ _ _ _ Ec Cw)) (abs_mul v _ v _ ltac:(lra) (abs_mul _ _ _ _ Es Sw)))) as Z.
    eapply Rle_trans; [exact Z|]. rewrite U in *. lra. }
  assert (uv : 0 < u32 * v <= v / 1000) by (rewrite U; lra).
  assert (r0 : 0 <= r) by apply len_pos.
  apply Rabs_le_inv in B.
  assert (Hcos : 0 < cos (th - w)).
  { destruct (Rle_lt_dec (cos (th - w)) 0) as [L|L]; [|exact L].
    assert (r * cos (th - w) <= 0) by nra. lra. }
  assert (Rlow : v - 61 / 10 * (u32 * v) <= r).
  { pose proof (COS_bound (th - w)). assert (r * cos (th - w) <= r * 1) by (apply Rmult_le_compat_l; lra). lra. }
  assert (Rup : r <= v + 7 * (u32 * v)).
  { pose proof (sin2_cos2 (th - w)) as P2. unfold Rsqr in P2.
    apply Rabs_le_inv in A.
    assert (Q : r * r = (r * sin (th - w)) * (r * sin (th - w)) + (r * cos (th - w)) * (r * cos (th - w))).
    { replace (r * sin (th - w) * (r * sin (th - w)) + r * cos (th - w) * (r * cos (th - w)))
        with (r * r * (sin (th - w) * sin (th - w) + cos (th - w) * cos (th - w))) by ring. rewrite P2. ring. }
    set (X := r * sin (th - w)) in *. set (Y := r * cos (th - w)) in *. set (e := u32 * v) in *.
    assert (QX : X * X <= (61 / 10 * e) * (61 / 10 * e)) by nra.
    assert (QY : Y * Y <= (v + 61 / 10 * e) * (v + 61 / 10 * e)) by nra.
    assert (QE : e * e <= e * v / 1000) by nra.
    destruct (Rle_lt_dec r (v + 7 * e)) as [L|L]; [exact L|]. exfalso.
    assert ((v + 7 * e) * (v + 7 * e) < r * r) by nra. nra. }
  split.
  { apply Rabs_le. lra. }
  destruct (arc (th - w) (62 / 10 * u32)) as [j Hj]; [rewrite U; lra | | exact Hcos |].
  - rewrite Rabs_mult, (Rabs_pos_eq r r0) in A.
    destruct (Rle_lt_dec (Rabs (sin (th - w))) (62 / 10 * u32)) as [L|L]; [exact L|]. exfalso.
    assert (r * (62 / 10 * u32) <= r * Rabs (sin (th - w))) by (apply Rmult_le_compat_l; lra).
    assert ((v - 61 / 10 * (u32 * v)) * (62 / 10 * u32) <= r * (62 / 10 * u32)) by (apply Rmult_le_compat_r; [rewrite U; lra | exact Rlow]).
    rewrite U in *. lra.
  - exists j. lra.
Qed.

(** The turn inferred from two headings, when the second is the wrapped sum of the
    first and [dl], is no larger than [dl] up to 13 parts in a million. *)
Lemma inferred_turn y0 y' z w rho diff out dl (k1 k2 k3 j : Z) :
  Rabs y0 <= 4 -> Rabs dl <= 31 ->
  Rabs (y' - (y0 - IZR k1 * (2 * pi32))) <= u32 * (Rabs y0 + 4 * pi32) -> - pi32 <= y' < pi32 ->
  z = rnd (y0 + dl) ->
  Rabs (w - (z - IZR k2 * (2 * pi32))) <= u32 * (Rabs z + 4 * pi32) -> - pi32 <= w < pi32 ->
  Rabs (rho - w + IZR j * (2 * PI)) <= 30 * u32 -> Rabs rho <= 4 ->
  diff = rnd (rho - y') ->
  Rabs (out - (diff - IZR k3 * (2 * pi32))) <= u32 * (Rabs diff + 4 * pi32) -> - pi32 <= out < pi32 ->
  Rabs out <= Rabs dl + 13 / 1000000.
Proof.
  intros By Bd E1 R1 Ez E2 R2 E3 B3 Ed E4 R4.
  pose proof pi32_val as PV. pose proof pi32_near as PN. pose proof tiny_small as TS.
  assert (U : u32 = / 16777216) by reflexivity.
  assert (T1 : tiny <= u32 / 1000) by (rewrite U; simpl in TS; lra).
  assert (By' := By). assert (Bd' := Bd). apply Rabs_le_inv in By', Bd', B3.
  assert (Ez' : Rabs (z - (y0 + dl)) <= 36 * u32).
  { rewrite Ez. pose proof (rnd_cap (y0 + dl) 35 ltac:(apply Rabs_le; lra)). lra. }
  assert (Bz : Rabs z <= 36) by (apply Rabs_le_inv in Ez'; apply Rabs_le; rewrite U in *; lra).
  assert (Ed' : Rabs (diff - (rho - y')) <= 9 * u32).
  { rewrite Ed. pose proof (rnd_cap (rho - y') 8 ltac:(apply Rabs_le; lra)). lra. }
  assert (Bdf : Rabs diff <= 9) by (apply Rabs_le_inv in Ed'; apply Rabs_le; rewrite U in *; lra).
  assert (E1' : Rabs (y' - (y0 - IZR k1 * (2 * pi32))) <= 20 * u32).
  { eapply Rle_trans; [exact E1|]. rewrite U. lra. }
  assert (E2' : Rabs (w - (z - IZR k2 * (2 * pi32))) <= 52 * u32).
  { eapply Rle_trans; [exact E2|]. rewrite U. lra. }
  assert (E4' : Rabs (out - (diff - IZR k3 * (2 * pi32))) <= 25 * u32).
  { eapply Rle_trans; [exact E4|]. rewrite U. lra. }
  clear E1 E2 E4 Ez Ed By Bd.
  set (K := (k1 - k2 - k3)%Z).
  assert (Main : Rabs (out - (dl + IZR K * (2 * pi32) - IZR j * (2 * PI))) <= 172 * u32).
  { unfold K. rewrite !minus_IZR.
    apply Rabs_le_inv in E1', E2', E3, E4', Ez', Ed'. apply Rabs_le. lra. }
  assert (Bj : Rabs (IZR j) <= 1).
  { assert (- (8 + 30 * u32) <= IZR j * (2 * PI) <= 8 + 30 * u32) by (apply Rabs_le_inv in E3; lra).
    assert (A : IZR j < 2) by (rewrite U in *; nra). assert (B : -2 < IZR j) by (rewrite U in *; nra).
    apply lt_IZR in A. apply lt_IZR in B. rewrite <- abs_IZR. apply IZR_le. lia. }
  assert (BK : Rabs (IZR K) <= 8).
  { assert (J7 : Rabs (IZR j * (2 * PI)) <= 1 * 8) by (apply abs_mul; [exact Bj | rewrite Rabs_pos_eq; lra]).
    apply Rabs_le_inv in Main, J7.
    assert (KP : - 44 <= IZR K * (2 * pi32) <= 44) by (rewrite U in *; lra).
    assert (A : IZR K < 9).
    { destruct (Rlt_le_dec (IZR K) 9) as [L|L]; [exact L|].
      assert (9 * (2 * pi32) <= IZR K * (2 * pi32)) by (apply Rmult_le_compat_r; lra). lra. }
    assert (B : -9 < IZR K).
    { destruct (Rlt_le_dec (-9) (IZR K)) as [L|L]; [exact L|].
      assert (IZR K * (2 * pi32) <= -9 * (2 * pi32)) by (apply Rmult_le_compat_r; lra). lra. }
    apply lt_IZR in A. apply lt_IZR in B. rewrite <- abs_IZR. apply IZR_le. lia. }
  set (M := (K - j)%Z).
  assert (Main' : Rabs (out - (dl + IZR M * (2 * PI))) <= 172 * u32 + 16 / 10000000).
  { unfold M. rewrite minus_IZR.
    replace (out - (dl + (IZR K - IZR j) * (2 * PI)))
      with ((out - (dl + IZR K * (2 * pi32) - IZR j * (2 * PI))) + IZR K * (2 * (pi32 - PI))) by ring.
    apply abs_add; [exact Main|]. replace (16 / 10000000) with (8 * (2 / 10000000)) by lra.
    apply abs_mul; [exact BK|]. rewrite Rabs_pos_eq; lra. }
  assert (Tot : 172 * u32 + 16 / 10000000 <= 119 / 10000000) by (rewrite U; lra).
  apply Rabs_le_inv in Main'.
  destruct (Z.eq_dec M 0) as [E0|N0].
  - rewrite E0 in Main'. simpl in Main'. unfold Rabs. destruct (Rcase_abs out); destruct (Rcase_abs dl); lra.
  - assert (Far : 2 * PI <= Rabs (IZR M * (2 * PI))).
    { rewrite Rabs_mult, (Rabs_pos_eq (2 * PI)) by lra. rewrite <- abs_IZR.
      assert (1 <= IZR (Z.abs M)) by (apply IZR_le; lia). nra. }
    assert (Rabs out <= pi32) by (apply Rabs_le; lra).
    assert (2 * PI - pi32 - 119 / 10000000 <= Rabs dl).
    { assert (Rabs (IZR M * (2 * PI)) <= Rabs out + (119 / 10000000) + Rabs dl).
      { replace (IZR M * (2 * PI)) with (out + - (out - (dl + IZR M * (2 * PI))) + - dl) by ring.
        apply abs_add; [|rewrite Rabs_Ropp; lra]. apply abs_add; [lra|]. rewrite Rabs_Ropp. apply Rabs_le. lra. }
      lra. }
    lra.
Qed.
