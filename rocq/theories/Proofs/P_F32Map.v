(** Map metrics in float32: off-road, wrong way, off route. *)
From Coq Require Import List ZArith Reals Lra Lia Bool.
From Flocq Require Import Core.Raux IEEE754.BinarySingleNaN.
From Verif.Lib Require Import Base JaxIndex Scalar XR F32.
From Verif.Model Require Import Operations State Dynamics BaseEnv Dyn_State Geometry Discretizer Comfort Metrics Actor Waypoint.
From Verif.Spec Require Import StateSpec GeomSpec DynSpec AgentSpec MetricSpec F32Spec F32EpisodeSpec F32GeomSpec F32DriveSpec F32MapSpec.
From Verif.Proofs Require Import Core P_Metrics P_F32 P_F32Wrap P_F32Delta P_F32Bicycle P_F32Kim P_F32Special P_F32Overlap P_F32Idm P_F32Route P_Route.
Import ListNotations.
Open Scope R_scope.

Lemma Forall2_nth_l {A B} (R : A -> B -> Prop) l m i a : Forall2 R l m -> nth_error l i = Some a ->
  exists b, nth_error m i = Some b /\ R a b.
Proof.
  intros H. revert i. induction H as [|x y l m Hx H IH]; intros [|i] E; try discriminate; cbn [nth_error] in *.
  - assert (x = a) by congruence. subst x. eauto.
  - auto.
Qed.
Lemma Forall2_nth_r {A B} (R : A -> B -> Prop) l m i b : Forall2 R l m -> nth_error m i = Some b ->
  exists a, nth_error l i = Some a /\ R a b.
Proof.
  intros H. revert i. induction H as [|x y l m Hx H IH]; intros [|i] E; try discriminate; cbn [nth_error] in *.
  - assert (y = b) by congruence. subst y. eauto.
  - auto.
Qed.

(** * Distances in space *)
Definition len3 (a b c : R) : R := sqrt (a * a + b * b + c * c).

Lemma len3_len a b c : len3 a b c = len (len a b) c.
Proof. unfold len3, len. f_equal. rewrite sqrt_sqrt; [reflexivity|]. apply Rplus_le_le_0_compat; apply Rle_0_sqr. Qed.

Lemma len3_near a b c a' b' c' : Rabs (len3 a' b' c' - len3 a b c) <= Rabs (a' - a) + Rabs (b' - b) + Rabs (c' - c).
Proof.
  rewrite !len3_len. eapply Rle_trans; [apply len_triangle|]. apply Rplus_le_compat_r. apply len_triangle.
Qed.

Lemma sqrt_near f N M : 0 <= N <= M -> 1 <= M -> 0 <= f -> Rabs (f - N * N) <= 4 * u32 * (N * N) + 10 * tiny ->
  Rabs (sqrt f - N) <= 5 * (M / 16777216).
Proof.
  intros HN HM F0 E. pose proof tiny_small as TS. assert (U : u32 = / 16777216) by reflexivity. rewrite U in E. clear U.
  replace (/ 2 ^ 100) with (/ 1267650600228229401496703205376) in TS by (simpl; lra).
  apply Rabs_le_inv in E. set (d := 5 * (M / 16777216)) in *.
  assert (D0 : 0 < d) by (unfold d; lra).
  assert (ND : N * (4 * (M / 16777216)) <= N * d) by (apply Rmult_le_compat_l; unfold d; lra).
  assert (NN : N * N <= N * M) by (apply Rmult_le_compat_l; lra).
  assert (DD : / 1000000000000 * / 1000 <= d * d).
  { apply Rle_trans with (5 / 16777216 * (5 / 16777216)); [lra|]. apply Rmult_le_compat; unfold d; lra. }
  pose proof (sqrt_pos f) as SP. apply Rabs_le. split.
  - destruct (Rle_lt_dec N d) as [L|L]; [lra|].
    assert (G : N - d <= sqrt f); [|lra].
    rewrite <- (sqrt_square (N - d)) by lra. apply sqrt_le_1_alt.
    replace ((N - d) * (N - d)) with (N * N - 2 * (N * d) + d * d) by ring.
    assert (d * d <= N * d) by (apply Rmult_le_compat_r; lra).
    assert (N * M / 16777216 * 4 <= N * d - N * (M / 16777216)) by (unfold d; lra).
    assert (N * (M / 16777216) >= d * (M / 16777216)) by (apply Rmult_ge_compat_r; lra).
    assert (d * (M / 16777216) = d * d / 5) by (unfold d; field).
    lra.
  - assert (G : sqrt f <= N + d); [|lra].
    rewrite <- (sqrt_square (N + d)) by lra. apply sqrt_le_1_alt.
    replace ((N + d) * (N + d)) with (N * N + 2 * (N * d) + d * d) by ring.
    lra.
Qed.

Lemma rnd_rel a : 0 <= a -> 0 <= rnd a /\ Rabs (rnd a - a) <= u32 * a + tiny.
Proof.
  intros H. split; [rewrite <- rnd_0; now apply rnd_le|]. apply rnd_cap. rewrite Rabs_pos_eq; lra.
Qed.

Section Map.
  Variable lm : libm.
  Notation S32 := (F32 lm).
  Variable P : R.
  Hypothesis P1 : 1 <= P <= 2 ^ 30.
  Notation K := (P / 16777216).

  Let T1 : 0 < tiny <= P / 16777216 / 1000.
  Proof. pose proof tiny_small as T. lra. Qed.

  Lemma edge_dist32 (qx qy qz : f32) (r : rgpt (S := S32)) e a b z :
    fin qx a -> fin qy b -> fin qz z -> Rabs a <= 2 * P -> Rabs b <= 2 * P -> Rabs z <= P ->
    edge32 P r e -> is_edge e ->
    exists f, fin (edge_sq_dist (S := S32) (qx, qy, qz) r) f /\ Rabs (sqrt f - sqrt (stretched (a, b, z) (re_p e))) <= 47 * K.
  Proof.
    intros Fa Fb Fz Ba Bb Bz HE (Hv & Ht). destruct e as [[[x y] w] [[dx dy] dw] ty id v].
    unfold edge32 in HE. cbn [re_p re_d re_type re_id re_valid] in *.
    destruct HE as (Fx & Fy & Fw & _ & _ & Bx & By & Bw & _ & _ & Et & _ & Ev).
    unfold edge_sq_dist. cbn [fst snd]. rewrite Ev, Et, Hv.
    assert (Er : is_road_edge ty = true) by (unfold is_road_edge; destruct Ht as [-> | ->]; reflexivity).
    rewrite Er. cbn [andb]. cbv zeta.
    assert (U : u32 = / 16777216) by reflexivity.
    pose proof (ap_exact _ _ 1 (f1_fin lm) ltac:(rewrite Rabs_pos_eq; lra)) as A1.
    pose proof (ap_exact _ _ 2 (f2_fin lm) ltac:(rewrite Rabs_pos_eq; lra)) as A2.
    pose proof (ap_sub _ _ _ _ _ _ _ _ (ap_exact _ _ _ Fx Bx) (ap_exact _ _ _ Fa Ba) ltac:(lra)) as X.
    pose proof (ap_sub _ _ _ _ _ _ _ _ (ap_exact _ _ _ Fy By) (ap_exact _ _ _ Fb Bb) ltac:(lra)) as Y.
    pose proof (ap_sub _ _ _ _ _ _ _ _ (ap_exact _ _ _ Fw Bw) (ap_exact _ _ _ Fz Bz) ltac:(lra)) as W.
    destruct X as (x' & Fx' & Ex & Mx). destruct Y as (y' & Fy' & Ey & My).
    pose proof (ap_weaken _ _ _ _ (21 / 10 * K) (2 * P) W ltac:(rewrite U; lra) ltac:(lra)) as W'.
    destruct (ap_mul _ _ _ _ _ _ _ _ W' A2 ltac:(lra)) as (w' & Fw' & Ew & Mw).
    assert (One : forall g c, fin g c -> Rabs c <= 4 * P -> fin (Bmult mode_NE g (f1 (S := S32))) c).
    { intros g c F B. pose proof (mul_fin _ _ _ _ F (f1_fin lm)) as M. rewrite Rmult_1_r in M.
      rewrite (rnd_id c) in M by exact (fin_rep _ _ F). apply M. apply big127. lra. }
    assert (Ex' : Rabs (x' - (x - a)) <= 31 / 10 * K) by (eapply Rle_trans; [exact Ex|]; rewrite U; lra).
    assert (Ey' : Rabs (y' - (y - b)) <= 31 / 10 * K) by (eapply Rle_trans; [exact Ey|]; rewrite U; lra).
    assert (Ew' : Rabs (w' - (w - z) * 2) <= 83 / 10 * K) by (eapply Rle_trans; [exact Ew|]; rewrite U; lra).
    pose proof (ap_val _ _ _ _ _ Fx' Ex' Mx) as Bx'. pose proof (ap_val _ _ _ _ _ Fy' Ey' My) as By'.
    pose proof (ap_val _ _ _ _ _ Fw' Ew' Mw) as Bw'.
    assert (Gx : fin (fmul (Scalar := S32) (fsub (Scalar := S32) (rg_x r) qx) f1) x') by (apply One; [exact Fx' | lra]).
    assert (Gy : fin (fmul (Scalar := S32) (fsub (Scalar := S32) (rg_y r) qy) f1) y') by (apply One; [exact Fy' | lra]).
    assert (Gw : fin (fmul (Scalar := S32) (fsub (Scalar := S32) (rg_z r) qz) f2) w') by exact Fw'.
    set (gx := fmul (Scalar := S32) (fsub (Scalar := S32) (rg_x r) qx) f1) in *.
    set (gy := fmul (Scalar := S32) (fsub (Scalar := S32) (rg_y r) qy) f1) in *.
    set (gw := fmul (Scalar := S32) (fsub (Scalar := S32) (rg_z r) qz) f2) in *.
    assert (Sq : forall g c m, fin g c -> Rabs c <= m -> m <= 5 * P ->
              fin (Bmult mode_NE g g) (rnd (c * c)) /\ 0 <= c * c <= 25 * (P * P)).
    { intros g c m F B Hm. assert (Q : 0 <= c * c <= 25 * (P * P)).
      { split; [apply Rle_0_sqr|]. rewrite <- (Rabs_pos_eq (c * c)) by apply Rle_0_sqr.
        replace (25 * (P * P)) with ((5 * P) * (5 * P)) by ring. apply abs_mul; lra. }
      split; [|exact Q]. apply mul_fin; auto. apply big127. rewrite Rabs_pos_eq by lra.
      assert (P * P <= 2 ^ 30 * 2 ^ 30) by (apply Rmult_le_compat; lra). replace (2 ^ 70) with (1024 * (2 ^ 30 * 2 ^ 30)) by ring.
      assert (0 <= 2 ^ 30 * 2 ^ 30) by (apply Rmult_le_pos; apply pow_le; lra). lra. }
    assert (PP : P * P <= 2 ^ 30 * 2 ^ 30) by (apply Rmult_le_compat; lra).
    assert (P70 : 1024 * (P * P) <= 2 ^ 70) by (replace (2 ^ 70) with (1024 * (2 ^ 30 * 2 ^ 30)) by ring; lra).
    assert (P0 : 1 <= P * P) by (rewrite <- (Rmult_1_r 1); apply Rmult_le_compat; lra).
    destruct (Sq _ _ _ Gx Bx' ltac:(lra)) as (Hx & Qx). destruct (Sq _ _ _ Gy By' ltac:(lra)) as (Hy & Qy).
    destruct (Sq _ _ _ Gw Bw' ltac:(lra)) as (Hw & Qw).
    destruct (rnd_rel _ (proj1 Qx)) as (Nx & Rx). destruct (rnd_rel _ (proj1 Qy)) as (Ny & Ry). destruct (rnd_rel _ (proj1 Qw)) as (Nw & Rw).
    rewrite U in Rx, Ry, Rw. apply Rabs_le_inv in Rx, Ry, Rw.
    pose proof (add_fin _ _ _ _ Hx Hy ltac:(apply big127; rewrite Rabs_pos_eq; lra)) as Hs.
    destruct (rnd_rel (rnd (x' * x') + rnd (y' * y')) ltac:(lra)) as (Ns & Rs). rewrite U in Rs. apply Rabs_le_inv in Rs.
    pose proof (add_fin _ _ _ _ Hs Hw ltac:(apply big127; rewrite Rabs_pos_eq; lra)) as Hf.
    destruct (rnd_rel (rnd (rnd (x' * x') + rnd (y' * y')) + rnd (w' * w')) ltac:(lra)) as (Nf & Rf). rewrite U in Rf. apply Rabs_le_inv in Rf.
    eexists. split; [exact Hf|].
    set (f := rnd (rnd (rnd (x' * x') + rnd (y' * y')) + rnd (w' * w'))) in *.
    set (N := len3 x' y' w').
    assert (N0 : 0 <= N) by apply sqrt_pos.
    assert (NN : N * N = x' * x' + y' * y' + w' * w') by (apply sqrt_sqrt; lra).
    assert (D : sqrt (stretched (a, b, z) (x, y, w)) = len3 (x - a) (y - b) ((w - z) * 2)).
    { unfold stretched, len3. f_equal. ring. }
    rewrite D. pose proof (len3_near (x - a) (y - b) ((w - z) * 2) x' y' w') as TR. fold N in TR.
    assert (NM : N <= 6 * P).
    { unfold N, len3. rewrite <- (sqrt_square (6 * P)) by lra. apply sqrt_le_1_alt.
      assert (B1 : x' * x' <= (31 / 10 * P) * (31 / 10 * P)).
      { rewrite <- (Rabs_pos_eq (x' * x')) by lra. apply abs_mul; lra. }
      assert (B2 : y' * y' <= (31 / 10 * P) * (31 / 10 * P)).
      { rewrite <- (Rabs_pos_eq (y' * y')) by lra. apply abs_mul; lra. }
      assert (B3 : w' * w' <= (401 / 100 * P) * (401 / 100 * P)).
      { rewrite <- (Rabs_pos_eq (w' * w')) by lra. apply abs_mul; lra. }
      lra. }
    assert (SN : Rabs (sqrt f - N) <= 5 * (6 * P / 16777216)).
    { apply sqrt_near; [lra | lra | exact Nf|]. rewrite NN, U. apply Rabs_le. lra. }
    replace (sqrt f - len3 (x - a) (y - b) ((w - z) * 2)) with ((sqrt f - N) + (N - len3 (x - a) (y - b) ((w - z) * 2))) by ring.
    eapply Rle_trans; [apply Rabs_triang|]. lra.
  Qed.

  Lemma not_edge32 (qx qy qz : f32) (r : rgpt (S := S32)) e : edge32 P r e -> ~ is_edge e ->
    edge_sq_dist (S := S32) (qx, qy, qz) r = B754_infinity false.
  Proof.
    intros HE N. destruct e as [[[x y] w] [[dx dy] dw] ty id v].
    unfold edge32 in HE. cbn [re_p re_d re_type re_id re_valid] in *.
    destruct HE as (_ & _ & _ & _ & _ & _ & _ & _ & _ & _ & Et & _ & Ev).
    unfold edge_sq_dist. rewrite Ev, Et.
    assert (Z : (v && is_road_edge ty)%bool = false).
    { destruct v; [|reflexivity]. unfold is_road_edge. cbn [andb].
      destruct (Z.eqb_spec ty 15); [exfalso; apply N; split; auto|]. destruct (Z.eqb_spec ty 16); [exfalso; apply N; split; auto|]. reflexivity. }
    rewrite Z. reflexivity.
  Qed.

  (** The nearest road edge point in float32 is nearest up to rounding. *)
  Lemma nearest32 (rg : list (rgpt (S := S32))) es (qx qy qz : f32) a b z :
    Forall2 (edge32 P) rg es -> (exists e, In e es /\ is_edge e) ->
    fin qx a -> fin qy b -> fin qz z -> Rabs a <= 2 * P -> Rabs b <= 2 * P -> Rabs z <= P ->
    let k := argmin (S := S32) (map (edge_sq_dist (S := S32) (qx, qy, qz)) rg) in
    exists e r ep rp, nth_error rg k = Some r /\ nth_error es k = Some e /\ nth_error rg (k - 1) = Some rp /\ nth_error es (k - 1) = Some ep /\
      edge32 P r e /\ edge32 P rp ep /\ almost_nearest (94 * K) es (a, b, z) k e.
  Proof.
    intros HF (e0 & I0 & E0) Fa Fb Fz Ba Bb Bz k.
    set (ds := map (edge_sq_dist (S := S32) (qx, qy, qz)) rg) in *.
    assert (NE : ds <> []). { unfold ds. destruct HF; [destruct I0 | discriminate]. }
    assert (OK : Forall okd32 ds).
    { apply Forall_forall. intros d Hd. unfold ds in Hd. apply in_map_iff in Hd as (r & <- & Hr).
      apply In_nth_error in Hr as (j & Hj). destruct (Forall2_nth_l _ _ _ _ _ HF Hj) as (e & He & HE).
      destruct (classic_edge e) as [C|C].
      - destruct (edge_dist32 _ _ _ _ _ _ _ _ Fa Fb Fz Ba Bb Bz HE C) as (f & Ff & _). right. exists f. exact Ff.
      - left. exact (not_edge32 _ _ _ _ _ HE C). }
    destruct (argmin32 lm ds NE OK) as (d & Hd & Md). fold k in Hd.
    unfold ds in Hd. rewrite nth_error_map in Hd. destruct (nth_error rg k) as [r|] eqn:Hk; [|discriminate].
    cbn [option_map] in Hd. assert (Hd' : edge_sq_dist (S := S32) (qx, qy, qz) r = d) by congruence. clear Hd. subst d.
    destruct (Forall2_nth_l _ _ _ _ _ HF Hk) as (e & He & HE).
    assert (Le : (k < length rg)%nat) by (eapply nth_error_Some_lt; eauto).
    destruct (nth_error_lt_Some rg (k - 1)) as [rp Hrp]; [lia|].
    destruct (Forall2_nth_l _ _ _ _ _ HF Hrp) as (ep & Hep & HEp).
    assert (Cmp : forall j e', nth_error es j = Some e' -> is_edge e' ->
              exists g, fin (edge_sq_dist (S := S32) (qx, qy, qz) r) g /\ sqrt g <= sqrt (stretched (a, b, z) (re_p e')) + 47 * K).
    { intros j e' Hj C. destruct (Forall2_nth_r _ _ _ _ _ HF Hj) as (r' & Hr' & HE').
      destruct (edge_dist32 _ _ _ _ _ _ _ _ Fa Fb Fz Ba Bb Bz HE' C) as (f & Ff & Ef).
      assert (In (edge_sq_dist (S := S32) (qx, qy, qz) r') ds) as HI by (apply in_map; eapply nth_error_In; exact Hr').
      destruct (Md _ HI f Ff) as (g & Fg & Hg). exists g. split; [exact Fg|].
      apply Rabs_le_inv in Ef. pose proof (sqrt_le_1_alt _ _ Hg). lra. }
    assert (Ce : is_edge e).
    { destruct (classic_edge e) as [C|C]; [exact C|]. exfalso. apply In_nth_error in I0 as (j & Hj).
      destruct (Cmp j e0 Hj E0) as (g & [Fg _] & _). rewrite (not_edge32 _ _ _ _ _ HE C) in Fg. discriminate. }
    exists e, r, ep, rp. split; [reflexivity|]. split; [exact He|]. split; [exact Hrp|]. split; [exact Hep|]. split; [exact HE|]. split; [exact HEp|].
    split; [exact He|]. split; [exact Ce|]. intros j e' Hj C.
    destruct (Cmp j e' Hj C) as (g & Fg & Hg).
    destruct (edge_dist32 _ _ _ _ _ _ _ _ Fa Fb Fz Ba Bb Bz HE Ce) as (f & Ff & Ef).
    rewrite (fin_fun _ _ _ Fg Ff) in Hg. apply Rabs_le_inv in Ef. lra.
  Qed.

  Lemma cross32 (qx qy : f32) (r rp : rgpt (S := S32)) e ep a b z :
    fin qx a -> fin qy b -> Rabs a <= 2 * P -> Rabs b <= 2 * P -> edge32 P r e -> edge32 P rp ep ->
    exists c, fin (cross2 (S := S32) (fsub (Scalar := S32) qx (rg_x r), fsub (Scalar := S32) qy (rg_y r)) (rg_dx rp, rg_dy rp)) c /\
      Rabs (c - to_right (a, b, z) (re_p e) (re_d ep)) <= 20 * K.
  Proof.
    intros Fa Fb Ba Bb HE HEp. destruct e as [[[x y] w] dd ty id v]. destruct ep as [pp [[dx dy] dw] ty' id' v'].
    unfold edge32 in HE, HEp. cbn [re_p re_d re_type re_id re_valid] in *.
    destruct dd as [[? ?] ?]. destruct HE as (Fx & Fy & _ & _ & _ & Bx & By & _).
    destruct pp as [[? ?] ?]. destruct HEp as (_ & _ & _ & Fdx & Fdy & _ & _ & _ & Bdx & Bdy & _).
    assert (U : u32 = / 16777216) by reflexivity.
    pose proof (ap_sub _ _ _ _ _ _ _ _ (ap_exact _ _ _ Fa Ba) (ap_exact _ _ _ Fx Bx) ltac:(lra)) as X.
    pose proof (ap_sub _ _ _ _ _ _ _ _ (ap_exact _ _ _ Fb Bb) (ap_exact _ _ _ Fy By) ltac:(lra)) as Y.
    pose proof (ap_weaken _ _ _ _ (31 / 10 * K) (3 * P) X ltac:(rewrite U; lra) ltac:(lra)) as X'.
    pose proof (ap_weaken _ _ _ _ (31 / 10 * K) (3 * P) Y ltac:(rewrite U; lra) ltac:(lra)) as Y'.
    pose proof (ap_mul _ _ _ _ _ _ _ _ X' (ap_exact _ _ _ Fdy Bdy) ltac:(lra)) as MX.
    pose proof (ap_mul _ _ _ _ _ _ _ _ Y' (ap_exact _ _ _ Fdx Bdx) ltac:(lra)) as MY.
    pose proof (ap_weaken _ _ _ _ (65 / 10 * K) (3 * P) MX ltac:(rewrite U; lra) ltac:(lra)) as MX'.
    pose proof (ap_weaken _ _ _ _ (65 / 10 * K) (3 * P) MY ltac:(rewrite U; lra) ltac:(lra)) as MY'.
    destruct (ap_sub _ _ _ _ _ _ _ _ MX' MY' ltac:(lra)) as (c & Fc & Ec & _).
    exists c. split; [exact Fc|]. unfold to_right. eapply Rle_trans; [exact Ec|]. rewrite U. lra.
  Qed.

  (** The sign of the signed distance. *)
  Lemma signed32 (rg : list (rgpt (S := S32))) es (qx qy qz : f32) a b z :
    Forall2 (edge32 P) rg es -> (exists e, In e es /\ is_edge e) ->
    fin qx a -> fin qy b -> fin qz z -> Rabs a <= 2 * P -> Rabs b <= 2 * P -> Rabs z <= P ->
    exists d k e, signed_distance (S := S32) rg (qx, qy, qz) = Ok d /\ almost_nearest (94 * K) es (a, b, z) k e /\
      (fltb (Scalar := S32) f0 d = true -> beyond (- (20 * K)) es (a, b, z) k e) /\
      (beyond (120 * K) es (a, b, z) k e -> fltb (Scalar := S32) f0 d = true).
  Proof.
    intros HF HX Fa Fb Fz Ba Bb Bz.
    destruct (nearest32 rg es _ _ _ _ _ _ HF HX Fa Fb Fz Ba Bb Bz) as (e & r & ep & rp & Hr & He & Hrp & Hep & HE & HEp & AN).
    set (k := argmin (S := S32) (map (edge_sq_dist (S := S32) (qx, qy, qz)) rg)) in *.
    unfold signed_distance.
    assert (G : guard (negb (length rg =? 0)%nat) ValueError = Ok tt).
    { destruct rg; [destruct k; discriminate | reflexivity]. }
    rewrite G. cbn [bind]. cbv zeta. fold k.
    rewrite (nth_error_nth rg k zero_rg Hr), (nth_error_nth rg (k - 1) zero_rg Hrp).
    destruct (cross32 qx qy r r e e a b z Fa Fb Ba Bb HE HE) as (c & Fc & Ec).
    destruct (cross32 qx qy r rp e ep a b z Fa Fb Ba Bb HE HEp) as (cp & Fcp & Ecp).
    assert (HXY : exists x y w dx dy dw, re_p e = (x, y, w) /\ re_d e = (dx, dy, dw) /\ fin (rg_x r) x /\ fin (rg_y r) y /\ Rabs x <= P /\ Rabs y <= P /\
              Rabs dx <= 1 /\ Rabs dy <= 1 /\ rg_id r = re_id e /\ rg_id rp = re_id ep).
    { destruct e as [[[x y] w] [[dx dy] dw] ty id v]. unfold edge32 in HE. cbn [re_p re_d re_type re_id re_valid] in *.
      destruct HE as (Fx & Fy & Fw & _ & _ & Bx & By & Bw & Bdx & Bdy & Et & Ei & Ev).
      exists x, y, w, dx, dy, dw. repeat (split; [assumption || reflexivity|]).
      destruct ep as [[[x' y'] w'] [[dx' dy'] dw'] ty' id' v']. unfold edge32 in HEp. cbn [re_p re_d re_type re_id re_valid] in *. tauto. }
    destruct HXY as (x & y & w & dx & dy & dw & Ep & Ed & Fx & Fy & Bx & By & Bdx & Bdy & Ei & Eip).
    destruct (way_dist32 lm P ltac:(split; [lra|]; apply Rle_trans with (2 ^ 30); [lra|]; apply Rle_pow; [lra|lia]) qx qy (rg_x r) (rg_y r) a b x y Fa Fb Fx Fy Ba Bb Bx By) as (n & Fn & En).
    set (cc := cross2 (S := S32) (fsub (Scalar := S32) qx (rg_x r), fsub (Scalar := S32) qy (rg_y r)) (rg_dx r, rg_dy r)) in *.
    set (ccp := cross2 (S := S32) (fsub (Scalar := S32) qx (rg_x r), fsub (Scalar := S32) qy (rg_y r)) (rg_dx rp, rg_dy rp)) in *.
    set (nn := norm2 (S := S32) (fsub (Scalar := S32) (rg_x r) qx) (fsub (Scalar := S32) (rg_y r) qy)) in *.
    eexists. exists k, e. split; [reflexivity|]. split; [exact AN|].
    set (sel := if ((rg_id r =? rg_id rp)%Z && fltb (Scalar := S32) ccp cc)%bool then ccp else cc).
    assert (HS : exists s, fin sel s /\ (0 < s <-> 0 < c /\ (re_id e = re_id ep -> 0 < cp))).
    { unfold sel. rewrite Ei, Eip. change (fltb (Scalar := S32) ccp cc) with (Bltb ccp cc). rewrite (ltb_fin _ _ _ _ Fcp Fc).
      destruct (Z.eqb_spec (re_id e) (re_id ep)) as [I|I]; cbn [andb].
      - destruct (Rlt_bool_spec cp c).
        + exists cp. split; [exact Fcp|]. split; intros; [split; auto; lra | tauto].
        + exists c. split; [exact Fc|]. split; intros; [split; auto; intros; lra | tauto].
      - exists c. split; [exact Fc|]. split; intros; [split; auto; intros; congruence | tauto]. }
    destruct HS as (s & Fs & HS).
    assert (HV : exists v, fin (fmul (Scalar := S32) nn (fsign (S := S32) sel)) v /\ (0 < v -> 0 < s) /\ (0 < s -> v = n)).
    { unfold fsign. change (fltb (Scalar := S32) f0 sel) with (Bltb (f0 (S := S32)) sel). change (fltb (Scalar := S32) sel f0) with (Bltb sel (f0 (S := S32))).
      change (feqb (Scalar := S32) sel f0) with (Beqb sel (f0 (S := S32))).
      rewrite (ltb_fin _ _ _ _ (f0_fin lm) Fs), (ltb_fin _ _ _ _ Fs (f0_fin lm)), (eqb_fin _ _ _ _ Fs (f0_fin lm)).
      assert (Bn : Rabs n <= 2 ^ 60).
      { assert (D : dist (a, b) (x, y) <= 3 / 2 * (3 * P)).
        { rewrite dist_len. apply len_le; [replace (a - x) with (a + - x) by ring | replace (b - y) with (b + - y) by ring];
            apply (Rle_trans _ (2 * P + P)); try lra; apply abs_add; auto; now rewrite Rabs_Ropp. }
        pose proof (sqrt_pos ((a - x) * (a - x) + (b - y) * (b - y))) as S0. change (0 <= dist (a, b) (x, y)) in S0.
        apply Rabs_le_inv in En. apply Rabs_le. assert (2 ^ 30 * 1024 <= 2 ^ 60) by (replace (2 ^ 60) with (2 ^ 30 * 2 ^ 30) by ring; apply Rmult_le_compat_l; [apply pow_le; lra | simpl; lra]). lra. }
      assert (B60 : 2 ^ 60 <= 2 ^ 70) by (apply Rle_pow; [lra|lia]).
      destruct (Rlt_bool_spec 0 s) as [L|L].
      - exists n. split; [|split; auto].
        pose proof (mul_fin _ _ _ _ Fn (f1_fin lm)) as M. rewrite Rmult_1_r in M. rewrite (rnd_id n) in M by exact (fin_rep _ _ Fn).
        apply M. apply big127. lra.
      - assert (N0 : 0 <= n).
        { assert (M : nn = Bsqrt mode_NE (Bplus mode_NE (Bmult mode_NE (Bminus mode_NE (rg_x r) qx) (Bminus mode_NE (rg_x r) qx)) (Bmult mode_NE (Bminus mode_NE (rg_y r) qy) (Bminus mode_NE (rg_y r) qy)))) by reflexivity.
          rewrite M in Fn. destruct Fn as [_ <-].
          rewrite (proj1 (Bsqrt_correct 24 128 _ _ mode_NE _)). fold (rnd (sqrt (B2R (Bplus mode_NE (Bmult mode_NE (Bminus mode_NE (rg_x r) qx) (Bminus mode_NE (rg_x r) qx)) (Bmult mode_NE (Bminus mode_NE (rg_y r) qy) (Bminus mode_NE (rg_y r) qy)))))).
          apply rnd_rel. apply sqrt_pos. }
        destruct (Rlt_bool_spec s 0) as [L'|L'].
        + pose proof (mul_fin _ _ _ _ Fn (lit_int lm (-1) ltac:(simpl; lia))) as M.
          eexists. split; [apply M; apply big127; rewrite Rabs_mult, (Rabs_left (-1)) by lra; lra|].
          split; [|intros; lra]. intros V. exfalso.
          assert (rnd (n * -1) <= rnd 0) by (apply rnd_le; lra). rewrite rnd_0 in H. lra.
        + rewrite Req_bool_true by lra.
          pose proof (mul_fin _ _ _ _ Fn (f0_fin lm)) as M. rewrite Rmult_0_r, rnd_0 in M.
          exists 0. split; [apply M; apply big127; rewrite Rabs_R0; apply pow_le; lra|]. split; intros; lra. }
    destruct HV as (v & Fv & V1 & V2).
    assert (HB : fltb (Scalar := S32) f0 (fmul (Scalar := S32) nn (fsign (S := S32) sel)) = Rlt_bool 0 v) by exact (ltb_fin _ _ _ _ (f0_fin lm) Fv).
    rewrite HB. apply Rabs_le_inv in Ec, Ecp, En. split.
    - intros H. destruct (Rlt_bool_spec 0 v) as [L|]; [|discriminate]. apply V1, HS in L as (L1 & L2).
      split; [lra|]. intros ep' He' I. rewrite Hep in He'. assert (ep' = ep) by congruence. subst ep'. specialize (L2 I). lra.
    - intros (B1 & B2). apply Rlt_bool_true.
      assert (L : 0 < s). { apply HS. split; [lra|]. intros I. specialize (B2 ep Hep I). lra. }
      rewrite (V2 L). clear HB V1 V2 HS Fv Ecp B2.
      rewrite Ep, Ed in B1. unfold to_right in B1.
      assert (LB : (a - x) * dy - (b - y) * dx <= 2 * dist (a, b) (x, y)).
      { rewrite dist_len. assert (X1 : Rabs (a - x) <= len (a - x) (b - y)).
        { unfold len. rewrite <- sqrt_Rsqr_abs. apply sqrt_le_1_alt. unfold Rsqr. pose proof (Rle_0_sqr (b - y)) as Q. unfold Rsqr in Q. lra. }
        assert (Y1 : Rabs (b - y) <= len (a - x) (b - y)).
        { unfold len. rewrite <- sqrt_Rsqr_abs. apply sqrt_le_1_alt. unfold Rsqr. pose proof (Rle_0_sqr (a - x)) as Q. unfold Rsqr in Q. lra. }
        pose proof (abs_mul _ _ _ _ X1 Bdy) as M1. pose proof (abs_mul _ _ _ _ Y1 Bdx) as M2.
        apply Rabs_le_inv in M1, M2. lra. }
      lra.
  Qed.

  (** * Corners *)
  Definition near_corner (c : vec (S := S32)) (r : R * R) : Prop :=
    exists a b, fin (fst c) a /\ fin (snd c) b /\ Rabs (a - fst r) <= 2 * K /\ Rabs (b - snd r) <= 2 * K /\ Rabs a <= 2 * P /\ Rabs b <= 2 * P.

  Definition corners (r : rbox) : list (R * R) :=
    [ rpoint r (rlen r / 2) (- (rwid r / 2)); rpoint r (rlen r / 2) (rwid r / 2);
      rpoint r (- (rlen r / 2)) (rwid r / 2); rpoint r (- (rlen r / 2)) (- (rwid r / 2)) ].

  Lemma corners32 (b : box (S := S32)) r : accurate32 lm -> box32 P b r ->
    Forall2 near_corner (corners_from_bbox b) (corners r).
  Proof.
    intros AC B.
    assert (P60 : 1 <= P <= 2 ^ 60). { split; [lra|]. apply Rle_trans with (2 ^ 30); [lra|]. apply Rle_pow; [lra|lia]. }
    destruct (corner_part lm AC P P60 b r B) as (c & s & Ec & Es & Ac & As & Hh).
    destruct B as (Fx & Fy & Fl & Fw & Fa & Bx & By & Bl & Bw & Ba).
    destruct (Hh _ _ (or_introl (conj eq_refl eq_refl))) as (LC & LS).
    destruct (Hh _ _ (or_intror (conj eq_refl eq_refl))) as (WC & WS). clear Hh.
    unfold corners_from_bbox, corners. rewrite Ec, Es. cbv zeta. cbn [map fst snd].
    pose proof (ap_exact _ _ _ Fx Bx) as X. pose proof (ap_exact _ _ _ Fy By) as Y.
    assert (U : u32 = / 16777216) by reflexivity.
    set (lc := Bmult mode_NE (Bdiv mode_NE (b_len b) (f2 (S := S32))) c) in *.
    set (ls := Bmult mode_NE (Bdiv mode_NE (b_len b) (f2 (S := S32))) s) in *.
    set (wc := Bmult mode_NE (Bdiv mode_NE (b_wid b) (f2 (S := S32))) c) in *.
    set (ws := Bmult mode_NE (Bdiv mode_NE (b_wid b) (f2 (S := S32))) s) in *.
    assert (Sum : forall x y r s, ap x r (3 / 10 * (u32 * P)) (P / 16) -> ap y s (3 / 10 * (u32 * P)) (P / 16) ->
              ap (Bplus mode_NE x y) (r + s) (3 / 4 * (u32 * P)) (P / 8) /\ ap (Bminus mode_NE x y) (r - s) (3 / 4 * (u32 * P)) (P / 8)).
    { intros x y r0 s0 Hx Hy. split.
      - eapply ap_weaken; [apply (ap_add _ _ _ _ _ _ _ _ Hx Hy)| |]; rewrite ?U; lra.
      - eapply ap_weaken; [apply (ap_sub _ _ _ _ _ _ _ _ Hx Hy)| |]; rewrite ?U; lra. }
    assert (Off : forall x o r q t, ap x r (3 / 4 * (u32 * P)) (P / 8) -> ap o q 0 P -> r + q = t ->
              exists v, fin (Bplus mode_NE x o) v /\ Rabs (v - t) <= 2 * K /\ Rabs v <= 2 * P).
    { intros x o r0 q t Hx Ho <-. destruct (ap_add _ _ _ _ _ _ _ _ Hx Ho ltac:(rewrite U; lra)) as (v & Fv & Ev & Mv).
      assert (Ev' : Rabs (v - (r0 + q)) <= 2 * K) by (eapply Rle_trans; [exact Ev|]; rewrite U; lra).
      exists v. split; [exact Fv|]. split; [exact Ev'|]. pose proof (ap_val _ _ _ _ _ Fv Ev' Mv). lra. }
    pose proof (ap_opp _ _ _ _ LC) as NLC. pose proof (ap_opp _ _ _ _ LS) as NLS.
    assert (Mk : forall x y t (Hx : exists v, fin x v /\ Rabs (v - fst t) <= 2 * K /\ Rabs v <= 2 * P)
                   (Hy : exists v, fin y v /\ Rabs (v - snd t) <= 2 * K /\ Rabs v <= 2 * P), near_corner (x, y) t).
    { intros x y t (v & F1 & E1 & M1) (w & F2 & E2 & M2). exists v, w. auto 10. }
    unfold rpoint.
    constructor; [|constructor; [|constructor; [|constructor; [|constructor]]]]; apply Mk; cbn [fst snd].
    - eapply Off; [exact (proj1 (Sum _ _ _ _ LC WS)) | exact X | ring].
    - eapply Off; [exact (proj2 (Sum _ _ _ _ LS WC)) | exact Y | ring].
    - eapply Off; [exact (proj2 (Sum _ _ _ _ LC WS)) | exact X | ring].
    - eapply Off; [exact (proj1 (Sum _ _ _ _ LS WC)) | exact Y | ring].
    - eapply Off; [exact (proj2 (Sum _ _ _ _ NLC WS)) | exact X | ring].
    - eapply Off; [exact (proj1 (Sum _ _ _ _ NLS WC)) | exact Y | ring].
    - eapply Off; [exact (proj1 (Sum _ _ _ _ NLC WS)) | exact X | ring].
    - eapply Off; [exact (proj2 (Sum _ _ _ _ NLS WC)) | exact Y | ring].
  Qed.

  Lemma near_shift es a b cx cy z k e d : Rabs (a - cx) <= 2 * K -> Rabs (b - cy) <= 2 * K ->
    almost_nearest d es (a, b, z) k e -> almost_nearest (d + 8 * K) es (cx, cy, z) k e.
  Proof.
    intros Ea Eb (H1 & H2 & H3). split; [exact H1|]. split; [exact H2|]. intros j e' Hj C. specialize (H3 j e' Hj C).
    assert (S : forall p, Rabs (sqrt (stretched (a, b, z) p) - sqrt (stretched (cx, cy, z) p)) <= 4 * K).
    { intros [[px py] pz]. pose proof (len3_near (px - cx) (py - cy) (2 * (pz - z)) (px - a) (py - b) (2 * (pz - z))) as L.
      unfold len3 in L. unfold stretched. eapply Rle_trans; [exact L|]. rewrite (Rminus_eq_0 (2 * (pz - z))), Rabs_R0.
      replace (px - a - (px - cx)) with (- (a - cx)) by ring. replace (py - b - (py - cy)) with (- (b - cy)) by ring. rewrite !Rabs_Ropp. lra. }
    pose proof (Rabs_le_inv _ _ (S (re_p e))). pose proof (Rabs_le_inv _ _ (S (re_p e'))). lra.
  Qed.

  Lemma right_shift a b cx cy z p (r : rgpt (S := S32)) e : Rabs (a - cx) <= 2 * K -> Rabs (b - cy) <= 2 * K -> edge32 P r e ->
    Rabs (to_right (a, b, z) p (re_d e) - to_right (cx, cy, z) p (re_d e)) <= 4 * K.
  Proof.
    intros Ea Eb HE. destruct p as [[px py] pz]. destruct e as [[[x y] w] [[dx dy] dw] ty id v].
    unfold edge32 in HE. cbn [re_p re_d] in *. destruct HE as (_ & _ & _ & _ & _ & _ & _ & _ & Bx & By & _).
    unfold to_right. replace ((a - px) * dy - (b - py) * dx - ((cx - px) * dy - (cy - py) * dx)) with ((a - cx) * dy + - ((b - cy) * dx)) by ring.
    replace (4 * K) with (2 * K * 1 + 2 * K * 1) by ring. apply abs_add; [now apply abs_mul|]. rewrite Rabs_Ropp. now apply abs_mul.
  Qed.

  Lemma beyond_shift (rg : list (rgpt (S := S32))) es a b cx cy z k e d d' : Forall2 (edge32 P) rg es -> nth_error es k = Some e ->
    Rabs (a - cx) <= 2 * K -> Rabs (b - cy) <= 2 * K -> d' + 4 * K <= d ->
    beyond d es (a, b, z) k e -> beyond d' es (cx, cy, z) k e.
  Proof.
    intros HF He Ea Eb L (B1 & B2). split.
    - destruct (Forall2_nth_r _ _ _ _ _ HF He) as (r & _ & HE).
      pose proof (Rabs_le_inv _ _ (right_shift a b cx cy z (re_p e) r e Ea Eb HE)). lra.
    - intros ep Hep I. specialize (B2 ep Hep I). destruct (Forall2_nth_r _ _ _ _ _ HF Hep) as (r & _ & HE).
      pose proof (Rabs_le_inv _ _ (right_shift a b cx cy z (re_p e) r ep Ea Eb HE)). lra.
  Qed.

  (** * The off-road metric *)
  Lemma offroad32 n T (s : state (S := S32)) t rg es ms j p b z :
    accurate32 lm -> wf_state n T s -> s_t s = Z.of_nat t -> (t < T)%nat -> s_rg s = Some rg -> Forall2 (edge32 P) rg es ->
    (exists e, In e es /\ is_edge e) -> offroad_compute s = Ok ms -> at2 (s_sim s) j t = Some p ->
    box32 P (pt_box p) b -> fin (p_z p) z -> Rabs z <= P ->
    exists v, nth_error ms j = Some (mkmres v true) /\ (fin v 0 \/ fin v 1) /\
      (fin v 1 -> exists c k e, corner_of b c /\ almost_nearest (P / 2 ^ 17) es (c, z) k e /\ beyond (- (P / 2 ^ 17)) es (c, z) k e) /\
      ((exists c, corner_of b c /\ forall k e, almost_nearest (P / 2 ^ 17) es (c, z) k e -> beyond (P / 2 ^ 17) es (c, z) k e) -> fin v 1).
  Proof.
    intros AC (R & RL & _ & Hn & _) Ht HT Hrg HF HE H Hp Hb Hz Bz.
    replace (P / 2 ^ 17) with (128 * K) by (simpl; lra).
    unfold offroad_compute in H. rewrite Ht, Hrg in H.
    apply bind_Ok in H as (cur & Hc & H).
    destruct (dynamic_index_at n T _ _ _ R HT Hc) as [L A].
    destruct (at2_Some_lt _ _ _ _ _ _ R Hp) as [Hj _].
    rewrite <- A in Hp by auto.
    destruct (mapM_nth _ _ _ _ _ H Hp) as (m & Hm & Hn'). rewrite Hn'. clear H Hn'.
    apply bind_Ok in Hm as (o & Ho & Hm). apply Ok_inj in Hm. subst m.
    unfold is_offroad1 in Ho. apply bind_Ok in Ho as (ds & Hds & Ho). apply Ok_inj in Ho. symmetry in Ho.
    exists (fbool (S := S32) o). split; [reflexivity|].
    split; [destruct o; [right; exact (f1_fin lm) | left; exact (f0_fin lm)]|].
    assert (EQ : fin (fbool (S := S32) o) 1 <-> o = true).
    { destruct o; [split; auto; intros _; exact (f1_fin lm)|]. split; [|discriminate]. intros F.
      pose proof (fin_fun _ _ _ F (f0_fin lm)). lra. }
    rewrite EQ. clear EQ.
    assert (Fz : fin (fmul (Scalar := S32) f1 (p_z p)) z).
    { pose proof (mul_fin _ _ _ _ (f1_fin lm) Hz) as M. rewrite Rmult_1_l, (rnd_id z (fin_rep _ _ Hz)) in M.
      apply M. apply big127. assert (2 ^ 30 <= 2 ^ 70) by (apply Rle_pow; [lra|lia]). lra. }
    unfold bbox_corners in Hds. pose proof (corners32 _ _ AC Hb) as CF.
    assert (Each : forall i c q d, nth_error (corners_from_bbox (pt_box p)) i = Some c -> nth_error (corners b) i = Some q -> nth_error ds i = Some d ->
              near_corner c q -> exists k e, almost_nearest (128 * K) es (q, z) k e /\
                (fltb (Scalar := S32) f0 d = true -> beyond (- (128 * K)) es (q, z) k e) /\
                (beyond (128 * K) es (q, z) k e -> fltb (Scalar := S32) f0 d = true)).
    { intros i c [cx cy] d Hi Hq Hd (a & b0 & Fa & Fb & Ea & Eb & Ba & Bb). cbn [fst snd] in *.
      destruct (mapM_nth _ _ _ _ _ Hds Hi) as (d' & Sd & Hd'). rewrite Hd in Hd'. assert (d' = d) by congruence. subst d'.
      destruct (signed32 rg es _ _ _ a b0 z HF HE Fa Fb Fz Ba Bb Bz) as (d2 & k & e & S2 & AN & B1 & B2).
      assert (d2 = d) by (apply Ok_inj; rewrite <- S2; exact Sd). subst d2. exists k, e.
      assert (He : nth_error es k = Some e) by exact (proj1 AN).
      split; [|split].
      - destruct (near_shift es a b0 cx cy z k e _ Ea Eb AN) as (N1 & N2 & N3). split; [exact N1|]. split; [exact N2|].
        intros j0 e' Hj' C. specialize (N3 j0 e' Hj' C). lra.
      - intros F. apply (beyond_shift rg es a b0 cx cy z k e (- (20 * K)) _ HF He Ea Eb); [lra | exact (B1 F)].
      - intros F. apply B2. rewrite <- Rabs_Ropp, Ropp_minus_distr in Ea, Eb.
        apply (beyond_shift rg es cx cy a b0 z k e (128 * K) _ HF He Ea Eb); [lra | exact F]. }
    rewrite Ho, existsb_exists. split.
    - intros (d & Hd & Hpos). apply In_nth_error in Hd as (i & Hi).
      pose proof (nth_error_Some_lt _ _ _ Hi) as Li. rewrite (mapM_length _ _ _ Hds) in Li.
      destruct (nth_error_lt_Some _ _ Li) as [c Hc']. destruct (Forall2_nth_l _ _ _ _ _ CF Hc') as (q & Hq & NC).
      destruct (Each i c q d Hc' Hq Hi NC) as (k & e & AN & B1 & _).
      exists q, k, e. split; [apply corner_of_list; exact (nth_error_In _ _ Hq)|]. auto.
    - intros (q & Hq & HA). apply corner_of_list in Hq. apply In_nth_error in Hq as (i & Hq).
      destruct (Forall2_nth_r _ _ _ _ _ CF Hq) as (c & Hc' & NC).
      destruct (mapM_nth _ _ _ _ _ Hds Hc') as (d & Sd & Hd).
      destruct (Each i c q d Hc' Hq Hd NC) as (k & e & AN & _ & B2).
      exists d. split; [exact (nth_error_In _ _ Hd)|]. apply B2. exact (HA k e AN).
  Qed.

  (** * Distances to paths *)
  Lemma onehot_none32 (data : list f32) (sel : list bool) (acc : f32) a :
    (forall j, nth_error sel j = Some true -> False) -> (forall y, In y data -> exists r, fin y r /\ Rabs r <= P) ->
    fin acc a -> Rabs a <= P ->
    fin (fold_left (fadd (Scalar := S32)) (map2 (fun x (b : bool) => fmul (Scalar := S32) x (fbool b)) data sel) acc) a.
  Proof.
    revert sel acc. induction data as [|x data IH]; intros [|b sel] acc N F A Ba; try exact A.
    cbn [map2 fold_left]. destruct b; [exfalso; apply (N 0%nat); reflexivity|].
    destruct (F x (or_introl eq_refl)) as (r & Fr & Br).
    assert (B70 : Rabs a <= 2 ^ 70). { assert (2 ^ 30 <= 2 ^ 70) by (apply Rle_pow; [lra|lia]). lra. }
    apply IH; auto.
    - intros j Hj. apply (N (Datatypes.S j)). exact Hj.
    - intros y Hy. apply F. right. exact Hy.
    - pose proof (mul_fin _ _ _ _ Fr (f0_fin lm)) as M. rewrite Rmult_0_r, rnd_0 in M.
      assert (M' := M ltac:(apply big127; rewrite Rabs_R0; apply pow_le; lra)).
      pose proof (add_fin _ _ _ _ A M') as AA. rewrite Rplus_0_r, (rnd_id a (fin_rep _ _ A)) in AA. apply AA. apply big127. exact B70.
  Qed.

  Lemma onehot_sum32 (data : list f32) (sel : list bool) (acc : f32) i x r :
    nth_error data i = Some x -> nth_error sel i = Some true -> (forall j, nth_error sel j = Some true -> j = i) ->
    (forall y, In y data -> exists r, fin y r /\ Rabs r <= P) -> fin x r -> fin acc 0 ->
    fin (fold_left (fadd (Scalar := S32)) (map2 (fun x (b : bool) => fmul (Scalar := S32) x (fbool b)) data sel) acc) r.
  Proof.
    revert sel acc i. induction data as [|y data IH]; intros [|b sel] acc [|i] Hd Hs U F Fx A; try discriminate.
    - cbn [nth_error] in Hd, Hs. assert (b = true) by congruence. assert (y = x) by congruence. subst b y. cbn [map2 fold_left].
      destruct (F x (or_introl eq_refl)) as (r' & Fr & Br). rewrite (fin_fun _ _ _ Fr Fx) in Br.
      assert (B70 : Rabs r <= 2 ^ 70). { assert (2 ^ 30 <= 2 ^ 70) by (apply Rle_pow; [lra|lia]). lra. }
      apply onehot_none32; auto.
      + intros j Hj. specialize (U (Datatypes.S j) Hj). discriminate.
      + intros y Hy. apply F. right. exact Hy.
      + pose proof (mul_fin _ _ _ _ Fx (f1_fin lm)) as M. rewrite Rmult_1_r, (rnd_id r (fin_rep _ _ Fx)) in M.
        assert (M' := M ltac:(apply big127; exact B70)).
        pose proof (add_fin _ _ _ _ A M') as AA. rewrite Rplus_0_l, (rnd_id r (fin_rep _ _ Fx)) in AA. apply AA. apply big127. exact B70.
    - cbn [nth_error] in Hd, Hs. cbn [map2 fold_left].
      destruct b; [specialize (U 0%nat eq_refl); discriminate|].
      apply (IH sel _ i); auto.
      + intros j Hj. specialize (U (Datatypes.S j) Hj). congruence.
      + intros z Hz. apply F. right. exact Hz.
      + destruct (F y (or_introl eq_refl)) as (q & Fq & Bq).
        pose proof (mul_fin _ _ _ _ Fq (f0_fin lm)) as M. rewrite Rmult_0_r, rnd_0 in M.
        assert (M' := M ltac:(apply big127; rewrite Rabs_R0; apply pow_le; lra)).
        pose proof (add_fin _ _ _ _ A M') as AA. rewrite Rplus_0_r, rnd_0 in AA. apply AA. apply big127. rewrite Rabs_R0; apply pow_le; lra.
  Qed.

  Lemma onehot32 (data : list f32) (ms : list meta) i x r : length data = length ms -> the_sdc ms i ->
    (forall y, In y data -> exists r, fin y r /\ Rabs r <= P) -> nth_error data i = Some x -> fin x r ->
    exists y, select_by_onehot (S := S32) data (map m_is_sdc ms) = Ok y /\ fin y r.
  Proof.
    intros L ((m & Hm & Sm) & U) F Hx Fx. unfold select_by_onehot. change (@length (@Scalar.F S32)) with (@length f32).
    rewrite map_length, L, Nat.eqb_refl. cbn [guard bind]. eexists. split; [reflexivity|].
    apply (onehot_sum32 data (map m_is_sdc ms) _ i x r); auto.
    - rewrite nth_error_map, Hm. cbn [option_map]. now rewrite Sm.
    - intros j Hj. rewrite nth_error_map in Hj. destruct (nth_error ms j) as [mj|] eqn:E; [|discriminate]. cbn [option_map] in Hj. apply (U j mj); auto; congruence.
    - exact (f0_fin lm).
  Qed.

  Lemma sdc_xy32 n T (tr : traj (S := S32)) ms frame t i p x : rect n T tr -> length ms = n -> length frame = n ->
    (forall j, (j < n)%nat -> nth_error frame j = at2 tr j t) -> the_sdc ms i -> frame32 P tr t -> at2 tr i t = Some p ->
    fin (p_x p) (fst x) -> fin (p_y p) (snd x) ->
    exists a b, sdc_xy (S := S32) frame ms = Ok (a, b) /\ fin a (fst x) /\ fin b (snd x).
  Proof.
    intros RT LM LF NF SD FX Hp Hx Hy.
    assert (FP : nth_error frame i = Some p). { rewrite NF; auto. destruct (at2_Some_lt _ _ _ _ _ _ RT Hp); auto. }
    assert (FI : forall q, In q frame -> exists x y, fin (p_x q) x /\ fin (p_y q) y /\ Rabs x <= P /\ Rabs y <= P).
    { intros q H. apply In_nth_error in H as (j & Hj). pose proof (nth_error_Some_lt _ _ _ Hj). rewrite NF in Hj by lia. exact (FX j q Hj). }
    destruct (onehot32 (map p_x frame) ms i (p_x p) (fst x)) as (a & Ea & Fa); auto.
    { rewrite map_length. lia. }
    { intros y H. apply in_map_iff in H as (q & <- & Hq). destruct (FI q Hq) as (u & w & H1 & H2 & H3 & H4). exists u. auto. }
    { rewrite nth_error_map, FP. reflexivity. }
    destruct (onehot32 (map p_y frame) ms i (p_y p) (snd x)) as (b & Eb & Fb); auto.
    { rewrite map_length. lia. }
    { intros y H. apply in_map_iff in H as (q & <- & Hq). destruct (FI q Hq) as (u & w & H1 & H2 & H3 & H4). exists w. auto. }
    { rewrite nth_error_map, FP. reflexivity. }
    exists a, b. unfold sdc_xy. rewrite Ea, Eb. cbn [bind]. auto.
  Qed.

  Lemma path_dist32 (a b : f32) x (q : pathpt (S := S32)) c : fin a (fst x) -> fin b (snd x) -> Rabs (fst x) <= P -> Rabs (snd x) <= P ->
    xy32 q c -> Rabs (fst c) <= P -> Rabs (snd c) <= P ->
    exists r, fin (path_dist (S := S32) (a, b) q) r /\ Rabs (r - dist x c) <= 60 * K.
  Proof.
    intros Fa Fb Ba Bb (Fx & Fy) Bx By. unfold path_dist. cbn [fst snd].
    destruct (way_dist32 lm P ltac:(split; [lra|]; apply Rle_trans with (2 ^ 30); [lra|]; apply Rle_pow; [lra|lia])
      (pp_x q) (pp_y q) a b _ _ _ _ Fx Fy Fa Fb ltac:(lra) ltac:(lra) Ba Bb) as (r & Fr & Er).
    exists r. split; [exact Fr|].
    assert (D : dist x c = dist (fst c, snd c) (fst x, snd x)) by (unfold dist; cbn [fst snd]; f_equal; ring).
    rewrite D. exact Er.
  Qed.

  Lemma nearest_exists (L : list (R * R)) x : L <> [] -> exists d, nearest_dist (fun c => In c L) x d.
  Proof.
    induction L as [|c L IH]; [congruence|]. intros _. destruct L as [|c' L].
    - exists (dist x c). split; [exists c; simpl; auto|]. intros q [<-|[]]. lra.
    - destruct (IH ltac:(discriminate)) as (d & (q & Hq & Dq) & M).
      destruct (Rle_lt_dec (dist x c) d) as [Le|Lt].
      + exists (dist x c). split; [exists c; split; [left; reflexivity | reflexivity]|].
        intros z [<-|Hz]; [lra|]. specialize (M z Hz). lra.
      + exists d. split; [exists q; split; [right; exact Hq | exact Dq]|]. intros z [<-|Hz]; [lra | exact (M z Hz)].
  Qed.

  (** The minimum of a list of distances of selected points, infinite for the others. *)
  Lemma jmin32 (l : list f32) m : Forall okd32 l -> jmin (S := S32) l = Ok m -> In m l /\ forall x, In x l -> le32 m x.
  Proof.
    destruct l as [|x l]; [discriminate|]. intros O E. cbn [jmin] in E. apply Ok_inj in E. subst m. unfold fminl.
    revert x O. induction l as [|y l IH]; intros x O; cbn [fold_left].
    - split; [left; reflexivity|]. intros z [<-|[]]. apply le32_refl.
    - pose proof (Forall_inv O) as Ox. pose proof (Forall_inv (Forall_inv_tail O)) as Oy. pose proof (Forall_inv_tail (Forall_inv_tail O)) as Ol.
      change (fmin (Scalar := S32) x y) with (f32_min x y).
      assert (H : (f32_min x y = x /\ le32 x y) \/ (f32_min x y = y /\ le32 y x)).
      { unfold f32_min. destruct Ox as [->|(r & Fr)], Oy as [->|(q & Fq)].
        - left. split; [reflexivity | apply le32_refl].
        - right. rewrite (fin_notnan _ _ Fq). destruct Fq as [Fy Ey]. split; [|intros t [Ft _]; discriminate].
          destruct y as [s|s| |s mm e H]; try discriminate; reflexivity.
        - left. rewrite (fin_notnan _ _ Fr). destruct Fr as [Fx Ex]. split; [|intros t [Ft _]; discriminate].
          destruct x as [s|s| |s mm e H]; try discriminate; reflexivity.
        - rewrite (fin_notnan _ _ Fr), (fin_notnan _ _ Fq). cbn [orb]. rewrite (leb_fin _ _ _ _ Fr Fq). destruct (Rle_bool_spec r q).
          + left. split; [reflexivity|]. intros t Ft. rewrite (fin_fun _ _ _ Ft Fq). exists r. auto.
          + right. split; [reflexivity|]. intros t Ft. rewrite (fin_fun _ _ _ Ft Fr). exists q. split; [exact Fq | lra]. }
      destruct H as [(E & Le)|(E & Le)]; rewrite E.
      + destruct (IH x (Forall_cons _ Ox Ol)) as (I & M). split.
        * destruct I as [I|I]; [left; exact I | right; right; exact I].
        * intros z [<-|[<-|Hz]]; [apply M; left; reflexivity | | apply M; right; exact Hz].
          exact (le32_trans _ _ _ (M x (or_introl eq_refl)) Le).
      + destruct (IH y (Forall_cons _ Oy Ol)) as (I & M). split.
        * destruct I as [I|I]; right; [left; exact I | right; exact I].
        * intros z [<-|[<-|Hz]]; [ | apply M; left; reflexivity | apply M; right; exact Hz].
          exact (le32_trans _ _ _ (M y (or_introl eq_refl)) Le).
  Qed.

  Lemma cand32 (paths : list (path (S := S32))) (f : path (S := S32) -> pathpt (S := S32) -> f32) sel Q x m :
    (forall pa q, In pa paths -> In q (path_pts pa) -> sel pa q = true ->
       exists c r, xy32 q c /\ fin (f pa q) r /\ Rabs (r - dist x c) <= 60 * K) ->
    (forall pa q, In pa paths -> In q (path_pts pa) -> sel pa q = false -> f pa q = B754_infinity false) ->
    (forall c, Q c <-> exists pa q, In pa paths /\ In q (path_pts pa) /\ sel pa q = true /\ xy32 q c) ->
    jmin (S := S32) (flat_map (fun pa => map (f pa) (path_pts pa)) paths) = Ok m ->
    (m = B754_infinity false /\ ~ exists c, Q c) \/
    (exists r d, fin m r /\ nearest_dist Q x d /\ Rabs (r - d) <= 60 * K).
  Proof.
    intros H1 H2 HQ Hm.
    assert (Inv : forall y, In y (flat_map (fun pa => map (f pa) (path_pts pa)) paths) ->
              y = B754_infinity false \/ exists c r, Q c /\ fin y r /\ Rabs (r - dist x c) <= 60 * K).
    { intros y Hy. apply in_flat_map in Hy as (pa & Hpa & Hy). apply in_map_iff in Hy as (q & <- & Hq).
      destruct (sel pa q) eqn:E; [|left; now apply H2]. right.
      destruct (H1 pa q Hpa Hq E) as (c & r & X & F & Er). exists c, r. split; [apply HQ; eauto 6|]. auto. }
    destruct (jmin32 _ _ ltac:(apply Forall_forall; intros y Hy; destruct (Inv y Hy) as [->|(c & r & _ & F & _)]; [left; reflexivity | right; eauto]) Hm) as (Im & Le).
    assert (Dn : forall c, Q c -> exists r, fin m r /\ r <= dist x c + 60 * K).
    { intros c Hc. apply HQ in Hc as (pa & q & Hpa & Hq & E & X). destruct (H1 pa q Hpa Hq E) as (c' & r & X' & F & Er).
      assert (c' = c). { destruct c, c', X, X'. cbn [fst snd] in *. f_equal; eapply fin_fun; eauto. } subst c'.
      destruct (Le (f pa q)) with (q := r) as (g & Fg & Hg); [|exact F|].
      - apply in_flat_map. exists pa. split; auto. apply in_map_iff. eauto.
      - exists g. split; [exact Fg|]. apply Rabs_le_inv in Er. lra. }
    destruct (Inv m Im) as [->|(c & r & Qc & F & Er)].
    - left. split; [reflexivity|]. intros (c & Qc). destruct (Dn c Qc) as (r & [Fr _] & _). discriminate.
    - right.
      set (L := flat_map (fun pa => map (fun q : pathpt (S := S32) => (B2R (pp_x q : f32), B2R (pp_y q : f32))) (filter (sel pa) (path_pts pa))) paths).
      assert (HL : forall c, Q c <-> In c L).
      { intros c0. rewrite HQ. unfold L. split.
        - intros (pa & q & Hpa & Hq & E & (X & Y)). apply in_flat_map. exists pa. split; auto. apply in_map_iff. exists q.
          split; [|apply filter_In; auto]. destruct c0 as [c1 c2]. cbn [fst snd] in *. destruct X as [_ X]. destruct Y as [_ Y]. rewrite X, Y. reflexivity.
        - intros Hc. apply in_flat_map in Hc as (pa & Hpa & Hc). apply in_map_iff in Hc as (q & <- & Hq). apply filter_In in Hq as (Hq & E).
          exists pa, q. repeat (split; [assumption|]). destruct (H1 pa q Hpa Hq E) as (c1 & _ & (X & Y) & _).
          split; cbn [fst snd]; [destruct X as [X _]; exact (fin_B2R _ X) | destruct Y as [Y _]; exact (fin_B2R _ Y)]. }
      assert (NL : L <> []). { intros E. apply HL in Qc. rewrite E in Qc. destruct Qc. }
      destruct (nearest_exists L x NL) as (d & (c0 & I0 & D0) & M).
      exists r, d. split; [exact F|].
      split; [split; [exists c0; split; [now apply HL | exact D0] | intros z Hz; apply M, HL, Hz]|].
      assert (Q0 : Q c0) by now apply HL.
      destruct (Dn c0 Q0) as (r' & Fr' & L'). rewrite (fin_fun _ _ _ Fr' F) in L'.
      assert (M0 : d <= dist x c) by now apply M, HL.
      apply Rabs_le_inv in Er. apply Rabs_le. lra.
  Qed.

  Lemma wrongway32 n T (s : state (S := S32)) t i p x paths m :
    wf_state n T s -> s_t s = Z.of_nat t -> (t < T)%nat -> the_sdc (s_meta s) i ->
    frame32 P (s_sim s) t -> at2 (s_sim s) i t = Some p -> fin (p_x p) (fst x) -> fin (p_y p) (snd x) ->
    s_paths s = Some paths -> paths32 P paths -> wrongway_compute s = Ok m ->
    ((~ exists c, path_point32 paths c) /\ mr_valid m = false /\ fin (mr_value m) 0) \/
    (exists d v, nearest_dist (path_point32 paths) x d /\ mr_valid m = true /\ fin (mr_value m) v /\
       (v = 0 \/ (7 / 2 <= v /\ Rabs (v - d) <= P / 2 ^ 18)) /\
       (d < 7 / 2 - P / 2 ^ 18 -> v = 0) /\ (7 / 2 + P / 2 ^ 18 <= d -> Rabs (v - d) <= P / 2 ^ 18)).
  Proof.
    intros (R & RL & LM & Hn & _) Ht HT SD FX Hp Hx Hy HP FP H.
    replace (P / 2 ^ 18) with (64 * K) by (simpl; lra).
    unfold wrongway_compute in H. rewrite Ht, HP in H. apply bind_Ok in H as (cur & Hc & H).
    destruct (dynamic_index_at n T _ _ _ R HT Hc) as [L A].
    destruct (sdc_xy32 n T _ _ cur t i p x R LM L A SD FX Hp Hx Hy) as (a & b & E & Fa & Fb). rewrite E in H. cbn [bind] in H.
    destruct (FX i p Hp) as (x' & y' & Fx' & Fy' & Bx & By). rewrite (fin_fun _ _ _ Fx' Hx) in Bx. rewrite (fin_fun _ _ _ Fy' Hy) in By.
    apply bind_Ok in H as (md & Hm & H). apply Ok_inj in H.
    apply (cand32 paths (fun _ q => if pp_valid q then path_dist (S := S32) (a, b) q else finf (Scalar := S32)) (fun _ q => pp_valid q) (path_point32 paths) x) in Hm.
    - destruct Hm as [[-> N] | (r & d & Fr & ND & Er)].
      + left. split; [exact N|]. rewrite <- H. cbn [mr_value mr_valid]. split; [reflexivity|].
        change (fisfinite (Scalar := S32) (B754_infinity false)) with false. cbn [negb]. rewrite orb_true_r. exact (f0_fin lm).
      + right. exists d.
        assert (V : fisfinite (Scalar := S32) md = true) by (destruct Fr as [Fr _]; exact Fr).
        rewrite V in H. cbn [negb] in H. rewrite orb_false_r in H.
        assert (W : fin (wrong_way_thres (S := S32)) (7 / 2)).
        { unfold wrong_way_thres. pose proof (lit_fin lm 7 2 ltac:(simpl; lia) ltac:(simpl; lia)) as F.
          rewrite rnd_id in F; [exact F|]. replace (7 / 2) with (7 * b32 (-1)) by (simpl; lra). apply (rep_F2R 7 (-1)); [simpl; lia | lia]. }
        change (fltb (Scalar := S32) md wrong_way_thres) with (Bltb md (wrong_way_thres (S := S32))) in H.
        rewrite (ltb_fin _ _ _ _ Fr W) in H. apply Rabs_le_inv in Er.
        destruct (Rlt_bool_spec r (7 / 2)) as [G|G]; rewrite <- H; cbn [mr_value mr_valid].
        * exists 0. split; [exact ND|]. split; [reflexivity|]. split; [exact (f0_fin lm)|]. split; [left; reflexivity|]. split; [reflexivity|]. intros; lra.
        * exists r. assert (Rabs (r - d) <= 64 * K) by (apply Rabs_le; lra).
          split; [exact ND|]. split; [reflexivity|]. split; [exact Fr|]. split; [right; auto|]. split; [intros; lra | auto].
    - intros pa q Hpa Hq V. destruct (FP pa q Hpa Hq V) as (c & X & B1 & B2). rewrite V.
      destruct (path_dist32 a b x q c Fa Fb Bx By X B1 B2) as (r & Fr & Er). exists c, r. auto.
    - intros pa q Hpa Hq ->. reflexivity.
    - intros c. unfold path_point32. split; intros (pa & q & H1 & H2 & H3 & H4); exists pa, q; auto.
  Qed.

  Lemma nearest_unique (Q : R * R -> Prop) x d d' : nearest_dist Q x d -> nearest_dist Q x d' -> d = d'.
  Proof.
    intros ((c & Hc & <-) & M) ((c' & Hc' & <-) & M'). pose proof (M c' Hc'). pose proof (M' c Hc). lra.
  Qed.

  Lemma dist_cap x c : Rabs (fst x) <= P -> Rabs (snd x) <= P -> Rabs (fst c) <= P -> Rabs (snd c) <= P -> 0 <= dist x c <= 3 * P.
  Proof.
    intros A B C D. destruct x as [x1 x2], c as [c1 c2]. cbn [fst snd] in *. split; [apply sqrt_pos|].
    rewrite dist_len. replace (3 * P) with (3 / 2 * (P + P)) by field. apply len_le;
      [replace (x1 - c1) with (x1 + - c1) by ring | replace (x2 - c2) with (x2 + - c2) by ring]; apply abs_add; auto; now rewrite Rabs_Ropp.
  Qed.

  Lemma off_route32 n T (s : state (S := S32)) t i p x paths m :
    wf_state n T s -> s_t s = Z.of_nat t -> (t < T)%nat -> the_sdc (s_meta s) i ->
    frame32 P (s_sim s) t -> at2 (s_sim s) i t = Some p -> fin (p_x p) (fst x) -> fin (p_y p) (snd x) ->
    s_paths s = Some paths -> paths32 P paths -> off_route_compute s = Ok m ->
    ((p_valid p = false \/ ~ exists c, path_point_with32 true paths c) /\ mr_valid m = false /\ fin (mr_value m) 0) \/
    (p_valid p = true /\ mr_valid m = true /\
     exists d v, nearest_dist (path_point_with32 true paths) x d /\ fin (mr_value m) v /\
       (v = 0 \/ Rabs (v - d) <= P / 2 ^ 18) /\
       (5 + P / 2 ^ 18 < d \/ (exists d', nearest_dist (path_point_with32 false paths) x d' /\ 2 + P / 2 ^ 17 < d - d') ->
        Rabs (v - d) <= P / 2 ^ 18) /\
       (d <= 5 - P / 2 ^ 18 -> (forall d', nearest_dist (path_point_with32 false paths) x d' -> d - d' <= 2 - P / 2 ^ 17) -> v = 0)).
  Proof.
    intros (R & RL & LM & Hn & _) Ht HT SD FX Hp Hx Hy HP FP H.
    replace (P / 2 ^ 18) with (64 * K) by (simpl; lra). replace (P / 2 ^ 17) with (128 * K) by (simpl; lra).
    unfold off_route_compute in H. rewrite Ht, HP in H. apply bind_Ok in H as (cur & Hc & H).
    destruct (dynamic_index_at n T _ _ _ R HT Hc) as [L A].
    destruct (sdc_xy32 n T _ _ cur t i p x R LM L A SD FX Hp Hx Hy) as (a & b & E & Fa & Fb). rewrite E in H. cbn [bind] in H.
    destruct (FX i p Hp) as (x' & y' & Fx' & Fy' & Bx & By). rewrite (fin_fun _ _ _ Fx' Hx) in Bx. rewrite (fin_fun _ _ _ Fy' Hy) in By.
    assert (SV : sdc_valid cur (s_meta s) = Ok (p_valid p)).
    { apply select_onehot_b with i; auto.
      - rewrite map_length. lia.
      - destruct (at2_Some_lt _ _ _ _ _ _ R Hp) as [Hi _]. rewrite nth_error_map, (A i Hi), Hp. reflexivity. }
    rewrite SV in H. cbn [bind] in H.
    apply bind_Ok in H as (mon & Hon & H). apply bind_Ok in H as (moff & Hoff & H). apply Ok_inj in H.
    set (ds := fun q : pathpt (S := S32) => if p_valid p then if pp_valid q then path_dist (S := S32) (a, b) q else finf (Scalar := S32) else finf (Scalar := S32)) in *.
    set (Q f := fun c => p_valid p = true /\ path_point_with32 f paths c).
    assert (Dist : forall pa q, In pa paths -> In q (path_pts pa) -> (p_valid p && pp_valid q)%bool = true ->
              exists c r, xy32 q c /\ fin (ds q) r /\ Rabs (r - dist x c) <= 60 * K).
    { intros pa q Hpa Hq V. apply andb_true_iff in V as (V1 & V2). destruct (FP pa q Hpa Hq V2) as (c & X & B1 & B2).
      unfold ds. rewrite V1, V2. destruct (path_dist32 a b x q c Fa Fb Bx By X B1 B2) as (r & Fr & Er). exists c, r. auto. }
    assert (Inf : forall q, (p_valid p && pp_valid q)%bool = false -> ds q = B754_infinity false).
    { intros q V. unfold ds. destruct (p_valid p); [|reflexivity]. cbn [andb] in V. rewrite V. reflexivity. }
    assert (Cap : forall f d, nearest_dist (Q f) x d -> 0 <= d <= 3 * P).
    { intros f d ((c & (_ & pa & q & Hpa & _ & Hq & V & X) & <-) & _). destruct (FP pa q Hpa Hq V) as (c' & X' & B1 & B2).
      assert (c' = c). { destruct c, c', X, X'. cbn [fst snd] in *. f_equal; eapply fin_fun; eauto. } subst c'. now apply dist_cap. }
    apply (cand32 paths (fun pa q => if path_on_route pa then ds q else finf (Scalar := S32))
             (fun pa q => path_on_route pa && (p_valid p && pp_valid q))%bool (Q true) x) in Hon.
    2:{ intros pa q Hpa Hq V. apply andb_true_iff in V as (V1 & V2). rewrite V1. exact (Dist pa q Hpa Hq V2). }
    2:{ intros pa q Hpa Hq V. destruct (path_on_route pa); [|reflexivity]. exact (Inf q V). }
    2:{ intros c. unfold Q, path_point_with32. split.
        - intros (V & pa & q & H1 & H2 & H3 & H4 & H5). exists pa, q. rewrite V, H2, H4. auto.
        - intros (pa & q & H1 & H2 & H3 & H4). apply andb_true_iff in H3 as (H3 & H5). apply andb_true_iff in H5 as (H5 & H6).
          split; [exact H5|]. exists pa, q. auto. }
    apply (cand32 paths (fun pa q => if negb (path_on_route pa) then ds q else finf (Scalar := S32))
             (fun pa q => negb (path_on_route pa) && (p_valid p && pp_valid q))%bool (Q false) x) in Hoff.
    2:{ intros pa q Hpa Hq V. apply andb_true_iff in V as (V1 & V2). rewrite V1. exact (Dist pa q Hpa Hq V2). }
    2:{ intros pa q Hpa Hq V. destruct (negb (path_on_route pa)); [|reflexivity]. exact (Inf q V). }
    2:{ intros c. unfold Q, path_point_with32. split.
        - intros (V & pa & q & H1 & H2 & H3 & H4 & H5). exists pa, q. rewrite V, H2, H4. auto.
        - intros (pa & q & H1 & H2 & H3 & H4). apply andb_true_iff in H3 as (H3 & H5). apply andb_true_iff in H5 as (H5 & H6).
          apply negb_true_iff in H3. split; [exact H5|]. exists pa, q. auto. }
    assert (F5 : fin (max_distance_to_route (S := S32)) 5) by exact (lit_int lm 5 ltac:(simpl; lia)).
    assert (F2 : fin (max_relative_distance (S := S32)) 2) by exact (f2_fin lm).
    destruct Hon as [[-> N] | (r & d & Fr & ND & Er)].
    - left. split.
      + destruct (p_valid p) eqn:V; [right | left; reflexivity]. intros (c & Hq). apply N. exists c. split; auto.
      + assert (G : fgtb (S := S32) (B754_infinity false) max_distance_to_route = true) by (vm_compute; reflexivity).
        rewrite G in H. cbn [orb] in H. rewrite <- H. split; [reflexivity | exact (f0_fin lm)].
    - right.
      assert (V : p_valid p = true) by (destruct ND as ((c & (V & _) & _) & _); exact V).
      assert (QE : forall f d, nearest_dist (Q f) x d <-> nearest_dist (path_point_with32 f paths) x d).
      { intros f d0. unfold nearest_dist, Q. split.
        - intros ((c & (_ & Hq) & D) & M). split; [exists c; auto | intros; apply M; auto].
        - intros ((c & Hq & D) & M). split; [exists c; auto | intros c' (_ & Hq'); apply M; auto]. }
      assert (Rel : exists rel : bool, fgtb (S := S32) (fsub (Scalar := S32) mon moff) max_relative_distance = rel /\
                (rel = true -> exists d', nearest_dist (Q false) x d' /\ 2 - 128 * K < d - d') /\
                (forall d', nearest_dist (Q false) x d' -> 2 + 128 * K < d - d' -> rel = true)).
      { destruct Hoff as [[-> N] | (r' & d' & Fr' & ND' & Er')].
        - exists false. split; [|split; [discriminate|]].
          + destruct Fr as [Fm Em]. unfold fgtb. destruct mon as [sg|sg| |sg mm e HH]; try discriminate; vm_compute; reflexivity.
          + intros d' ((c & Hq & _) & _). exfalso. apply N. exists c. exact Hq.
        - pose proof (Cap _ _ ND) as C1. pose proof (Cap _ _ ND') as C2.
          apply Rabs_le_inv in Er, Er'.
          assert (Bs : Rabs (r - r') <= 4 * P) by (apply Rabs_le; lra).
          assert (B70 : 4 * P <= 2 ^ 70). { assert (2 ^ 30 * 4 <= 2 ^ 70) by (replace (2 ^ 70) with (2 ^ 30 * 2 ^ 40) by ring; apply Rmult_le_compat_l; [apply pow_le; lra | simpl; lra]). lra. }
          pose proof (sub_fin _ _ _ _ Fr Fr' ltac:(apply big127; lra)) as Fs.
          pose proof (rnd_cap _ _ Bs) as Rs. apply Rabs_le_inv in Rs. assert (U : u32 = / 16777216) by reflexivity. rewrite U in Rs.
          exists (Rlt_bool 2 (rnd (r - r'))). split; [exact (ltb_fin _ _ _ _ F2 Fs)|]. split.
          + intros G. destruct (Rlt_bool_spec 2 (rnd (r - r'))) as [G'|]; [|discriminate]. exists d'. split; [exact ND' | lra].
          + intros d'' ND'' G. rewrite (nearest_unique _ _ _ _ ND'' ND') in G. apply Rlt_bool_true. lra. }
      destruct Rel as (rel & ER & R1 & R2). rewrite ER in H.
      assert (EA : fgtb (S := S32) mon max_distance_to_route = Rlt_bool 5 r) by exact (ltb_fin _ _ _ _ F5 Fr).
      rewrite EA in H. pose proof Er as Er0. apply Rabs_le_inv in Er.
      assert (FM : fisfinite (Scalar := S32) mon = true) by (destruct Fr as [Fr _]; exact Fr).
      assert (F0 : fisfinite (Scalar := S32) (f0 (S := S32)) = true) by (vm_compute; reflexivity).
      split; [exact V|].
      destruct (Rlt_bool 5 r || rel)%bool eqn:G.
      + rewrite FM in H. rewrite <- H. cbn [mr_value mr_valid]. split; [reflexivity|]. exists d, r.
        split; [now apply QE|]. split; [exact Fr|]. assert (RR : Rabs (r - d) <= 64 * K) by lra.
        split; [right; exact RR|]. split; [auto|]. intros D5 DR. exfalso. apply orb_true_iff in G as [G|G].
        * destruct (Rlt_bool_spec 5 r) as [G'|]; [lra | discriminate].
        * destruct (R1 G) as (d' & ND' & L'). apply QE in ND'. specialize (DR d' ND'). lra.
      + apply orb_false_iff in G as (G1 & G2). rewrite F0 in H. rewrite <- H. cbn [mr_value mr_valid]. split; [reflexivity|].
        exists d, 0. split; [now apply QE|]. split; [exact (f0_fin lm)|]. split; [left; reflexivity|].
        split; [|auto]. intros [D5|(d' & ND' & D2)]; exfalso.
        * destruct (Rlt_bool_spec 5 r) as [|G']; [discriminate | lra].
        * apply QE in ND'. rewrite (R2 d' ND' D2) in G2. discriminate.
  Qed.
End Map.
