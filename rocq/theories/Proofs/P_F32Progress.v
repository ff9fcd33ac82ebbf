(** The progression metric in float32. *)
From Coq Require Import List ZArith Reals Lra Lia Bool.
From Flocq Require Import Core.Raux IEEE754.BinarySingleNaN.
From Verif.Lib Require Import Base JaxIndex Scalar XR F32.
From Verif.Model Require Import Operations State Dynamics BaseEnv Dyn_State Geometry Discretizer Comfort Metrics Actor Waypoint.
From Verif.Spec Require Import StateSpec GeomSpec DynSpec AgentSpec MetricSpec F32Spec F32EpisodeSpec F32GeomSpec F32DriveSpec F32MapSpec.
From Verif.Proofs Require Import Core P_Metrics P_F32 P_F32Wrap P_F32Delta P_F32Bicycle P_F32Kim P_F32Special P_F32Overlap P_F32Idm P_F32Route P_Route P_F32Map.
Import ListNotations.
Open Scope R_scope.

Lemma log_frame_any {S : Scalar} n T (tr : traj) t : rect n T tr -> (t < T)%nat ->
  exists fr, log_frame tr t = Ok fr /\ length fr = n /\ forall j, (j < n)%nat -> nth_error fr j = at2 tr j t.
Proof.
  intros [L R] HT. unfold log_frame.
  destruct (mapM_total (fun r => match nth_error r t with Some p => Ok p | None => Err IndexError end) tr) as [fr Hf].
  { intros r Hr. destruct (nth_error_lt_Some r t) as [p ->]; [rewrite (R r Hr); exact HT | eauto]. }
  exists fr. split; [exact Hf|]. split; [rewrite (mapM_length _ _ _ Hf); exact L|].
  intros j Hj. destruct (nth_error_lt_Some tr j) as [r Hr]; [lia|].
  destruct (mapM_nth _ _ _ _ _ Hf Hr) as (p & Hp & Hn). rewrite Hn. unfold at2. rewrite Hr.
  destruct (nth_error r t) as [p'|]; [|discriminate]. apply Ok_inj in Hp. now subst.
Qed.

(** A quotient of two differences. *)
Lemma quotient32 (x y z w : f32) a b c d : fin x a -> fin y b -> fin z c -> fin w d ->
  Rabs a <= 2 ^ 30 -> Rabs b <= 2 ^ 30 -> Rabs c <= 2 ^ 30 -> Rabs d <= 2 ^ 30 -> / 2 ^ 20 <= Rabs (c - d) ->
  exists v, fin (Bdiv mode_NE (Bminus mode_NE x y) (Bminus mode_NE z w)) v /\
    v = rnd (rnd (a - b) / rnd (c - d)) /\ rnd (c - d) <> 0 /\
    Rabs (v - (a - b) / (c - d)) <= Rabs ((a - b) / (c - d)) / 2 ^ 22 + / 2 ^ 100.
Proof.
  intros Fx Fy Fz Fw Ba Bb Bc Bd L. pose proof tiny_small as TS.
  assert (U : u32 = / 16777216) by reflexivity.
  assert (P31 : 2 ^ 30 = 1073741824) by (simpl; lra). assert (P20 : / 2 ^ 20 = / 1048576) by (simpl; lra).
  rewrite P31 in Ba, Bb, Bc, Bd. rewrite P20 in L.
  assert (B1 : Rabs (a - b) <= 2147483648) by (replace (a - b) with (a + - b) by ring; replace 2147483648 with (1073741824 + 1073741824) by lra; apply abs_add; [|rewrite Rabs_Ropp]; auto).
  assert (B2 : Rabs (c - d) <= 2147483648) by (replace (c - d) with (c + - d) by ring; replace 2147483648 with (1073741824 + 1073741824) by lra; apply abs_add; [|rewrite Rabs_Ropp]; auto).
  assert (P70 : 2147483648 <= 2 ^ 70) by (replace (2 ^ 70) with 1180591620717411303424 by (simpl; lra); lra).
  pose proof (sub_fin _ _ _ _ Fx Fy ltac:(apply big127; lra)) as F1.
  pose proof (sub_fin _ _ _ _ Fz Fw ltac:(apply big127; lra)) as F2.
  pose proof (sub_err a b (fin_rep _ _ Fx) (fin_rep _ _ Fy)) as E1.
  pose proof (sub_err c d (fin_rep _ _ Fz) (fin_rep _ _ Fw)) as E2.
  set (p := a - b) in *. set (q := c - d) in *. set (p' := rnd p) in *. set (q' := rnd q) in *.
  rewrite U in E1, E2.
  assert (Q0 : q <> 0). { intros E. rewrite E, Rabs_R0 in L. lra. }
  assert (AQ : Rabs q * (1 - / 16777216) <= Rabs q').
  { assert (T : Rabs q <= Rabs q' + Rabs (q' - q)). { replace q with (q' + - (q' - q)) at 1 by ring. eapply Rle_trans; [apply Rabs_triang|]. rewrite Rabs_Ropp. lra. }
    lra. }
  assert (AQ0 : 0 < Rabs q') by (pose proof (Rmult_le_compat_r (1 - / 16777216) _ _ ltac:(lra) L); lra).
  assert (Q0' : q' <> 0). { intros E. rewrite E, Rabs_R0 in AQ0. lra. }
  set (v := p / q) in *.
  (* p'/q' - p/q = ((p'-p) - v (q'-q)) / q' *)
  assert (D : Rabs (p' / q' - v) <= Rabs v * (21 / 10 * / 16777216)).
  { replace (p' / q' - v) with (((p' - p) + - (v * (q' - q))) / q') by (unfold v; field; auto).
    unfold Rdiv. rewrite Rabs_mult, Rabs_inv.
    apply Rmult_le_reg_r with (Rabs q'); [exact AQ0|]. rewrite Rmult_assoc, Rinv_l, Rmult_1_r by lra.
    assert (PV : Rabs p = Rabs v * Rabs q) by (rewrite <- Rabs_mult; f_equal; unfold v; field; auto).
    eapply Rle_trans; [apply Rabs_triang|]. rewrite Rabs_Ropp, Rabs_mult, PV in *.
    pose proof (Rabs_pos v) as V0. 
    assert (Rabs v * Rabs (q' - q) <= Rabs v * (/ 16777216 * Rabs q)) by (apply Rmult_le_compat_l; auto).
    assert (Rabs v * (Rabs q * (1 - / 16777216)) <= Rabs v * Rabs q') by (apply Rmult_le_compat_l; auto).
    assert (0 <= Rabs v * Rabs q) by (apply Rmult_le_pos; [auto | lra]).
    lra. }
  assert (BV : Rabs v <= 2 ^ 52).
  { unfold v, Rdiv. rewrite Rabs_mult, Rabs_inv. apply Rle_trans with (2147483648 * 1048576).
    - apply Rmult_le_compat; auto using Rabs_pos; [apply Rlt_le, Rinv_0_lt_compat; lra|].
      replace 1048576 with (/ / 1048576) by (field; lra). apply Rinv_le_contravar; lra.
    - simpl; lra. }
  assert (BV' : Rabs (p' / q') <= 2 ^ 53).
  { replace (p' / q') with ((p' / q' - v) + v) by ring. eapply Rle_trans; [apply Rabs_triang|].
    replace (2 ^ 53) with (2 ^ 52 + 2 ^ 52) by (simpl; lra). pose proof (Rabs_pos v). lra. }
  assert (P53 : 2 ^ 53 <= 2 ^ 70) by (apply Rle_pow; [lra|lia]).
  pose proof (div_fin _ _ _ _ F1 F2 Q0' ltac:(apply big127; lra)) as FD.
  exists (rnd (p' / q')). split; [exact FD|]. split; [reflexivity|]. split; [exact Q0'|].
  pose proof (rnd_err (p' / q')) as RE. rewrite U in RE. fold tiny in RE.
  assert (AV : Rabs (p' / q') <= Rabs v * (1 + 21 / 10 * / 16777216)).
  { replace (p' / q') with ((p' / q' - v) + v) by ring. eapply Rle_trans; [apply Rabs_triang|]. lra. }
  replace (rnd (p' / q') - v) with ((rnd (p' / q') - p' / q') + (p' / q' - v)) by ring.
  eapply Rle_trans; [apply Rabs_triang|]. replace (2 ^ 22) with 4194304 by (simpl; lra).
  pose proof (Rabs_pos v). lra.
Qed.

(** The same number, up to the sign of zero. *)
Definition same32 (x y : f32) : Prop := x = y \/ exists r, fin x r /\ fin y r.

Lemma lt_same (x y x' y' : f32) : same32 x x' -> same32 y y' -> okd32 x -> okd32 y -> Bltb x y = Bltb x' y'.
Proof.
  intros [<-|(r & F & F')] [<-|(q & G & G')] Ox Oy.
  - reflexivity.
  - destruct Ox as [->|(r & F)].
    + clear Oy. destruct G as [G _], G' as [G' _]. destruct y; try discriminate G; destruct y'; try discriminate G'; reflexivity.
    + now rewrite (ltb_fin _ _ _ _ F G), (ltb_fin _ _ _ _ F G').
  - destruct Oy as [->|(q & G)].
    + clear Ox. destruct F as [F _], F' as [F' _].
      destruct x as [[]| | |[] ? ? ?]; try discriminate F; destruct x' as [[]| | |[] ? ? ?]; try discriminate F'; reflexivity.
    + now rewrite (ltb_fin _ _ _ _ F G), (ltb_fin _ _ _ _ F' G).
  - now rewrite (ltb_fin _ _ _ _ F G), (ltb_fin _ _ _ _ F' G').
Qed.

Lemma nan_ok lm (x : f32) : okd32 x -> fisnan (S := F32 lm) x = false.
Proof.
  intros [->|(r & F)]; [reflexivity|]. assert (E : feqb (Scalar := F32 lm) x x = Req_bool r r) by exact (eqb_fin _ _ _ _ F F).
  unfold fisnan. rewrite E. now rewrite Req_bool_true.
Qed.

Lemma ok_same (x y : f32) : same32 x y -> okd32 x -> okd32 y.
Proof. intros [<-|(r & F & F')] O; [exact O | right; exists r; exact F']. Qed.

Lemma argmin_from_same lm (l l' : list f32) : Forall2 same32 l l' -> Forall okd32 l ->
  forall b b' bi i, same32 b b' -> okd32 b -> argmin_from (S := F32 lm) b bi i l = argmin_from (S := F32 lm) b' bi i l'.
Proof.
  induction 1 as [|x x' l l' Hx Hl IH]; intros O b b' bi i Hb Ob; [reflexivity|].
  pose proof (Forall_inv O) as Ox. pose proof (Forall_inv_tail O) as O'.
  assert (E : min_before (S := F32 lm) x b = min_before (S := F32 lm) x' b').
  { unfold min_before. rewrite (nan_ok lm x Ox), (nan_ok lm x' (ok_same _ _ Hx Ox)). cbn [andb]. f_equal. exact (lt_same _ _ _ _ Hx Hb Ox Ob). }
  cbn [argmin_from]. rewrite E. destruct (min_before (S := F32 lm) x' b'); apply IH; assumption.
Qed.

Lemma argmin_same lm (l l' : list f32) : Forall2 same32 l l' -> Forall okd32 l -> argmin (S := F32 lm) l = argmin (S := F32 lm) l'.
Proof.
  intros [|x x' t t' Hx Ht] O; [reflexivity|]. unfold argmin.
  exact (argmin_from_same lm t t' Ht (Forall_inv_tail O) x x' _ _ Hx (Forall_inv O)).
Qed.

Section Progress.
  Variable lm : libm.
  Notation S32 := (F32 lm).
  Variable P : R.
  Hypothesis P1 : 1 <= P <= 2 ^ 30.
  Notation K := (P / 16777216).

  (** The arc length read off at the nearest valid path point. *)
  Lemma arclength32 (a b : f32) x (paths : list (path (S := S32))) pa : In pa paths -> paths32 P paths -> arcs32 paths ->
    fin a (fst x) -> fin b (snd x) -> Rabs (fst x) <= P -> Rabs (snd x) <= P ->
    (exists q, In q (path_pts pa) /\ pp_valid q = true) ->
    exists r q, fin (arclength_for (S := S32) (a, b) (path_pts pa)) r /\ arc32 (120 * K) (path_pts pa) x r /\
      In q (path_pts pa) /\ pp_valid q = true /\ fin (pp_arc q) r.
  Proof.
    intros Hpa FP FA Fa Fb Ba Bb (q0 & I0 & V0). unfold arclength_for.
    set (pts := path_pts pa) in *.
    set (dd := fun p : pathpt (S := S32) => if pp_valid p then path_dist (S := S32) (a, b) p else finf (Scalar := S32)).
    assert (DV : forall q, In q pts -> pp_valid q = true -> exists c r, xy32 q c /\ fin (dd q) r /\ Rabs (r - dist x c) <= 60 * K).
    { intros q Hq V. destruct (FP pa q Hpa Hq V) as (c & X & B1 & B2). unfold dd. rewrite V.
      destruct (path_dist32 lm P P1 a b x q c Fa Fb Ba Bb X B1 B2) as (r & Fr & Er). exists c, r. auto. }
    assert (NE : map dd pts <> []). { intros E. apply map_eq_nil in E. rewrite E in I0. destruct I0. }
    assert (OK : Forall okd32 (map dd pts)).
    { apply Forall_forall. intros z Hz. apply in_map_iff in Hz as (q & <- & Hq). destruct (pp_valid q) eqn:V.
      - destruct (DV q Hq V) as (c & r & _ & F & _). right. exists r. exact F.
      - left. unfold dd. rewrite V. reflexivity. }
    destruct (argmin32 lm _ NE OK) as (d & Hd & Md). set (k := argmin (S := S32) (map dd pts)) in *.
    rewrite nth_error_map in Hd. destruct (nth_error pts k) as [q|] eqn:Hk; [|discriminate].
    cbn [option_map] in Hd. assert (Hd' : dd q = d) by congruence. clear Hd. subst d.
    rewrite (nth_error_nth _ _ _ Hk). pose proof (nth_error_In _ _ Hk) as Hq.
    assert (V : pp_valid q = true).
    { destruct (pp_valid q) eqn:V; [reflexivity|]. exfalso. destruct (DV q0 I0 V0) as (c & r & _ & F & _).
      destruct (Md (dd q0) (in_map _ _ _ I0) r F) as (g & [Fg _] & _). unfold dd in Fg. rewrite V in Fg. discriminate. }
    destruct (FA pa q Hpa Hq V) as (r & Fr & _).
    exists r, q. split; [exact Fr|]. split; [|auto].
    destruct (DV q Hq V) as (c & g & X & Fg & Eg). exists q, c. split; [exact Hq|]. split; [exact V|]. split; [exact X|]. split; [exact Fr|].
    intros q' c' Hq' V' X'. destruct (DV q' Hq' V') as (c2 & g' & X2 & Fg' & Eg').
    assert (c2 = c'). { destruct c2, c', X2, X'. cbn [fst snd] in *. f_equal; eapply fin_fun; eauto. } subst c2.
    destruct (Md (dd q') (in_map _ _ _ Hq') g' Fg') as (g2 & Fg2 & Lg). rewrite (fin_fun _ _ _ Fg2 Fg) in Lg.
    apply Rabs_le_inv in Eg, Eg'. lra.
  Qed.

  Lemma path_dist_same (a b a' b' : f32) x (q : pathpt (S := S32)) c : fin a (fst x) -> fin b (snd x) -> fin a' (fst x) -> fin b' (snd x) ->
    Rabs (fst x) <= P -> Rabs (snd x) <= P -> xy32 q c -> Rabs (fst c) <= P -> Rabs (snd c) <= P ->
    same32 (path_dist (S := S32) (a, b) q) (path_dist (S := S32) (a', b') q).
  Proof.
    intros Fa Fb Fa' Fb' Ba Bb (X & Y) Bx By. right.
    assert (P30 : 2 ^ 30 = 1073741824) by (simpl; lra). pose proof tiny_small as TS. assert (U : u32 = / 16777216) by reflexivity.
    assert (P70 : 2 ^ 70 = 1180591620717411303424) by (simpl; lra).
    assert (D : forall u v, Rabs u <= P -> Rabs v <= P -> Rabs (u - v) <= 2147483648).
    { intros u v Hu Hv. replace (u - v) with (u + - v) by ring. replace 2147483648 with (1073741824 + 1073741824) by lra.
      apply abs_add; [|rewrite Rabs_Ropp]; lra. }
    assert (S1 : forall (f g : f32) u v, fin f u -> fin g v -> Rabs u <= P -> Rabs v <= P ->
       fin (Bminus mode_NE f g) (rnd (u - v)) /\ Rabs (rnd (u - v)) <= 4294967296).
    { intros f g u v Hf Hg Hu Hv. specialize (D u v Hu Hv). split; [apply sub_fin; auto; apply big127; lra|].
      pose proof (rnd_cap _ _ D) as R. rewrite U in R. replace (rnd (u - v)) with ((rnd (u - v) - (u - v)) + (u - v)) by ring.
      eapply Rle_trans; [apply Rabs_triang|]. lra. }
    destruct (S1 a (pp_x q) _ _ Fa X Ba Bx) as (DX & BX). destruct (S1 a' (pp_x q) _ _ Fa' X Ba Bx) as (DX' & _).
    destruct (S1 b (pp_y q) _ _ Fb Y Bb By) as (DY & BY). destruct (S1 b' (pp_y q) _ _ Fb' Y Bb By) as (DY' & _).
    set (u := rnd (fst x - fst c)) in *. set (v := rnd (snd x - snd c)) in *.
    assert (SQ : forall w, Rabs w <= 4294967296 -> 0 <= w * w <= 18446744073709551616).
    { intros w Hw. split; [apply Rle_0_sqr|]. rewrite <- (Rabs_pos_eq (w * w)) by apply Rle_0_sqr. rewrite Rabs_mult.
      replace 18446744073709551616 with (4294967296 * 4294967296) by ring. apply Rmult_le_compat; auto using Rabs_pos. }
    destruct (SQ u BX) as (U0 & U1). destruct (SQ v BY) as (V0 & V1).
    assert (RS : forall w, 0 <= w <= 18446744073709551616 -> 0 <= rnd w <= 36893488147419103232).
    { intros w (W0 & W1). split; [rewrite <- rnd_0; apply rnd_le; exact W0|].
      pose proof (rnd_cap w 18446744073709551616 ltac:(rewrite Rabs_pos_eq; lra)) as R. rewrite U in R. apply Rabs_le_inv in R. lra. }
    destruct (RS (u * u)) as (A0 & A1); [lra|]. destruct (RS (v * v)) as (B0 & B1); [lra|].
    exists (rnd (sqrt (rnd (rnd (u * u) + rnd (v * v))))).
    assert (G : forall (f g : f32), fin f u -> fin g v -> fin (norm2 (S := S32) f g) (rnd (sqrt (rnd (rnd (u * u) + rnd (v * v)))))).
    { intros f g Hf Hg. refine (sqrt_fin _ _ (add_fin _ _ _ _ (mul_fin _ _ _ _ Hf Hf _) (mul_fin _ _ _ _ Hg Hg _) _) _).
      - apply big127. rewrite Rabs_pos_eq; lra.
      - apply big127. rewrite Rabs_pos_eq; lra.
      - apply big127. rewrite Rabs_pos_eq; lra.
      - rewrite <- rnd_0. apply rnd_le. lra. }
    split; [exact (G _ _ DX DY) | exact (G _ _ DX' DY')].
  Qed.

  Lemma arclength_same (a b a' b' : f32) x (paths : list (path (S := S32))) pa : In pa paths -> paths32 P paths ->
    fin a (fst x) -> fin b (snd x) -> fin a' (fst x) -> fin b' (snd x) -> Rabs (fst x) <= P -> Rabs (snd x) <= P ->
    arclength_for (S := S32) (a, b) (path_pts pa) = arclength_for (S := S32) (a', b') (path_pts pa).
  Proof.
    intros Hpa FP Fa Fb Fa' Fb' Ba Bb. unfold arclength_for. f_equal. f_equal. apply argmin_same.
    - assert (G : forall l, incl l (path_pts pa) -> Forall2 same32
        (map (fun p => if pp_valid p then path_dist (S := S32) (a, b) p else finf (Scalar := S32)) l)
        (map (fun p => if pp_valid p then path_dist (S := S32) (a', b') p else finf (Scalar := S32)) l)).
      { induction l as [|q l IH]; intros I; [constructor|]. cbn [map]. constructor; [|apply IH; intros z Hz; apply I; right; exact Hz].
        destruct (pp_valid q) eqn:V; [|left; reflexivity].
        destruct (FP pa q Hpa (I q (or_introl eq_refl)) V) as (c & X & B1 & B2).
        exact (path_dist_same a b a' b' x q c Fa Fb Fa' Fb' Ba Bb X B1 B2). }
      apply G. apply incl_refl.
    - apply Forall_forall. intros z Hz. apply in_map_iff in Hz as (q & <- & Hq). destruct (pp_valid q) eqn:V; [|left; reflexivity].
      destruct (FP pa q Hpa Hq V) as (c & X & B1 & B2).
      destruct (path_dist32 lm P P1 a b x q c Fa Fb Ba Bb X B1 B2) as (r & Fr & _). right. exists r. exact Fr.
  Qed.

  Lemma progression32 n T (s : state (S := S32)) t i p x l0 x0 l1 x1 paths m :
    wf_state n T s -> s_t s = Z.of_nat t -> (t < T)%nat -> the_sdc (s_meta s) i ->
    frame32 P (s_sim s) t -> frame32 P (s_log s) 0 -> frame32 P (s_log s) (T - 1) ->
    at2 (s_sim s) i t = Some p -> fin (p_x p) (fst x) -> fin (p_y p) (snd x) ->
    at2 (s_log s) i 0 = Some l0 -> fin (p_x l0) (fst x0) -> fin (p_y l0) (snd x0) ->
    at2 (s_log s) i (T - 1) = Some l1 -> fin (p_x l1) (fst x1) -> fin (p_y l1) (snd x1) ->
    s_paths s = Some paths -> paths32 P paths -> arcs32 paths -> progression_compute s = Ok m ->
    ((p_valid p = false \/ ~ exists c, path_point_with32 true paths c) /\ mr_valid m = false /\ fin (mr_value m) 0) \/
    (p_valid p = true /\ mr_valid m = true /\
     exists pa a0 a1 a v, ref_path32 (P / 2 ^ 17) paths x pa /\
       arc32 (P / 2 ^ 17) (path_pts pa) x0 a0 /\ arc32 (P / 2 ^ 17) (path_pts pa) x1 a1 /\ arc32 (P / 2 ^ 17) (path_pts pa) x a /\
       fin (mr_value m) v /\ (a0 = a1 -> v = 1) /\ (x = x1 -> v = 1) /\ (x = x0 -> a0 <> a1 -> v = 0) /\
       (a0 <> a1 -> Rabs (v - (a - a0) / (a1 - a0)) <= Rabs ((a - a0) / (a1 - a0)) / 2 ^ 22 + / 2 ^ 100)).
  Proof.
    intros (R & RL & LM & Hn & _) Ht HT SD FX FX0 FX1 Hp Hx Hy Hl0 Hx0 Hy0 Hl1 Hx1 Hy1 HP FP FA H.
    replace (P / 2 ^ 17) with (128 * K) by (simpl; lra).
    unfold progression_compute in H. rewrite Ht, HP in H. apply bind_Ok in H as (cur & Hc & H).
    destruct (dynamic_index_at n T _ _ _ R HT Hc) as [L A].
    destruct (sdc_xy32 lm P P1 n T _ _ cur t i p x R LM L A SD FX Hp Hx Hy) as (a & b & E & Fa & Fb). rewrite E in H. cbn [bind] in H.
    assert (NT : num_timesteps (s_log s) = T).
    { destruct RL as [L1 R1]. destruct (s_log s) as [|r ?]; [simpl in L1; lia|]. simpl. apply R1. now left. }
    rewrite NT in H.
    destruct (log_frame_any n T (s_log s) 0 RL) as (f0' & E0 & Lf0 & Nf0); [lia|].
    destruct (log_frame_any n T (s_log s) (T - 1) RL) as (f1' & E1 & Lf1 & Nf1); [lia|].
    rewrite E0 in H. cbn [bind] in H.
    destruct (sdc_xy32 lm P P1 n T _ _ f0' 0%nat i l0 x0 RL LM Lf0 Nf0 SD FX0 Hl0 Hx0 Hy0) as (a0' & b0' & E0' & Fa0 & Fb0). rewrite E0' in H. cbn [bind] in H.
    rewrite E1 in H. cbn [bind] in H.
    destruct (sdc_xy32 lm P P1 n T _ _ f1' (T - 1)%nat i l1 x1 RL LM Lf1 Nf1 SD FX1 Hl1 Hx1 Hy1) as (a1' & b1' & E1' & Fa1 & Fb1). rewrite E1' in H. cbn [bind] in H.
    assert (Bd : forall (tr : traj (S := S32)) t0 q c, frame32 P tr t0 -> at2 tr i t0 = Some q -> fin (p_x q) (fst c) -> fin (p_y q) (snd c) -> Rabs (fst c) <= P /\ Rabs (snd c) <= P).
    { intros tr t0 q c F Hq H1 H2. destruct (F i q Hq) as (u & w & Fu & Fw & Bu & Bw). rewrite (fin_fun _ _ _ H1 Fu), (fin_fun _ _ _ H2 Fw). auto. }
    destruct (Bd _ _ _ _ FX Hp Hx Hy) as (Bx & By). destruct (Bd _ _ _ _ FX0 Hl0 Hx0 Hy0) as (Bx0 & By0). destruct (Bd _ _ _ _ FX1 Hl1 Hx1 Hy1) as (Bx1 & By1).
    assert (SV : sdc_valid cur (s_meta s) = Ok (p_valid p)).
    { apply select_onehot_b with i; auto.
      - rewrite map_length. lia.
      - destruct (at2_Some_lt _ _ _ _ _ _ R Hp) as [Hi _]. rewrite nth_error_map, (A i Hi), Hp. reflexivity. }
    rewrite SV in H. cbn [bind fst snd] in H.
    set (ds := fun (pa : path (S := S32)) (q : pathpt (S := S32)) => if p_valid p then if pp_valid q && path_on_route pa
       then norm2 (S := S32) (fsub (Scalar := S32) (pp_x q) a) (fsub (Scalar := S32) (pp_y q) b) else finf (Scalar := S32) else finf (Scalar := S32)) in *.
    apply bind_Ok in H as (dp & Hdp & H). apply bind_Ok in H as (md & Hmd & H). apply Ok_inj in H.
    assert (DV : forall pa q, In pa paths -> In q (path_pts pa) -> (p_valid p && (pp_valid q && path_on_route pa))%bool = true ->
              exists c r, xy32 q c /\ fin (ds pa q) r /\ Rabs (r - dist x c) <= 60 * K).
    { intros pa q Hpa Hq V. apply andb_true_iff in V as (V1 & V2). pose proof V2 as V3. apply andb_true_iff in V2 as (V2 & _).
      destruct (FP pa q Hpa Hq V2) as (c & (X & Y) & B1 & B2). unfold ds. rewrite V1, V3.
      destruct (way_dist32 lm P ltac:(split; [lra|]; apply Rle_trans with (2 ^ 30); [lra|]; apply Rle_pow; [lra|lia])
        a b (pp_x q) (pp_y q) _ _ _ _ Fa Fb X Y ltac:(lra) ltac:(lra) B1 B2) as (r & Fr & Er).
      exists c, r. split; [split; auto|]. split; [exact Fr|]. destruct x, c. exact Er. }
    assert (DI : forall pa q, (p_valid p && (pp_valid q && path_on_route pa))%bool = false -> ds pa q = B754_infinity false).
    { intros pa q V. unfold ds. destruct (p_valid p); [|reflexivity]. cbn [andb] in V. rewrite V. reflexivity. }
    (* each path *)
    assert (EP : forall k pa mk, nth_error paths k = Some pa -> nth_error dp k = Some mk ->
       In mk (map (ds pa) (path_pts pa)) /\ forall z, In z (map (ds pa) (path_pts pa)) -> le32 mk z).
    { intros k pa mk Hk Hmk. destruct (mapM_nth _ _ _ _ _ Hdp Hk) as (mk' & Hj & Hmk').
      rewrite Hmk in Hmk'. assert (mk' = mk) by congruence. subst mk'.
      apply (jmin32 lm _ _) in Hj; [exact Hj|]. apply Forall_forall. intros z Hz. apply in_map_iff in Hz as (q & <- & Hq).
      destruct (p_valid p && (pp_valid q && path_on_route pa))%bool eqn:V.
      - destruct (DV pa q (nth_error_In _ _ Hk) Hq V) as (c & r & _ & F & _). right. eauto.
      - left. now apply DI. }
    assert (Ldp : length dp = length paths) by (rewrite (mapM_length _ _ _ Hdp); reflexivity).
    assert (Odp : Forall okd32 dp).
    { apply Forall_forall. intros y Hy'. apply In_nth_error in Hy' as (k & Hk).
      destruct (nth_error_lt_Some paths k) as [pa Hpa]; [rewrite <- Ldp; eapply nth_error_Some_lt; eauto|].
      destruct (EP k pa y Hpa Hk) as (I & _). apply in_map_iff in I as (q & <- & Hq).
      destruct (p_valid p && (pp_valid q && path_on_route pa))%bool eqn:V.
      - destruct (DV pa q (nth_error_In _ _ Hpa) Hq V) as (c & r & _ & F & _). right. eauto.
      - left. now apply DI. }
    assert (Ndp : dp <> []) by (intros ->; discriminate).
    destruct (jmin32 lm dp md Odp Hmd) as (Imd & Mmd).
    destruct (argmin32 lm dp Ndp Odp) as (r & Hr & HM). set (k := argmin (S := S32) dp) in *.
    destruct (nth_error_lt_Some paths k) as [pa Hpa]; [rewrite <- Ldp; eapply nth_error_Some_lt; eauto|].
    rewrite (nth_error_nth _ _ _ Hpa) in H. pose proof (nth_error_In _ _ Hpa) as Ipa.
    destruct (EP k pa r Hpa Hr) as (Ir & Mr). apply in_map_iff in Ir as (q & Eq & Hq).
    (* the minimum is finite exactly if the path chosen has a selected point *)
    assert (Some1 : forall pb q', In pb paths -> In q' (path_pts pb) -> (p_valid p && (pp_valid q' && path_on_route pb))%bool = true ->
              forall c', xy32 q' c' -> exists g, fin r g /\ g <= dist x c' + 60 * K).
    { intros pb q' Hpb Hq' V c' X'. destruct (DV pb q' Hpb Hq' V) as (c2 & g' & X2 & Fg' & Eg').
      assert (c2 = c'). { destruct c2, c', X2, X'. cbn [fst snd] in *. f_equal; eapply fin_fun; eauto. } subst c2.
      apply In_nth_error in Hpb as (j & Hj). destruct (nth_error_lt_Some dp j) as [mj Hmj]; [rewrite Ldp; eapply nth_error_Some_lt; eauto|].
      destruct (EP j pb mj Hj Hmj) as (_ & Mj). destruct (Mj _ (in_map (ds pb) _ _ Hq') g' Fg') as (g2 & Fg2 & L2).
      destruct (HM mj (nth_error_In _ _ Hmj) g2 Fg2) as (g3 & Fg3 & L3). exists g3. split; [exact Fg3|]. apply Rabs_le_inv in Eg'. lra. }
    assert (EQ : le32 r md /\ le32 md r) by (split; [exact (HM md Imd) | exact (Mmd r (nth_error_In _ _ Hr))]).
    destruct (p_valid p && (pp_valid q && path_on_route pa))%bool eqn:V.
    - right. pose proof V as V0. apply andb_true_iff in V0 as (Vp & V0). apply andb_true_iff in V0 as (Vq & Von).
      split; [exact Vp|].
      destruct (DV pa q Ipa Hq V) as (c & g & X & Fg & Eg). assert (Fr : fin r g) by (rewrite <- Eq; exact Fg).
      assert (FM : fisfinite (Scalar := S32) md = true) by (destruct (proj2 EQ g Fr) as (g' & [F' _] & _); exact F').
      rewrite FM in H.
      assert (HQ : exists q0, In q0 (path_pts pa) /\ pp_valid q0 = true) by eauto.
      destruct (arclength32 a0' b0' x0 paths pa Ipa FP FA Fa0 Fb0 Bx0 By0 HQ) as (r0 & q0 & Fr0 & A0 & I0 & W0 & G0).
      destruct (arclength32 a1' b1' x1 paths pa Ipa FP FA Fa1 Fb1 Bx1 By1 HQ) as (r1 & q1 & Fr1 & A1 & I1 & W1 & G1).
      destruct (arclength32 a b x paths pa Ipa FP FA Fa Fb Bx By HQ) as (rc & qc & Frc & Ac & Ic & Wc & Gc).
      assert (Wk : forall y r, arc32 (120 * K) (path_pts pa) y r -> arc32 (128 * K) (path_pts pa) y r).
      { intros y r' (q' & c' & H1 & H2 & H3 & H4 & H5). exists q', c'. repeat (split; [assumption|]). intros q2 c2 K1 K2 K3. specialize (H5 q2 c2 K1 K2 K3). lra. }
      destruct (FA pa q0 Ipa I0 W0) as (z0 & Z0 & Bz0 & Sep). rewrite (fin_fun _ _ _ Z0 G0) in Bz0, Sep.
      destruct (FA pa q1 Ipa I1 W1) as (z1 & Z1 & Bz1 & _). rewrite (fin_fun _ _ _ Z1 G1) in Bz1.
      destruct (FA pa qc Ipa Ic Wc) as (zc & Zc & Bzc & _). rewrite (fin_fun _ _ _ Zc Gc) in Bzc.
      set (sd := arclength_for (S := S32) (a0', b0') (path_pts pa)) in *.
      set (ed := arclength_for (S := S32) (a1', b1') (path_pts pa)) in *.
      set (cd := arclength_for (S := S32) (a, b) (path_pts pa)) in *.
      assert (FE : feqb (Scalar := S32) ed sd = Req_bool r1 r0) by exact (eqb_fin _ _ _ _ Fr1 Fr0).
      rewrite FE in H.
      assert (RP : ref_path32 (128 * K) paths x pa).
      { split; [exact Ipa|]. split; [exact Von|]. exists q, c. split; [exact Hq|]. split; [exact Vq|]. split; [exact X|].
        intros c' (pb & q' & Hpb & Ob & Hq' & V' & X').
        destruct (Some1 pb q' Hpb Hq' ltac:(rewrite Vp, V', Ob; reflexivity) c' X') as (g3 & Fg3 & L3).
        rewrite (fin_fun _ _ _ Fg3 Fr) in L3. apply Rabs_le_inv in Eg. lra. }
      destruct (Req_bool_spec r1 r0) as [D|D]; rewrite <- H; cbn [mr_value mr_valid].
      + split; [reflexivity|]. exists pa, r0, r1, rc, 1. split; [exact RP|]. split; [auto|]. split; [auto|]. split; [auto|].
        split; [exact (f1_fin lm)|]. split; [reflexivity|]. split; [reflexivity|]. split; intros; congruence.
      + split; [reflexivity|].
        destruct (quotient32 cd sd ed sd rc r0 r1 r0 Frc Fr0 Fr1 Fr0 Bzc Bz0 Bz1 Bz0 (Sep q1 r1 I1 W1 G1 D)) as (v & Fv & Xv & Nz & Ev).
        exists pa, r0, r1, rc, v. split; [exact RP|]. split; [auto|]. split; [auto|]. split; [auto|].
        split; [exact Fv|]. split; [intros N; congruence|]. split; [|split; [|intros _; exact Ev]].
        * intros EX. subst x1. assert (EA : ed = cd) by exact (arclength_same a1' b1' a b x paths pa Ipa FP Fa1 Fb1 Fa Fb Bx By).
          pose proof (eq_ind (ed : f32) (fun z => fin z r1) Fr1 (cd : f32) EA) as Fr1'. rewrite (fin_fun _ _ _ Frc Fr1') in Xv. rewrite Xv. unfold Rdiv. rewrite Rinv_r by exact Nz.
          apply rnd_id, (rep_IZR 1). lia.
        * intros EX _. subst x0. assert (EA : sd = cd) by exact (arclength_same a0' b0' a b x paths pa Ipa FP Fa0 Fb0 Fa Fb Bx By).
          pose proof (eq_ind (sd : f32) (fun z => fin z r0) Fr0 (cd : f32) EA) as Fr0'. rewrite (fin_fun _ _ _ Frc Fr0') in Xv. rewrite Xv. rewrite Rminus_eq_0, rnd_0. unfold Rdiv. rewrite Rmult_0_l. apply rnd_0.
    - left. rewrite (DI pa q V) in Eq. subst r.
      split.
      + destruct (p_valid p) eqn:Vp; [right | left; reflexivity]. intros (c' & pb & q' & Hpb & Ob & Hq' & V' & X').
        destruct (Some1 pb q' Hpb Hq' ltac:(rewrite V', Ob; reflexivity) c' X') as (g3 & [Fg3 _] & _). discriminate.
      + assert (FM : fisfinite (Scalar := S32) md = false).
        { destruct (fisfinite (Scalar := S32) md) eqn:FM; [|reflexivity]. exfalso.
          destruct (proj1 EQ (B2R (md : f32)) (fin_B2R _ FM)) as (g & [F _] & _). discriminate. }
        rewrite FM in H. rewrite <- H. split; [reflexivity | exact (f0_fin lm)].
  Qed.
End Progress.
