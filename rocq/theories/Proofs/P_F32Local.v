(** Closed-loop expert control under DeltaLocal, frame by frame for every number
    type, and its rounding errors in float32. *)
From Coq Require Import List ZArith Reals Lra Lia Bool.
From Verif.Lib Require Import Base JaxIndex Scalar.
From Verif.Model Require Import Operations State Dynamics BaseEnv Geometry Dyn_State Dyn_Delta Expert.
From Verif.Spec Require Import StateSpec DynSpec.
From Verif.Proofs Require Import Core Episode P_Step P_Actions P_Expert P_Delta.
Import ListNotations.
Local Open Scope nat_scope.

Section Any.
  Context {S : Scalar}.

  Lemma local_inverse_frames q n T tr ms (t : nat) :
    rect n T tr -> t + 1 < T ->
    exists acts, d_inverse (DeltaLocal q) tr ms (Z.of_nat t) = Ok acts /\ length acts = n /\
      forall i p0 p1, i < n -> at2 tr i t = Some p0 -> at2 tr i (t + 1) = Some p1 ->
        nth_error acts i = Some (delta_local_inverse1 q p0 p1 p0).
  Proof.
    intros R Ht. simpl. unfold delta_local_inverse.
    destruct (two_frames_Ok n T tr t R Ht) as (ps & Hp & Lp & Ap). rewrite Hp; simpl.
    destruct (dynamic_index_total n T tr (Z.of_nat t) R) as [cs Hc]; [lia|]. rewrite Hc; simpl.
    apply (dynamic_index_Ok n T) in Hc as [Lc Hc]; auto. rewrite norm_start_of_nat in Hc by lia.
    eexists. split; [reflexivity|]. rewrite map2_length. split; [lia|].
    intros i p0 p1 Hi E0 E1. rewrite nth_error_map2, (Ap i p0 p1) by auto.
    rewrite Hc by auto. rewrite E0. reflexivity.
  Qed.

  (** The displacement in the object's frame, clipped, and back in the world. *)
  Definition local_xy (q : delta_params) (p l : pt) : vec :=
    let g := (fclip (fsub (p_x l) (p_x p)) (fopp (dl_mx q)) (dl_mx q),
              fclip (fsub (p_y l) (p_y p)) (fopp (dl_my q)) (dl_my q)) in
    let r := rotate_point (rotation_matrix_2d (fopp (p_yaw p))) g in
    rotate_point (rotation_matrix_2d (p_yaw p))
      (fclip (fst r) (fopp (dl_mx q)) (dl_mx q), fclip (snd r) (fopp (dl_my q)) (dl_my q)).
  Definition displaced_local (q : delta_params) (p l p' : pt) : Prop :=
    p_x p' = fadd (p_x p) (fst (local_xy q p l)) /\
    p_y p' = fadd (p_y p) (snd (local_xy q p l)) /\
    p_yaw p' = fadd (p_yaw p) (wrap_yaws (wrap_yaws (fsub (p_yaw l) (p_yaw p)))).

  Lemma expert_local_frame q n T c s k s' i t p l :
    wf_scenario n T s ->
    run_policy (DeltaLocal q) c (infer_expert_action (DeltaLocal q)) s k = Ok s' ->
    1 <= c_init_steps c -> c_init_steps c + k <= T -> i < n ->
    c_init_steps c <= t < c_init_steps c + k ->
    at2 (s_sim s') i (t - 1) = Some p -> p_valid p = true ->
    at2 (s_log s) i t = Some l -> p_valid l = true ->
    exists p', at2 (s_sim s') i t = Some p' /\ p_valid p' = true /\
      (p_x p' = p_x l /\ p_y p' = p_y l /\ p_yaw p' = p_yaw l \/ displaced_local q p l p').
  Proof.
    intros W H HI HL Hi Ht Ep Vp El Vl.
    destruct (policy_frames n T _ _ _ _ _ _ W H HI HL (t - c_init_steps c) ltac:(lia))
      as (s1 & a & cur & us & K1 & K2 & K3 & K4 & K5 & K6 & K7 & K8 & K9 & K10).
    destruct (K10 i Hi) as (J1 & J2 & u & p' & nxt & ctrl & Eu & Ep' & En & Ec & Ef).
    replace (c_init_steps c + (t - c_init_steps c)) with t in * by lia.
    assert (EPP : p' = p).
    { rewrite Ep' in J1. rewrite <- J2 in J1 by lia. congruence. }
    subst p'. assert (nxt = l) as -> by congruence.
    destruct (expert_frames n T (DeltaLocal q) s1 (t - 1) K2) as (comb & Ei & Rc & Fc); [lia|lia|].
    rewrite Ei in K5. replace (t - 1 + 1) with t in Fc by lia.
    destruct (local_inverse_frames q n 2 comb (s_meta s1) 0 Rc ltac:(lia)) as (acts & Ea & Lac & Aac).
    change (Z.of_nat 0) with 0%Z in Ea. assert (acts = a) as -> by congruence.
    destruct (Fc i Hi) as [F0 F1].
    assert (E0 : at2 comb i 0 = Some p) by (rewrite F0, <- J2; [exact Ep|lia]).
    assert (E1 : at2 comb i 1 = Some l) by (rewrite F1; destruct K3 as (-> & _); exact El).
    specialize (Aac i p l Hi E0 E1).
    destruct (per_object_Ok _ _ _ _ K9) as (_ & _ & PO).
    destruct (PO i _ _ Aac Ep') as (u' & EU & En').
    assert (u' = u) as -> by congruence.
    unfold delta_local_inverse1, delta_global_inverse1 in EU. rewrite Vp, Vl in EU.
    cbn [andb where_ delta_clip delta_local_update delta_global_update a_data a_valid] in EU. rewrite Vp in EU.
    cbn [andb] in EU.
    injection EU as <-. eexists. split; [exact Ef|]. split.
    { unfold next_pt, next_valid; cbn [p_valid]. rewrite Vp, Vl.
      destruct ctrl; simpl; destruct (c_allow_new_objects c); simpl; rewrite ?Vp; reflexivity. }
    unfold next_pt, displaced_local; cbn [p_x p_y p_yaw u_x u_y u_yaw].
    destruct ctrl; [right | left]; auto.
  Qed.

  Lemma expert_local_first q n T c s k s' i t l :
    wf_scenario n T s ->
    run_policy (DeltaLocal q) c (infer_expert_action (DeltaLocal q)) s k = Ok s' ->
    1 <= c_init_steps c -> c_init_steps c + k <= T -> i < n -> t < c_init_steps c ->
    at2 (s_log s) i t = Some l -> at2 (s_sim s') i t = Some l.
  Proof.
    intros W H HI HL Hi Ht El.
    destruct (run_policy_episode _ _ _ _ _ _ H) as (acts & La & HE).
    destruct (episode_basic _ _ _ _ _ _ _ W HE ltac:(lia)) as (_ & _ & _ & _ & F & _).
    rewrite F by lia. exact El.
  Qed.

  Lemma expert_local_runs q n T c s k :
    wf_scenario n T s -> c_max_num_objects c = n -> c_controlled c <> NON_SDC ->
    1 <= c_init_steps c -> c_init_steps c + k <= T ->
    exists s', run_policy (DeltaLocal q) c (infer_expert_action (DeltaLocal q)) s k = Ok s'.
  Proof.
    intros W HM HC HI. induction k as [|k IH]; intros HL.
    - destruct W as (R & Lm & Hn & HT).
      destruct (env_reset_total n T c s) as [s' H]; auto; [lia|].
      exists s'. now apply run_policy_0.
    - destruct IH as [s1 H1]; [lia|].
      destruct (run_policy_episode _ _ _ _ _ _ H1) as (acts & La & HE).
      destruct (episode_basic _ _ _ _ _ _ _ W HE ltac:(lia)) as (W1 & SC & _ & Et & _).
      destruct (expert_frames n T (DeltaLocal q) s1 (c_init_steps c + k - 1) W1) as (comb & Ei & Rc & Fc); [lia|lia|].
      destruct (local_inverse_frames q n 2 comb (s_meta s1) 0 Rc ltac:(lia)) as (a & Ea & Lac & Aac).
      assert (Ea' : infer_expert_action (DeltaLocal q) s1 = Ok a) by (rewrite Ei; exact Ea).
      destruct (env_step_total n T (DeltaLocal q) c s1 a _ W1 HC (delta_local_total _)) as [s' Hs]; auto.
      + apply Forall_forall. intros x Hx. apply In_nth_error in Hx as [i Hi].
        assert (Li : i < n) by (rewrite <- Lac; eapply nth_error_Some_lt; eauto).
        destruct (rect_at2 n 2 comb i 0 Rc Li) as [p Ep]; [lia|].
        destruct (rect_at2 n 2 comb i 1 Rc Li) as [p' Ep']; [lia|].
        rewrite (Aac i p p' Li Ep Ep') in Hi. injection Hi as <-. reflexivity.
      + exists s'. apply run_policy_snoc. eauto.
  Qed.

  (** Induction over the frames of a closed-loop replay of one object. *)
  Lemma local_replay_ind q n T c s k s' i (lg : nat -> pt) (P : nat -> F -> F -> F -> Prop) :
    wf_scenario n T s ->
    run_policy (DeltaLocal q) c (infer_expert_action (DeltaLocal q)) s k = Ok s' ->
    1 <= c_init_steps c -> c_init_steps c + k <= T -> i < n ->
    (forall t, c_init_steps c - 1 <= t < c_init_steps c + k ->
       at2 (s_log s) i t = Some (lg t) /\ p_valid (lg t) = true) ->
    (forall t, c_init_steps c - 1 <= t < c_init_steps c + k -> P t (p_x (lg t)) (p_y (lg t)) (p_yaw (lg t))) ->
    (forall t p p', c_init_steps c <= t < c_init_steps c + k ->
       P (t - 1) (p_x p) (p_y p) (p_yaw p) -> displaced_local q p (lg t) p' ->
       P t (p_x p') (p_y p') (p_yaw p')) ->
    forall t, c_init_steps c - 1 <= t < c_init_steps c + k ->
      exists p, at2 (s_sim s') i t = Some p /\ p_valid p = true /\ P t (p_x p) (p_y p) (p_yaw p).
  Proof.
    intros W H HI HL Hi Lg P0 P1.
    assert (Q : forall j, j <= k -> exists p, at2 (s_sim s') i (c_init_steps c + j - 1) = Some p /\
      p_valid p = true /\ P (c_init_steps c + j - 1) (p_x p) (p_y p) (p_yaw p)).
    2:{ intros t Ht. destruct (Q (t + 1 - c_init_steps c)) as (p & E); [lia|].
        replace (c_init_steps c + (t + 1 - c_init_steps c) - 1) with t in E by lia. eauto. }
    induction j as [|j IH]; intros Hj.
    - rewrite Nat.add_0_r. destruct (Lg (c_init_steps c - 1)) as [El Vl]; [lia|].
      exists (lg (c_init_steps c - 1)). split; [|split; [exact Vl | apply P0; lia]].
      eapply expert_local_first; eauto. lia.
    - destruct IH as (p & Ep & Vp & Pp); [lia|].
      replace (c_init_steps c + Datatypes.S j - 1) with (c_init_steps c + j) by lia.
      destruct (Lg (c_init_steps c + j)) as [El Vl]; [lia|].
      destruct (expert_local_frame q n T c s k s' i (c_init_steps c + j) p (lg (c_init_steps c + j)))
        as (p' & E' & V' & D); auto; [lia|].
      exists p'. split; [exact E'|]. split; [exact V'|]. destruct D as [(-> & -> & ->)|D].
      + apply P0. lia.
      + apply (P1 _ p p'); auto. lia.
  Qed.
End Any.

(* ---------------- float32 ---------------- *)
From Flocq Require Import Core.Raux IEEE754.BinarySingleNaN.
From Verif.Lib Require Import F32.
From Verif.Spec Require Import GeomSpec F32Spec F32EpisodeSpec F32LocalSpec.
From Verif.Proofs Require Import P_F32 P_F32Wrap P_F32Delta P_F32Bicycle P_F32Overlap P_F32Route P_F32Episode P_Metrics.
Open Scope R_scope.

Lemma len_comp a b : Rabs a <= len a b /\ Rabs b <= len a b.
Proof.
  unfold len. split; rewrite <- sqrt_Rsqr_abs; apply sqrt_le_1_alt; unfold Rsqr;
    pose proof (Rle_0_sqr a) as A; pose proof (Rle_0_sqr b) as B; unfold Rsqr in A, B; lra.
Qed.

(** Cauchy-Schwarz for an almost unit vector. *)
Lemma almost_unit C N a b : Rabs (C * C + N * N - 1) <= / 2 ^ 20 ->
  Rabs (C * a + N * b) <= (1 + / 2 ^ 20) * len a b.
Proof.
  intros H. apply Rabs_le_inv in H. assert (E : 0 < / 2 ^ 20) by (simpl; lra).
  assert (L0 : 0 <= len a b) by apply sqrt_pos.
  assert (LL : len a b * len a b = a * a + b * b).
  { unfold len. apply sqrt_sqrt. pose proof (Rle_0_sqr a) as A; pose proof (Rle_0_sqr b) as B; unfold Rsqr in A, B; lra. }
  rewrite <- (Rabs_pos_eq ((1 + / 2 ^ 20) * len a b)) by (apply Rmult_le_pos; lra).
  apply Rsqr_le_abs_0. unfold Rsqr.
  replace ((1 + / 2 ^ 20) * len a b * ((1 + / 2 ^ 20) * len a b))
    with ((1 + / 2 ^ 20) * ((1 + / 2 ^ 20) * (len a b * len a b))) by ring. rewrite LL.
  pose proof (Rle_0_sqr (C * b - N * a)) as Q. unfold Rsqr in Q.
  assert (I : (C * a + N * b) * (C * a + N * b) <= (C * C + N * N) * (a * a + b * b)) by lra.
  assert (D0 : 0 <= a * a + b * b) by (rewrite <- LL; apply Rmult_le_pos; lra).
  assert (J : (C * C + N * N) * (a * a + b * b) <= (1 + / 2 ^ 20) * (a * a + b * b)) by (apply Rmult_le_compat_r; lra).
  assert (K : (1 + / 2 ^ 20) * (a * a + b * b) <= (1 + / 2 ^ 20) * ((1 + / 2 ^ 20) * (a * a + b * b))).
  { apply Rmult_le_compat_l; [lra|]. assert (0 <= / 2 ^ 20 * (a * a + b * b)) by (apply Rmult_le_pos; lra). lra. }
  lra.
Qed.

Section Local.
  Variable lm : libm.
  Notation S32 := (F32 lm).
  Hypothesis TR : trig32 lm.
  Hypothesis PA : parity32 lm.

  (** One step of a position. *)
  Lemma local_step32 (q : delta_params (S := S32)) (p l : pt (S := S32)) a b w c d mx my m M :
    fin (p_x p) a -> fin (p_y p) b -> fin (p_yaw p) w -> fin (p_x l) c -> fin (p_y l) d ->
    fin (dl_mx q) mx -> fin (dl_my q) my -> m <= mx -> m <= my -> / 2 ^ 40 <= m <= 2 ^ 60 ->
    Rabs c <= M -> Rabs d <= M -> M <= 2 ^ 60 ->
    len (c - a) (d - b) + m / 2 ^ 18 <= m ->
    exists x y, fin (fadd (Scalar := S32) (p_x p) (fst (local_xy q p l))) x /\
      fin (fadd (Scalar := S32) (p_y p) (snd (local_xy q p l))) y /\
      Rabs (x - c) <= u32 * (M + 40 * m) /\ Rabs (y - d) <= u32 * (M + 40 * m).
  Proof.
    intros Fa Fb Fw Fc Fd Fx Fy Hx Hy Hm Bc Bd BM HD.
    destruct (TR (p_yaw p) (proj1 Fw)) as (C & N & FC & FN & BC & BN & U1).
    destruct (PA _ _ _ FC FN) as [FC' FN'].
    destruct (len_comp (c - a) (d - b)) as [Lx Ly].
    pose proof (almost_unit C N (c - a) (d - b) U1) as W1.
    assert (U1' : Rabs (C * C + - N * - N - 1) <= / 2 ^ 20) by (replace (C * C + - N * - N) with (C * C + N * N) by ring; exact U1).
    assert (U1'' : Rabs (- N * - N + C * C - 1) <= / 2 ^ 20) by (replace (- N * - N + C * C) with (C * C + N * N) by ring; exact U1).
    pose proof (almost_unit (- N) C (c - a) (d - b) U1'') as W2.
    assert (D0 : 0 <= len (c - a) (d - b)) by apply sqrt_pos.
    set (D := len (c - a) (d - b)) in *. clearbody D.
    pose proof tiny_small as TS. assert (U : u32 = / 16777216) by reflexivity.
    assert (P60 : 0 < 2 ^ 60 /\ 2 ^ 60 * 1024 = 2 ^ 70) by (simpl; lra).
    assert (T0 : 0 < tiny <= u32 * m).
    { split; [lra|]. rewrite U. simpl in TS, Hm. lra. }
    replace (m / 2 ^ 18) with (m / 262144) in HD by (simpl; lra).
    replace (/ 2 ^ 20) with (/ 1048576) in * by (simpl; lra).
    assert (M0 : 0 < m) by (simpl in Hm; lra).
    assert (MM : 0 <= M) by (pose proof (Rabs_pos c); lra).
    assert (UM : u32 * m = m / 16777216) by (rewrite U; lra).
    (* differences *)
    assert (B127 : forall r, Rabs r <= m -> Rabs r <= b32 127).
    { intros r Hr. apply big127. lra. }
    assert (Gx : ap (fclip (S := S32) (Bminus mode_NE (p_x l) (p_x p)) (Bopp (dl_mx q)) (dl_mx q)) (c - a) (u32 * m) m).
    { exists (rnd (c - a)). split.
      - apply (clip32_fin lm _ _ _ mx); [apply sub_fin; auto; apply B127; lra | exact Fx |].
        apply rnd_abs; [eapply fin_rep; exact Fx | lra].
      - split; [|lra]. eapply Rle_trans; [apply sub_err; eapply fin_rep; eassumption|].
        apply Rmult_le_compat_l; [lra|]. lra. }
    assert (Gy : ap (fclip (S := S32) (Bminus mode_NE (p_y l) (p_y p)) (Bopp (dl_my q)) (dl_my q)) (d - b) (u32 * m) m).
    { exists (rnd (d - b)). split.
      - apply (clip32_fin lm _ _ _ my); [apply sub_fin; auto; apply B127; lra | exact Fy |].
        apply rnd_abs; [eapply fin_rep; exact Fy | lra].
      - split; [|lra]. eapply Rle_trans; [apply sub_err; eapply fin_rep; eassumption|].
        apply Rmult_le_compat_l; [lra|]. lra. }
    assert (HC : Rabs C <= 1) by exact BC. assert (HN : Rabs N <= 1) by exact BN.
    assert (HN' : Rabs (- N) <= 1) by (rewrite Rabs_Ropp; exact BN).
    (* a row of the rotation: two products and their sum *)
    assert (Row : forall (f g xf yf : f32) A B X Y e, fin f A -> fin g B -> Rabs A <= 1 -> Rabs B <= 1 ->
      ap xf X e m -> ap yf Y e m -> 0 <= e <= 10 * (u32 * m) ->
      exists v, fin (Bplus mode_NE (Bmult mode_NE f xf) (Bmult mode_NE g yf)) v /\
        Rabs (v - (A * X + B * Y)) <= 2 * e + 5 * (u32 * m) + u32 * m).
    { intros f g xf yf A B X Y e FA FB HA HB AX AY He.
      pose proof (ap_mul _ _ _ _ _ _ _ _ (ap_exact _ _ 1 FA HA) AX) as M1.
      pose proof (ap_mul _ _ _ _ _ _ _ _ (ap_exact _ _ 1 FB HB) AY) as M2.
      assert (K : (1 + 0) * (m + e) <= 2 ^ 70) by lra. specialize (M1 K). specialize (M2 K).
      assert (E1 : 1 * e + 0 * (m + e) + (u32 * ((1 + 0) * (m + e)) + tiny) <= e + u32 * m + u32 * m / 10).
      { assert (u32 * ((1 + 0) * (m + e)) = u32 * m + u32 * e) by ring.
        assert (u32 * e <= u32 * m / 100). { rewrite U. rewrite U in He. lra. }
        assert (tiny <= u32 * m / 100) by (rewrite U; simpl in TS, Hm; lra). lra. }
      apply (ap_weaken _ _ _ _ (e + u32 * m + u32 * m / 10) m) in M1; [|exact E1|lra].
      apply (ap_weaken _ _ _ _ (e + u32 * m + u32 * m / 10) m) in M2; [|exact E1|lra].
      pose proof (ap_add _ _ _ _ _ _ _ _ M1 M2) as AA.
      destruct AA as (v & Fv & Ev & _); [lra|]. exists v. split; [exact Fv|]. eapply Rle_trans; [exact Ev|].
      assert (tiny <= u32 * m / 100) by (rewrite U; simpl in TS, Hm; lra).
      set (z := m + m + (e + u32 * m + u32 * m / 10) + (e + u32 * m + u32 * m / 10)).
      assert (u32 * z <= u32 * (3 * m)). { apply Rmult_le_compat_l; [lra|]. unfold z. lra. }
      lra. }
    destruct (Row _ _ _ _ _ _ _ _ (u32 * m) FC' (opp_fin _ _ FN') HC ltac:(rewrite Ropp_involutive; exact HN) Gx Gy ltac:(lra)) as (vx & Fvx & Evx).
    destruct (Row _ _ _ _ _ _ _ _ (u32 * m) FN' FC' HN' HC Gx Gy ltac:(lra)) as (vy & Fvy & Evy).
    rewrite Ropp_involutive in Evx.
    assert (Vx : Rabs vx <= m).
    { replace vx with ((C * (c - a) + N * (d - b)) + (vx - (C * (c - a) + N * (d - b)))) by ring.
      pose proof (abs_add _ _ _ _ W1 Evx). lra. }
    assert (Vy : Rabs vy <= m).
    { replace vy with ((- N * (c - a) + C * (d - b)) + (vy - (- N * (c - a) + C * (d - b)))) by ring.
      pose proof (abs_add _ _ _ _ W2 Evy). lra. }
    pose proof (clip32_fin lm _ _ _ _ Fvx Fx ltac:(lra)) as Cx.
    pose proof (clip32_fin lm _ _ _ _ Fvy Fy ltac:(lra)) as Cy.
    assert (Ax : ap (fclip (S := S32) (Bplus mode_NE
              (Bmult mode_NE (lm_cos lm (Bopp (p_yaw p))) (fclip (S := S32) (Bminus mode_NE (p_x l) (p_x p)) (Bopp (dl_mx q)) (dl_mx q)))
              (Bmult mode_NE (Bopp (lm_sin lm (Bopp (p_yaw p)))) (fclip (S := S32) (Bminus mode_NE (p_y l) (p_y p)) (Bopp (dl_my q)) (dl_my q))))
              (Bopp (dl_mx q)) (dl_mx q)) (C * (c - a) + N * (d - b)) (8 * (u32 * m)) m).
    { exists vx. split; [exact Cx|]. split; [lra|]. lra. }
    assert (Ay : ap (fclip (S := S32) (Bplus mode_NE
              (Bmult mode_NE (lm_sin lm (Bopp (p_yaw p))) (fclip (S := S32) (Bminus mode_NE (p_x l) (p_x p)) (Bopp (dl_mx q)) (dl_mx q)))
              (Bmult mode_NE (lm_cos lm (Bopp (p_yaw p))) (fclip (S := S32) (Bminus mode_NE (p_y l) (p_y p)) (Bopp (dl_my q)) (dl_my q))))
              (Bopp (dl_my q)) (dl_my q)) (- N * (c - a) + C * (d - b)) (8 * (u32 * m)) m).
    { exists vy. split; [exact Cy|]. split; [lra|]. lra. }
    destruct (Row _ _ _ _ _ _ _ _ (8 * (u32 * m)) FC (opp_fin _ _ FN) HC HN' Ax Ay ltac:(lra)) as (rx & Frx & Erx).
    destruct (Row _ _ _ _ _ _ _ _ (8 * (u32 * m)) FN FC HN HC Ax Ay ltac:(lra)) as (ry & Fry & Ery).
    assert (Near : forall z, Rabs z <= D -> Rabs ((C * C + N * N - 1) * z) <= 16 * (u32 * m)).
    { intros z Hz. pose proof (abs_mul _ _ _ _ U1 Hz) as Q. rewrite UM. lra. }
    assert (Ex : Rabs (rx - (c - a)) <= 38 * (u32 * m)).
    { replace (rx - (c - a)) with ((rx - (C * (C * (c - a) + N * (d - b)) + - N * (- N * (c - a) + C * (d - b))))
        + (C * C + N * N - 1) * (c - a)) by ring.
      pose proof (abs_add _ _ _ _ Erx (Near _ Lx)). lra. }
    assert (Ey : Rabs (ry - (d - b)) <= 38 * (u32 * m)).
    { replace (ry - (d - b)) with ((ry - (N * (C * (c - a) + N * (d - b)) + C * (- N * (c - a) + C * (d - b))))
        + (C * C + N * N - 1) * (d - b)) by ring.
      pose proof (abs_add _ _ _ _ Ery (Near _ Ly)). lra. }
    assert (Fin : forall (f g : f32) a0 c0 r0, fin f a0 -> fin g r0 -> Rabs c0 <= M -> Rabs (r0 - (c0 - a0)) <= 38 * (u32 * m) ->
      fin (Bplus mode_NE f g) (rnd (a0 + r0)) /\ Rabs (rnd (a0 + r0) - c0) <= u32 * (M + 40 * m)).
    { intros f g a0 c0 r0 Ff Fg B0 E0.
      assert (S0 : Rabs (a0 + r0) <= M + 38 * (u32 * m)).
      { replace (a0 + r0) with (c0 + (r0 - (c0 - a0))) by ring. now apply abs_add. }
      split; [apply add_fin; auto; apply big127; lra|].
      assert (E0' : Rabs (a0 + r0 - c0) <= 38 * (u32 * m)) by (replace (a0 + r0 - c0) with (r0 - (c0 - a0)) by ring; exact E0).
      pose proof (rnd_near _ _ _ _ E0' S0) as Q. eapply Rle_trans; [exact Q|].
      assert (tiny <= u32 * m / 100) by (rewrite U; simpl in TS, Hm; lra).
      rewrite U in *. lra. }
    destruct (Fin _ _ _ _ _ Fa Frx Bc Ex) as [X1 X2]. destruct (Fin _ _ _ _ _ Fb Fry Bd Ey) as [Y1 Y2].
    exists (rnd (a + rx)), (rnd (b + ry)). split; [exact X1|]. split; [exact Y1|]. split; [exact X2 | exact Y2].
  Qed.

  Lemma twice_wrapped (x l : f32) a b A Y :
    fin x a -> fin l b -> Rabs a <= A -> Rabs b <= Y -> A <= 1000000 -> Y <= 1000000 ->
    exists w (j : Z), fin (fadd (Scalar := S32) x (wrap_yaws (S := S32) (wrap_yaws (S := S32) (fsub (Scalar := S32) l x)))) w /\
      Rabs (w - (b + IZR j * (2 * pi32))) <= u32 * (4 * A + 3 * Y + 16) /\ Rabs w <= A + 4.
  Proof.
    intros X L HA HY BA BY.
    destruct (step_yaw lm 1 1 (mkcfg 1 1 SDC false) 0 0 (le_n 1) (le_n 1) (le_n 1) x l a b A Y X L HA HY BA BY) as (w & j & Fw & Ew & Bw).
    assert (D0 : Rabs (b - a) <= b32 127).
    { apply Rle_trans with (b32 21); [|apply bpow_le; lia]. change (b32 21) with 2097152.
      apply Rabs_le_inv in HA, HY. apply Rabs_le. lra. }
    destruct (wrap_idem lm _ _ (sub_fin _ _ _ _ L X D0)) as (v & V1 & V2).
    destruct (wrap_near lm _ _ (sub_fin _ _ _ _ L X D0)) as (k0 & v' & V3 & Bv & _).
    rewrite (fin_fun _ _ _ V3 V1) in Bv.
    assert (D1 : Rabs (a + v) <= b32 127).
    { apply Rle_trans with (b32 21); [|apply bpow_le; lia]. change (b32 21) with 2097152.
      apply Rabs_le_inv in HA. apply Rabs_le. unfold pi32 in Bv. lra. }
    pose proof (add_fin _ _ _ _ X V1 D1) as S1. pose proof (add_fin _ _ _ _ X V2 D1) as S2.
    exists w, j. split; [|split; assumption]. rewrite (fin_fun _ _ _ Fw S1). exact S2.
  Qed.

  Lemma local_replay (q : delta_params (S := S32)) n T c (s : state (S := S32)) k s' i (lg : nat -> pt (S := S32))
    (lx ly lyaw : nat -> R) mx my m M Y :
    wf_scenario n T s ->
    run_policy (DeltaLocal q) c (infer_expert_action (DeltaLocal q)) s k = Ok s' ->
    (1 <= c_init_steps c)%nat -> (c_init_steps c + k <= T)%nat -> (i < n)%nat ->
    (forall t, (c_init_steps c - 1 <= t < c_init_steps c + k)%nat ->
       at2 (s_log s) i t = Some (lg t) /\ p_valid (lg t) = true) ->
    (forall t, (c_init_steps c - 1 <= t < c_init_steps c + k)%nat ->
       fin (p_x (lg t)) (lx t) /\ fin (p_y (lg t)) (ly t) /\ fin (p_yaw (lg t)) (lyaw t) /\
       Rabs (lx t) <= M /\ Rabs (ly t) <= M /\ Rabs (lyaw t) <= Y) ->
    fin (dl_mx q) mx -> fin (dl_my q) my -> m <= mx -> m <= my -> / 2 ^ 40 <= m <= 2 ^ 60 -> M <= 2 ^ 60 ->
    Y + 4 * INR k <= 1000000 ->
    (forall t, (c_init_steps c <= t < c_init_steps c + k)%nat ->
       len (lx t - lx (t - 1)%nat) (ly t - ly (t - 1)%nat) + 2 * u32 * (M + 72 * m) <= m) ->
    forall t, (c_init_steps c - 1 <= t < c_init_steps c + k)%nat ->
      exists (p : pt (S := S32)) x y w (j : Z), at2 (s_sim s') i t = Some p /\ p_valid p = true /\
        fin (p_x p) x /\ fin (p_y p) y /\ fin (p_yaw p) w /\
        Rabs (x - lx t) <= u32 * (M + 40 * m) /\ Rabs (y - ly t) <= u32 * (M + 40 * m) /\
        Rabs (w - (lyaw t + IZR j * (2 * pi32))) <= u32 * (7 * (Y + 4 * INR (t + 1 - c_init_steps c)) + 16).
  Proof.
    intros W H HI HL Hi Lg L Fx Fy Hx Hy Hm BM BY HD t Ht.
    assert (U : u32 = / 16777216) by reflexivity.
    assert (M0 : 0 < m) by (simpl in Hm; lra).
    assert (MY : 0 <= M /\ 0 <= Y).
    { destruct (L t Ht) as (_ & _ & _ & A & _ & B). pose proof (Rabs_pos (lx t)). pose proof (Rabs_pos (lyaw t)). lra. }
    destruct (local_replay_ind q n T c s k s' i lg (fun t a b h => exists x y w (j : Z), fin a x /\ fin b y /\ fin h w /\
        Rabs w <= Y + 4 * INR (t + 1 - c_init_steps c) /\
        Rabs (x - lx t) <= u32 * (M + 40 * m) /\ Rabs (y - ly t) <= u32 * (M + 40 * m) /\
        Rabs (w - (lyaw t + IZR j * (2 * pi32))) <= u32 * (7 * (Y + 4 * INR (t + 1 - c_init_steps c)) + 16))
      W H HI HL Hi Lg) with (t := t)
      as (p & Ep & Vp & x & y & w & j & F1 & F2 & F3 & _ & E1 & E2 & E3); [| | exact Ht |].
    3:{ exists p, x, y, w, j. repeat (split; [assumption|]). exact E3. }
    - intros t' Ht'. destruct (L t' Ht') as (A1 & A2 & A3 & B1 & B2 & B3). exists (lx t'), (ly t'), (lyaw t'), 0%Z.
      pose proof (pos_INR (t' + 1 - c_init_steps c)).
      split; [exact A1|]. split; [exact A2|]. split; [exact A3|]. split; [lra|].
      replace (lyaw t' - (lyaw t' + 0 * (2 * pi32))) with 0 by ring. rewrite !Rminus_eq_0, Rabs_R0.
      repeat split; apply Rmult_le_pos; lra.
    - intros t' p p' Ht' (x & y & w & j & F1 & F2 & F3 & B & E1 & E2 & _) (Dx & Dy & Dw).
      destruct (L t') as (A1 & A2 & A3 & B1 & B2 & B3); [lia|].
      set (d := (t' - c_init_steps c)%nat).
      replace (t' - 1 + 1 - c_init_steps c)%nat with d in B by (unfold d; lia).
      replace (t' + 1 - c_init_steps c)%nat with (Datatypes.S d) by (unfold d; lia).
      rewrite S_INR. pose proof (pos_INR d).
      assert (INR d <= INR k) by (apply le_INR; unfold d; lia).
      destruct (twice_wrapped (p_yaw p) (p_yaw (lg t')) w (lyaw t') (Y + 4 * INR d) Y F3 A3 B B3)
        as (w' & j' & Fw & Ew & Bw); [lra|lra|].
      destruct (local_step32 q p (lg t') x y w (lx t') (ly t') mx my m M F1 F2 F3 A1 A2 Fx Fy Hx Hy Hm B1 B2 BM)
        as (x' & y' & X1 & Y1 & X2 & Y2).
      { specialize (HD t' Ht').
        pose proof (len_add (lx t' - lx (t' - 1)%nat) (ly t' - ly (t' - 1)%nat) (lx (t' - 1)%nat - x) (ly (t' - 1)%nat - y)) as LA.
        replace (lx t' - lx (t' - 1)%nat + (lx (t' - 1)%nat - x)) with (lx t' - x) in LA by ring.
        replace (ly t' - ly (t' - 1)%nat + (ly (t' - 1)%nat - y)) with (ly t' - y) in LA by ring.
        assert (Q : len (lx (t' - 1)%nat - x) (ly (t' - 1)%nat - y) <= 3 / 2 * (u32 * (M + 40 * m))).
        { apply len_le; rewrite Rabs_minus_sym; assumption. }
        replace (m / 2 ^ 18) with (m / 262144) by (simpl; lra). rewrite U in *. lra. }
      exists x', y', w', j'. rewrite Dx, Dy, Dw.
      split; [exact X1|]. split; [exact Y1|]. split; [exact Fw|]. split; [lra|].
      split; [exact X2|]. split; [exact Y2|].
      eapply Rle_trans; [exact Ew|]. apply Rmult_le_compat_l; lra.
  Qed.

  (** Episodes under DeltaLocal with bounded actions. *)
  Lemma local_episode32 (q : delta_params (S := S32)) d n T c pol (s : state (S := S32)) k s' i X V M P :
    fin (dl_dt q) d -> / 2 ^ 60 <= d ->
    wf_scenario n T s -> run_policy (DeltaLocal q) c pol s k = Ok s' ->
    (1 <= c_init_steps c)%nat -> (c_init_steps c + k <= T)%nat -> (i < n)%nat ->
    (forall s1 a, pol s1 = Ok a -> Forall (delta32 M) a) ->
    (forall t l, at2 (s_log s) i t = Some l -> (t < c_init_steps c + k)%nat -> within32 X V l) ->
    1 <= P <= 2 ^ 60 -> 0 <= M -> 1 <= V <= 2 ^ 60 -> 4 * M <= V * d ->
    X + INR k * (3 / 2 * M + P / 2 ^ 20) <= P ->
    forall t, (t < c_init_steps c + k)%nat ->
      exists p, at2 (s_sim s') i t = Some p /\ within32 (X + INR (t + 1 - c_init_steps c) * (3 / 2 * M + P / 2 ^ 20)) V p.
  Proof.
    intros Fd Hd W H HI HL Hi HP HB HPP HM HV HMV HX.
    set (g := 3 / 2 * M + P / 2 ^ 20) in *.
    assert (P20 : 0 <= P / 2 ^ 20) by (apply Rle_mult_inv_pos; [lra | apply pow_lt; lra]).
    assert (G : 0 <= g) by (unfold g; lra).
    assert (U : u32 = / 16777216) by reflexivity. pose proof tiny_small as TS.
    assert (T1 : tiny <= / 2 ^ 30) by (simpl in *; lra).
    assert (D1 : 0 < d) by (simpl in Hd; lra).
    assert (K60 : forall r, Rabs r <= 2 ^ 60 -> Rabs r <= b32 127).
    { intros r Hr. apply cap127. eapply Rle_trans; [exact Hr|]. apply Rle_pow; [lra | lia]. }
    assert (P70 : 2 ^ 60 * 1024 = 2 ^ 70 /\ 0 < 2 ^ 60) by (simpl; lra).
    assert (Row : forall (f h xf yf : f32) A B x y, M <= P -> fin f A -> fin h B -> Rabs A <= 1 -> Rabs B <= 1 ->
      Rabs (A * A + B * B - 1) <= / 2 ^ 20 -> fin xf x -> fin yf y -> Rabs x <= M -> Rabs y <= M ->
      exists v, fin (Bplus mode_NE (Bmult mode_NE f xf) (Bmult mode_NE h yf)) v /\ Rabs v <= 3 / 2 * M + 4 * tiny).
    { intros f h xf yf A B x y MP FA FB HA HB2 HU FX FY BX BY.
      pose proof (ap_mul _ _ _ _ _ _ _ _ (ap_exact _ _ 1 FA HA) (ap_exact _ _ M FX BX)) as M1.
      pose proof (ap_mul _ _ _ _ _ _ _ _ (ap_exact _ _ 1 FB HB2) (ap_exact _ _ M FY BY)) as M2.
      assert (K : (1 + 0) * (M + 0) <= 2 ^ 70) by lra. specialize (M1 K). specialize (M2 K).
      apply (ap_weaken _ _ _ _ (u32 * M + tiny) M) in M1; [|lra|lra].
      apply (ap_weaken _ _ _ _ (u32 * M + tiny) M) in M2; [|lra|lra].
      destruct (ap_add _ _ _ _ _ _ _ _ M1 M2) as (v & Fv & Ev & _).
      { rewrite U. simpl in T1. lra. }
      exists v. split; [exact Fv|].
      pose proof (almost_unit A B x y HU) as AU.
      assert (LL : len x y <= 1415 / 1000 * M).
      { unfold len. rewrite <- (sqrt_square (1415 / 1000 * M)) by lra. apply sqrt_le_1_alt.
        assert (x * x <= M * M) by (rewrite <- (Rabs_pos_eq (x * x)) by apply Rle_0_sqr; rewrite Rabs_mult; apply Rmult_le_compat; auto using Rabs_pos).
        assert (y * y <= M * M) by (rewrite <- (Rabs_pos_eq (y * y)) by apply Rle_0_sqr; rewrite Rabs_mult; apply Rmult_le_compat; auto using Rabs_pos).
        assert (0 <= M * M) by (apply Rmult_le_pos; lra). lra. }
      replace (/ 2 ^ 20) with (/ 1048576) in AU by (simpl; lra).
      replace v with ((A * x + B * y) + (v - (A * x + B * y))) by ring.
      pose proof (abs_add _ _ _ _ AU Ev) as Z. eapply Rle_trans; [exact Z|]. rewrite U. lra. }
    assert (Sum : forall (a b : f32) ra rb Y, fin a ra -> fin b rb -> Rabs ra <= Y -> Rabs rb <= 3 / 2 * M + 4 * tiny ->
              Y + g <= P -> exists r, fin (fadd (Scalar := S32) a b) r /\ Rabs r <= Y + g).
    { intros a b ra rb Y Fa Fb Ba Bb HY. pose proof (abs_add _ _ _ _ Ba Bb) as S.
      assert (PP : P / 2 ^ 20 = P / 1048576) by (simpl; lra).
      assert (S' : Rabs (ra + rb) <= P). { unfold g in HY. rewrite PP in HY. simpl in T1. lra. }
      exists (rnd (ra + rb)). split; [apply add_fin; auto; apply K60; lra|].
      pose proof (rnd_cap _ _ S') as R.
      replace (rnd (ra + rb)) with ((ra + rb) + (rnd (ra + rb) - (ra + rb))) by ring.
      pose proof (abs_add _ _ _ _ S R) as Z. unfold g. rewrite PP.
      rewrite U in Z. simpl in T1. lra. }
    assert (Quo : forall (a : f32) ra, fin a ra -> Rabs ra <= 3 / 2 * M + 4 * tiny ->
              exists r, fin (fdiv (Scalar := S32) a (dl_dt q)) r /\ Rabs r <= V / 2).
    { intros a ra Fa Ba. assert (B : Rabs (ra / d) <= 4 / 10 * V).
      { unfold Rdiv. rewrite Rabs_mult, (Rabs_pos_eq (/ d)) by (left; now apply Rinv_0_lt_compat).
        apply Rmult_le_reg_r with d; [exact D1|]. rewrite Rmult_assoc, Rinv_l, Rmult_1_r by lra.
        assert (4 * tiny <= d / 100) by (simpl in Hd, TS; lra).
        assert (1 * d <= V * d) by (apply Rmult_le_compat_r; lra). lra. }
      exists (rnd (ra / d)). split; [apply div_fin; auto; [lra | apply K60; lra]|].
      pose proof (rnd_cap _ _ B) as R. replace (rnd (ra / d)) with (ra / d + (rnd (ra / d) - ra / d)) by ring.
      pose proof (abs_add _ _ _ _ B R) as Z. rewrite U in Z. simpl in T1. lra. }
    apply (policy_induct (delta_local_update q) (delta_local_inverse q) n T c pol s k s' (delta32 M) i
             (fun j p => within32 (X + INR j * g) V p) W H HI HL Hi HP).
    - intros j t l El Ht Hj. pose proof (pos_INR j). assert (0 <= INR j * g) by (apply Rmult_le_pos; lra).
      destruct (HB _ _ El Ht) as (x & y & w & vx & vy & F1 & F2 & F3 & F4 & F5 & B1 & B2 & B3 & B4).
      exists x, y, w, vx, vy. repeat (split; [assumption || lra|]). exact B4.
    - intros j p l a u b inj Hj (x & y & w & vx & vy & F1 & F2 & F3 & F4 & F5 & B1 & B2 & B3 & B4) Bl
        (dx & dy & dw & rx & ry & rw & Ed & Fx & Fy & Fw & Bx & By & Bw) Eu.
      destruct b; [|destruct Bl as (xl & yl & wl & vxl & vyl & L); exists xl, yl, wl, vxl, vyl; exact L].
      unfold delta_local_update, delta_global_update in Eu. rewrite Ed in Eu. cbn [a_data a_valid] in Eu.
      pose (ex := fst (rotate_point (S := S32) (rotation_matrix_2d (p_yaw p)) (dx, dy)) : f32).
      pose (ey := snd (rotate_point (S := S32) (rotation_matrix_2d (p_yaw p)) (dx, dy)) : f32).
      apply Ok_inj in Eu. rewrite <- Eu. clear Eu.
      rewrite plus_INR. change (INR 1) with 1.
      assert (Jk : INR j + 1 <= INR k).
      { change 1 with (INR 1). rewrite <- plus_INR. apply le_INR. lia. }
      assert (Jx : (INR j + 1) * g <= INR k * g) by (apply Rmult_le_compat_r; lra).
      assert (Room : X + INR j * g + g <= P) by lra.
      pose proof (Rabs_pos x). assert (MP : M <= P) by (unfold g in *; lra).
      destruct (TR (p_yaw p) (proj1 F3)) as (C & N & FC & FN & BC & BN & U1).
      assert (U1' : Rabs (C * C + - N * - N - 1) <= / 2 ^ 20) by (replace (C * C + - N * - N) with (C * C + N * N) by ring; exact U1).
      assert (U2 : Rabs (N * N + C * C - 1) <= / 2 ^ 20) by (replace (N * N + C * C) with (C * C + N * N) by ring; exact U1).
      assert (BN' : Rabs (- N) <= 1) by (rewrite Rabs_Ropp; exact BN).
      destruct (Row _ _ _ _ _ _ _ _ MP FC (opp_fin _ _ FN) BC BN' U1' Fx Fy Bx By) as (ax & Fax & Bax).
      destruct (Row _ _ _ _ _ _ _ _ MP FN FC BN BC U2 Fx Fy Bx By) as (ay & Fay & Bay).
      assert (Bw' : Rabs rw <= 3 / 2 * M + 4 * tiny) by lra.
      destruct (Sum _ ex _ _ _ F1 Fax B1 Bax Room) as (x' & G1 & C1).
      destruct (Sum _ ey _ _ _ F2 Fay B2 Bay Room) as (y' & G2 & C2).
      destruct (Sum _ _ _ _ _ F3 Fw B3 Bw' Room) as (w' & G3 & C3).
      destruct (Quo ex _ Fax Bax) as (vx' & G4 & C4). destruct (Quo ey _ Fay Bay) as (vy' & G5 & C5).
      exists x', y', w', vx', vy'. cbn [next_pt p_x p_y p_yaw p_vx p_vy u_x u_y u_yaw u_vx u_vy].
      split; [exact G1|]. split; [exact G2|]. split; [exact G3|]. split; [exact G4|]. split; [exact G5|].
      split; [lra|]. split; [lra|]. split; [lra|].
      pose proof (len_triangle 0 0 vx' vy') as Tr. rewrite !Rminus_0_r in Tr.
      assert (Z0 : len 0 0 = 0) by (unfold len; replace (0 * 0 + 0 * 0) with 0 by ring; apply sqrt_0).
      rewrite Z0 in Tr. apply Rabs_le_inv in Tr. fold (len vx' vy'). lra.
  Qed.
End Local.
