(** Episodes of the IDM agent in float32. *)
From Coq Require Import List ZArith Reals Lra Lia Bool.
From Flocq Require Import Core.Raux IEEE754.BinarySingleNaN.
From Verif.Lib Require Import Base JaxIndex Scalar F32.
From Verif.Model Require Import Operations State Dynamics BaseEnv Dyn_State Geometry Discretizer Comfort Metrics Actor Waypoint PlanningEnv.
From Verif.Spec Require Import StateSpec GeomSpec DynSpec AgentSpec PlanSpec ClosedSpec F32Spec F32EpisodeSpec F32DriveSpec.
From Verif.Proofs Require Import Core P_Metrics P_Plan P_Waypoint P_Drive P_Closed P_F32 P_F32Wrap P_F32Delta P_F32Bicycle P_F32Kim P_F32Special P_F32Overlap P_F32Idm P_F32Route.
Import ListNotations.
Open Scope R_scope.

Lemma idm_update_any {S : Scalar} n T (p : idm_params (S := S)) s : wf_state (S := S) n T s ->
  (lookahead_from_current_position p = true \/ (max_lookahead p <= T)%nat) ->
  exists sv, idm_update_speed p s = Ok sv /\ length sv = n.
Proof.
  intros (R1 & R2 & _ & Hn & HT) HL.
  destruct (dynamic_index_total n T (s_sim s) (s_t s) R1 HT) as [cur Hc].
  destruct (dynamic_index_Ok _ _ _ _ _ R1 Hc) as [Lc _].
  assert (Ll : length (s_log s) = n) by apply R2.
  unfold idm_update_speed, current_sim. rewrite Hc. cbn [bind].
  unfold guard. rewrite Lc, Ll, Nat.eqb_refl. cbn [bind].
  destruct (mapM_total (fun q => lookahead_traj (S := S) p (fst q) (snd q)) (combine (s_log s) cur)) as [trs Ht].
  - intros [log me] Hin. cbn [fst snd]. unfold lookahead_traj.
    assert (K : exists tr, (if lookahead_from_current_position p then reference_traj (S := S) me [me] 1
                 else reference_traj (S := S) me log (max_lookahead p)) = Ok tr).
    { destruct (lookahead_from_current_position p) eqn:E.
      - apply dyn_slice_total. auto.
      - apply dyn_slice_total. destruct HL as [|HL]; [discriminate|].
        destruct R2 as [_ R2]. rewrite (R2 log); auto. eapply in_combine_l; eauto. }
    destruct K as [tr ->]. cbn [bind]. eauto.
  - rewrite Ht. cbn [bind]. eexists. split; [reflexivity|].
    rewrite mapi_length, combine_length, (mapM_length _ _ _ Ht), combine_length. lia.
Qed.

Lemma idm_runs_any {S : Scalar} {P X K} n T c none ctrl (p : idm_params (S := S)) (pp : P) (x : X) (key : option K) s k :
  wf_scenario n T s -> c_max_num_objects c = n -> c_controlled c <> NON_SDC ->
  (1 <= c_init_steps c)%nat -> (c_init_steps c + k <= T)%nat ->
  (lookahead_from_current_position p = true \/ (max_lookahead p <= T)%nat) ->
  exists s', run_policy (S := S) StateDynamics c (actor_policy (idm_actor none ctrl p) pp x key) s k = Ok s'.
Proof.
  intros W HM HC HI HL HP. apply (sim_runs n T); auto. intros s1 W1.
  destruct (idm_update_any n T p s1 W1 HP) as (sv & Hs & Ls). eapply waypoint_total; eauto.
Qed.

Section Episode.
  Variable lm : libm.
  Hypothesis AC : accurate32 lm.
  Hypothesis PW : pow32 lm.
  Notation S32 := (F32 lm).
  Variables (n T : nat) (p : idm_params (S := S32)) (slog sim : traj (S := S32)) (a0 k i : nat)
    (log : list (pt (S := S32))) (p0 : pt (S := S32)) (v0 s0 th a b delta X P C vx0 vy0 : R).
  Hypothesis St : steered (idm_policy p) n T slog sim a0 k i.
  Hypothesis Hi : (i < n)%nat.
  Hypothesis Hlog : nth_error slog i = Some log.
  Hypothesis HR : route32 X log.
  Hypothesis H0 : nth_error log a0 = Some p0.
  Hypothesis H1 : at2 sim i a0 = Some p0.
  Hypothesis V0 : p_valid p0 = true.
  Hypothesis F0 : fin (p_vx p0) vx0 /\ fin (p_vy p0) vy0.
  Hypothesis Hinv : idm_invalidate_on_end p = false.
  Hypothesis HP : idm32 p v0 s0 th a b delta.
  Hypothesis HPb : X + INR k * (C / 10 + P / 2 ^ 15) <= P <= 2 ^ 45.
  Hypothesis HC1 : 1 <= C <= P.
  Hypothesis HCb : Rmax (len vx0 vy0) (v0 + a / 10) + INR k * (C / 2 ^ 18) <= C.

  Let P1 : 1 <= P <= 2 ^ 45. Proof. lra. Qed.
  Let per : 0 <= C / 10 + P / 2 ^ 15. Proof. lra. Qed.

  Lemma route_wide : route32 P log.
  Proof.
    intros kk w Hk Hv. destruct (HR kk w Hk Hv) as (x & y & h & Fx & Fy & Fh & Bx & By & Bh).
    pose proof (pos_INR k) as K0. pose proof (Rmult_le_pos _ _ K0 per).
    exists x, y, h. repeat (split; [assumption|]). lra.
  Qed.

  (** What holds of the object in frame [a0 + j]. *)
  Definition on_way (j : nat) (q : pt (S := S32)) (x y h vx vy : R) : Prop :=
    at2 sim i (a0 + j) = Some q /\ p_valid q = true /\
    fin (p_x q) x /\ fin (p_y q) y /\ fin (p_yaw q) h /\ fin (p_vx q) vx /\ fin (p_vy q) vy /\
    Rabs x <= X + INR j * (C / 10 + P / 2 ^ 15) /\ Rabs y <= X + INR j * (C / 10 + P / 2 ^ 15) /\ Rabs h <= 4 /\
    on_route32 log (P / 2 ^ 17) (INR j * (C / 10 + P / 2 ^ 15)) q /\
    len vx vy <= Rmax (len vx0 vy0) (v0 + a / 10) + INR j * (C / 2 ^ 18).

  Lemma idm_step32 j q x y h vx vy : (j < k)%nat -> on_way j q x y h vx vy ->
    exists q' x' y' h' vx' vy' r, on_way (Datatypes.S j) q' x' y' h' vx' vy' /\
      moves32 (C / 2 ^ 20) (P / 2 ^ 16) a x y h vx vy x' y' h' vx' vy' r.
  Proof.
    intros Hj (Eq & V & Fx & Fy & Fh & Fvx & Fvy & Bx & By & Bh & On & Bs).
    set (M0 := Rmax (len vx0 vy0) (v0 + a / 10)) in *.
    assert (M1 : v0 + a / 10 <= M0) by apply Rmax_r.
    assert (Jk : INR (Datatypes.S j) <= INR k) by (apply le_INR; lia). unfold on_way. fold M0. rewrite S_INR in *. pose proof (pos_INR j) as J0.
    assert (G1 : (INR j + 1) * (C / 2 ^ 18) <= INR k * (C / 2 ^ 18)) by (apply Rmult_le_compat_r; lra).
    assert (G2 : (INR j + 1) * (C / 10 + P / 2 ^ 15) <= INR k * (C / 10 + P / 2 ^ 15)) by (apply Rmult_le_compat_r; lra).
    assert (G0 : 0 <= INR j * (C / 2 ^ 18)) by (apply Rmult_le_pos; lra).
    assert (U : u32 = / 16777216) by reflexivity.
    pose proof HP as (_ & _ & _ & _ & _ & _ & Bv0 & _ & _ & Ba & _).
    (* the speed *)
    destruct (vel_norm_fin lm _ _ vx vy C Fvx Fvy ltac:(lra) ltac:(lra)) as (v & Fv & Pv & Ev).
    rewrite U in Ev. apply Rabs_le_inv in Ev. pose proof (len_pos vx vy) as LP.
    assert (Fs : fin (obj_speed q) v) by (unfold obj_speed; rewrite V; exact Fv).
    destruct (St j ltac:(lia)) as (s1 & ups & cur & q2 & u & q' & W1 & El & Hu & Hcur & Lc & Hall & Eq2 & Eu & Eq' & _ & _ & _ & U1 & U2 & U3 & U4 & U5 & U6).
    assert (q2 = q) by (rewrite (Hall i Hi) in Eq2; congruence). subst q2.
    unfold idm_policy in Hu. rewrite Hinv in Hu. pose proof Hu as Hu'. unfold waypoint_update in Hu'.
    apply bind_Ok in Hu' as (sv & Hsv & _).
    assert (Hl1 : nth_error (s_log s1) i = Some log) by (rewrite El; exact Hlog).
    destruct (idm_entry_any p s1 cur sv i log q Hcur Hsv Hl1 Eq2) as (lu & ld & Lu & Ld & Esv).
    assert (FLu : is_finite lu = true) by (destruct Lu as [->|E]; [apply fm1_finite | exact E]).
    assert (FLd : is_finite ld = true) by (destruct Ld as [->|E]; [apply fm1_finite | exact E]).
    destruct (next_speed32 lm PW p v0 s0 th a b delta HP (obj_speed q) lu ld v Fs ltac:(lra) FLu FLd) as (r & Frr & R0 & Hr & Hcap).
    assert (Rb : r <= M0 + INR j * (C / 2 ^ 18) + 50 * C / 16777216).
    { destruct (Rle_lt_dec v0 v) as [L|L]; [specialize (Hcap L); lra | lra]. }
    destruct (waypoint_nth _ _ _ _ _ _ Hu Hsv Hcur i log q _ _ Hl1 Eq2 Esv) as (f & Hf & Ef).
    destruct On as (kk & w & wx & wy & hw & x' & y' & t & Hk & Vw & Fwx & Fwy & _ & Fx' & Fy' & _ & _ & Dw).
    rewrite (fin_fun _ _ _ Fx' Fx), (fin_fun _ _ _ Fy' Fy) in Dw.
    destruct (next32 lm AC P P1 C HC1 log q _ x y h vx vy v r kk w wx wy route_wide V Fx Fy Fh Fvx Fvy Fs Frr
      ltac:(lra) ltac:(lra) Bh ltac:(lra) ltac:(lra) Hk Vw Fwx Fwy)
      as (f2 & k2 & w2 & c2 & d2 & h2 & x2 & y2 & t2 & ux & uy & Hf2 & Hk2 & Vw2 & Fc2 & Fd2 & Fh2 & Bh2 & Bc2 & Bd2 & Ey2 & Fx2 & Fy2 & L1 & Et2 & L2 & Fux & Fuy & LV).
    rewrite Hf2 in Hf. apply Ok_inj in Hf. subst f2.
    assert (Eu' : u = mkupd (p_x f) (p_y f) (p_yaw f) (p_vx f) (p_vy f) (p_valid f)) by congruence. subst u.
    cbn [u_x u_y u_yaw u_vx u_vy] in U1, U2, U3, U4, U5.
    exists q', x2, y2, h2, ux, uy, r. rewrite U1, U2, U3, U4, U5.
    assert (D2 : dist (x2, y2) (c2, d2) <= (INR j + 1) * (C / 10 + P / 2 ^ 15)) by lra.
    destruct (HR _ _ Hk2 Vw2) as (c3 & d3 & h3 & Fc3 & Fd3 & _ & Bc3 & Bd3 & _).
    rewrite (fin_fun _ _ _ Fc3 Fc2) in Bc3. rewrite (fin_fun _ _ _ Fd3 Fd2) in Bd3.
    assert (DX : forall m z1 z2, Rabs (z1 - z2) <= m -> Rabs z2 <= X -> Rabs z1 <= X + m).
    { intros m z1 z2 A B. replace z1 with (z2 + (z1 - z2)) by ring. now apply abs_add. }
    pose proof (len_fst (x2 - c2) (y2 - d2)) as LC1. pose proof (len_snd (x2 - c2) (y2 - d2)) as LC2. rewrite dist_len in D2.
    split; [split; [exact Eq'|]; split; [exact (U6 V)|]; split; [exact Fx2|]; split; [exact Fy2|]; split; [rewrite Ey2; exact Fh2|];
      split; [exact Fux|]; split; [exact Fuy|];
      split; [apply (DX _ x2 c2); [lra | exact Bc3]|]; split; [apply (DX _ y2 d2); [lra | exact Bd3]|]; split; [exact Bh2|]; split|].
    - exists k2, w2, c2, d2, h2, x2, y2, t2. rewrite U1, U2, U3. rewrite !dist_len in *.
      repeat (split; [assumption|]). lra.
    - destruct LV as [[-> ->]|LV]; [lra|].
      pose proof (len_add (r * cos h) (r * sin h) (ux - r * cos h) (uy - r * sin h)) as L3. rewrite len_polar, (Rabs_pos_eq r) in L3 by lra.
      replace (r * cos h + (ux - r * cos h)) with ux in L3 by ring. replace (r * sin h + (uy - r * sin h)) with uy in L3 by ring. lra.
    - split; [exact R0|]. split; [unfold len in *; lra|]. split.
      + pose proof (along_le h2 (x2 - (c2 + t2 * cos h2)) (y2 - (d2 + t2 * sin h2))) as A. rewrite dist_len in L1.
        set (m := (len vx vy + r) / 20). set (m' := (r + v) / 20) in *.
        assert (Dm : Rabs (m' - m) <= C / 2 ^ 24) by (unfold m, m'; apply Rabs_le; lra).
        assert (Hcs : cos h2 * cos h2 + sin h2 * sin h2 = 1) by (pose proof (sin2_cos2 h2) as S2; unfold Rsqr in S2; lra).
        assert (EQ : cos h2 * (x2 - x) + sin h2 * (y2 - y) - m * cos (h2 - h) =
          (cos h2 * (x2 - (c2 + t2 * cos h2)) + sin h2 * (y2 - (d2 + t2 * sin h2))) +
          (t2 - (cos h2 * (x + m' * cos h - c2) + sin h2 * (y + m' * sin h - d2))) + (m' - m) * cos (h2 - h)).
        { rewrite cos_minus.
          replace (t2 - (cos h2 * (x + m' * cos h - c2) + sin h2 * (y + m' * sin h - d2)))
            with (t2 * (cos h2 * cos h2 + sin h2 * sin h2) - (cos h2 * (x + m' * cos h - c2) + sin h2 * (y + m' * sin h - d2))) by (rewrite Hcs; ring).
          ring. }
        change (Rabs (cos h2 * (x2 - x) + sin h2 * (y2 - y) - m * cos (h2 - h)) <= P / 2 ^ 16). rewrite EQ.
        assert (Z : Rabs ((m' - m) * cos (h2 - h)) <= C / 2 ^ 24 * 1).
        { rewrite Rabs_mult. apply Rmult_le_compat; try apply Rabs_pos; [exact Dm|]. apply Rabs_le. apply COS_bound. }
        eapply Rle_trans; [apply Rabs_triang|]. eapply Rle_trans; [apply Rplus_le_compat_r, Rabs_triang|]. lra.
      + destruct LV as [LV|LV]; [left; exact LV | right; unfold len in LV; unfold dist; cbn [fst snd]; lra].
  Qed.

  Lemma idm_episode32 : forall j, (j <= k)%nat -> exists q x y h vx vy, on_way j q x y h vx vy.
  Proof.
    induction j as [|j IH]; intros Hj.
    - destruct (HR _ _ H0 V0) as (x & y & h & Fx & Fy & Fh & Bx & By & Bh). destruct F0 as [Fvx Fvy].
      exists p0, x, y, h, vx0, vy0. unfold on_way. rewrite Nat.add_0_r. cbn [INR]. rewrite !Rmult_0_l, !Rplus_0_r.
      repeat (split; [assumption|]). split; [|apply Rmax_l].
      exists a0, p0, x, y, h, x, y, 0. repeat (split; [first [assumption | reflexivity]|]).
      rewrite !Rmult_0_l, !Rplus_0_r.
      assert (Z : dist (x, y) (x, y) = 0).
      { unfold dist. cbn [fst snd]. rewrite !Rminus_eq_0, Rmult_0_l, Rplus_0_r. apply sqrt_0. }
      rewrite Z. split; [|lra]. lra.
    - destruct IH as (q & x & y & h & vx & vy & On); [lia|].
      destruct (idm_step32 j q x y h vx vy ltac:(lia) On) as (q' & x' & y' & h' & vx' & vy' & r & On' & _).
      exists q', x', y', h', vx', vy'. exact On'.
  Qed.
End Episode.

(** The base environment. *)
Lemma base_steered {S : Scalar} {P X K} n T c none ctrl upd (p : P) (x : X) (key : option K) s s' k i :
  wf_scenario n T s ->
  run_policy (S := S) StateDynamics c (actor_policy (sim_agent none ctrl upd) p x key) s k = Ok s' ->
  (1 <= c_init_steps c)%nat -> (c_init_steps c + k <= T)%nat -> (i < n)%nat -> in_control c s i ->
  steered upd n T (s_log s) (s_sim s') (c_init_steps c - 1) k i.
Proof.
  intros W Run HI HL Hi Hc j Hj.
  destruct (sim_frames n T c none ctrl upd p x key s s' k W Run HI HL j Hj) as (s1 & ups & cur & W1 & El & Hu & Hcur & Lc & Fr).
  destruct (Fr i Hi) as (q & u & nxt & q' & Eq & At & Eu & _ & Eq' & Z1 & Z2 & Z3 & Fc & _).
  destruct (Fc Hc) as (U1 & U2 & U3 & U4 & U5 & U6).
  exists s1, ups, cur, q, u, q'. repeat (split; [assumption|]).
  split. { intros m Hm. destruct (Fr m Hm) as (qm & _ & _ & _ & E1 & E2 & _). congruence. }
  repeat (split; [assumption|]). assumption.
Qed.
