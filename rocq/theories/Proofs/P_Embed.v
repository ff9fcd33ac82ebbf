(** The order of the objects and padding rows do not matter (C69). *)
From Coq Require Import List ZArith Bool Lia.
From Verif.Lib Require Import Base JaxIndex Scalar.
From Verif.Model Require Import Operations State Dynamics BaseEnv Geometry Dyn_State Dyn_Delta Dyn_Bicycle Discretizer
  Comfort Metrics Pose Roadgraph Observation.
From Verif.Spec Require Import StateSpec ObsSpec MetricSpec EmbedSpec.
From Verif.Proofs Require Import Core P_Actions P_Metrics P_Observation P_OwnFrame.
Import ListNotations.
Local Open Scope nat_scope.

Lemma spare_dec n n' f j : j < n' -> (exists i, i < n /\ f i = j) \/ spare n n' f j.
Proof.
  intros Hj. assert (D : forall m, (exists i, i < m /\ f i = j) \/ forall i, i < m -> f i <> j).
  { induction m as [|m IH]; [right; lia|]. destruct IH as [(i & Hi & E)|N]; [left; exists i; split; [lia|auto]|].
    destruct (Nat.eq_dec (f m) j) as [E|E]; [left; exists m; split; [lia|auto]|].
    right. intros i Hi. destruct (Nat.eq_dec i m) as [->|]; [auto|apply N; lia]. }
  destruct (D n) as [H|H]; [auto|right; split; auto].
Qed.

Section Embed.
  Context {S : Scalar}.

  Lemma episode_wf n n' T f s s' : same_episode n n' T f s s' -> wf_state n T s /\ wf_state n' T s'.
  Proof.
    intros (((L & M & Hn & HT) & (L' & M' & Hn' & _) & _) & R & R' & _). repeat split; auto; try apply R; try apply L; try apply R'; apply L'.
  Qed.

  (** Reset. *)
  Lemma embed_reset n n' T f c c' s s' r r' : same_scene n n' T f s s' -> same_config n n' c c' ->
    env_reset c s = Ok r -> env_reset c' s' = Ok r' -> same_episode n n' T f r r'.
  Proof.
    intros SC (_ & _ & CI & _) H H'. pose proof SC as ((L & M & Hn & HT) & (L' & M' & Hn' & _) & (P1 & P2) & TL & SP & TM & SD & E1 & E2 & E3).
    destruct (env_reset_Ok n T c s r L Hn H) as (_ & Hi & R & (Q1 & Q2 & Q3 & Q4 & Q5) & Et & A).
    destruct (env_reset_Ok n' T c' s' r' L' Hn' H') as (_ & Hi' & R' & (Q1' & Q2' & Q3' & Q4' & Q5') & Et' & A').
    rewrite CI in A', Et'. split; [|split; [auto|split; [auto|split; [|split; [|congruence]]]]].
    - unfold same_scene, wf_scenario. rewrite Q1, Q2, Q3, Q4, Q5, Q1', Q2', Q3', Q4', Q5'. exact SC.
    - intros i t Hi0. destruct (Nat.lt_ge_cases t T) as [Ht|Ht].
      + rewrite A', A by auto. destruct (t <? c_init_steps c); auto.
      + destruct (at2 (s_sim r') (f i) t) eqn:E; [apply (at2_Some_lt _ _ _ _ _ _ R') in E; lia|].
        destruct (at2 (s_sim r) i t) eqn:E'; [apply (at2_Some_lt _ _ _ _ _ _ R) in E'; lia|reflexivity].
    - intros j t p Hj E. destruct (at2_Some_lt _ _ _ _ _ _ R' E) as [Hjn HtT]. rewrite A' in E by auto.
      destruct (t <? c_init_steps c); [eapply SP; eauto|]. injection E as <-. reflexivity.
  Qed.

  Lemma embed_index {A} n n' T f (m m' : list (list A)) t c c' : rect n T m -> rect n' T m' -> places n n' f ->
    same_table n f m m' -> 0 < T -> dynamic_index m t = Ok c -> dynamic_index m' t = Ok c' ->
    length c = n /\ length c' = n' /\ same_rows n f c c' /\
    forall j, j < n' -> nth_error c' j = at2 m' j (norm_start t T 1).
  Proof.
    intros R R' (P1 & _) TB HT H H'. destruct (dynamic_index_Ok n T m t c R H) as [L B].
    destruct (dynamic_index_Ok n' T m' t c' R' H') as [L' B']. repeat split; auto.
    intros i Hi. rewrite B', B by auto. apply TB. auto.
  Qed.

  (** The control mask. *)
  Lemma embed_mask n n' T f c c' s s' m m' : same_episode n n' T f s s' -> same_config n n' c c' ->
    env_control_mask s c = Ok m -> env_control_mask s' c' = Ok m' ->
    length m = n /\ length m' = n' /\ same_rows n f m m'.
  Proof.
    intros SE (_ & _ & CI & CC & CA) H H'. destruct (episode_wf _ _ _ _ _ _ SE) as [W W'].
    pose proof (control_mask_length _ _ _ _ _ W H) as Lm. pose proof (control_mask_length _ _ _ _ _ W' H') as Lm'.
    split; [auto|]. split; [auto|]. destruct SE as (((L & M & Hn & HT) & (L' & M' & Hn' & _) & P & TL & SP & TM & SD & _) & R & R' & TS & _).
    unfold env_control_mask in *. rewrite CC, CA, CI in H'.
    assert (MM : forall g : meta -> bool, same_rows n f (map g (s_meta s)) (map g (s_meta s'))).
    { intros g i Hi. rewrite !nth_error_map, TM; auto. }
    assert (MD : c_allow_new_objects c = false ->
      dynamic_index (map (map p_valid) (s_sim s)) (Z.of_nat (c_init_steps c) - 1) = Ok m ->
      dynamic_index (map (map p_valid) (s_sim s')) (Z.of_nat (c_init_steps c) - 1) = Ok m' -> same_rows n f m m').
    { intros _ X X'. eapply (embed_index n n' T f (map (map p_valid) (s_sim s)) (map (map p_valid) (s_sim s'))); eauto.
      - now apply rect_map.
      - now apply rect_map.
      - intros i t Hi. rewrite !at2_map, TS; auto. }
    destruct (c_controlled c), (c_allow_new_objects c); cbn in H, H'; try discriminate; auto;
      injection H as <-; injection H' as <-; apply MM.
  Qed.

  (** One step. *)
  Lemma embed_step n n' T f d c c' s s' a a' r r' : same_episode n n' T f s s' -> same_config n n' c c' ->
    dyn_local d -> same_actions n n' f a a' -> env_step d c s a = Ok r -> env_step d c' s' a' = Ok r' ->
    same_episode n n' T f r r'.
  Proof.
    intros SE SC (upd1 & DL) (La & La' & SA) H H'. destruct (episode_wf _ _ _ _ _ _ SE) as [W W'].
    destruct (env_step_Ok _ _ _ _ _ _ _ W H)
      as (mask & cur & us & nxt & Hm & _ & Lm & Lc & Lu & Ln & Hc & Hx & Hu & R & A & (Q1 & Q2 & Q3 & Q4 & Q5) & Et).
    destruct (env_step_Ok _ _ _ _ _ _ _ W' H')
      as (mask' & cur' & us' & nxt' & Hm' & _ & Lm' & Lc' & Lu' & Ln' & Hc' & Hx' & Hu' & R' & A' & (Q1' & Q2' & Q3' & Q4' & Q5') & Et').
    destruct (embed_mask _ _ _ _ _ _ _ _ _ _ SE SC Hm Hm') as (_ & _ & MR).
    destruct SC as (_ & _ & _ & _ & CA).
    pose proof SE as (SS & R0 & R0' & TS & SPS & ET). pose proof SS as ((L & M & Hn & HT) & (L' & M' & Hn' & _) & (P1 & P2) & TL & SP & TM & SD & E1 & E2 & E3).
    rewrite ET in Hc', Hx', A', Et'.
    assert (CR : forall i, i < n -> nth_error cur' (f i) = nth_error cur i).
    { intros i Hi. rewrite Hc', Hc by auto. apply TS. auto. }
    assert (NR : forall i, i < n -> nth_error nxt' (f i) = nth_error nxt i).
    { intros i Hi. rewrite Hx', Hx by auto. apply TL. auto. }
    assert (UR : forall i, i < n -> nth_error us' (f i) = nth_error us i).
    { intros i Hi. destruct (nth_error a i) as [x|] eqn:Ea; [|apply nth_error_None in Ea; lia].
      destruct (nth_error cur i) as [p|] eqn:Ep; [|apply nth_error_None in Ep; lia].
      destruct (DL _ _ _ Hu i x p Ea Ep) as (u & F & Eu).
      destruct (DL _ _ _ Hu' (f i) x p ltac:(rewrite SA; auto) ltac:(rewrite CR; auto)) as (u' & F' & Eu').
      rewrite Eu, Eu'. congruence. }
    split; [|split; [auto|split; [auto|split; [|split; [|congruence]]]]].
    - unfold same_scene, wf_scenario. rewrite Q1, Q2, Q3, Q4, Q5, Q1', Q2', Q3', Q4', Q5'. exact SS.
    - intros i k Hi. rewrite A', A by auto. destruct (k =? _); [|apply TS; auto].
      rewrite !nth_error_map4, UR, CR, NR, MR, CA by auto. reflexivity.
    - intros j t p Hj E. rewrite A' in E by apply Hj. destruct (t =? _); [|eapply SPS; eauto].
      rewrite nth_error_map4 in E. rewrite Hc', Hx' in E by apply Hj.
      destruct (nth_error us' j) as [u|]; [|discriminate]. destruct (at2 (s_sim s') j _) as [q|] eqn:Eq; [|discriminate].
      destruct (at2 (s_log s') j _) as [l|] eqn:El; [|discriminate]. destruct (nth_error mask' j) as [b|]; [|discriminate].
      injection E as <-. cbn [p_valid next_pt]. rewrite (SPS _ _ _ Hj Eq), (SP _ _ _ Hj El).
      unfold next_valid. destruct b, (c_allow_new_objects c'); reflexivity.
  Qed.

  (** Episodes. *)
  Lemma embed_steps n n' T f d c c' : same_config n n' c c' -> dyn_local d ->
    forall al al' s s' r r', same_episode n n' T f s s' -> Forall2 (same_actions n n' f) al al' ->
    env_steps d c s al = Ok r -> env_steps d c' s' al' = Ok r' -> same_episode n n' T f r r'.
  Proof.
    intros SC DL al al' s s' r r' SE HA. revert s s' SE. induction HA as [|a a' al al' Ha HA IH]; intros s s' SE H H'.
    - cbn in H, H'. congruence.
    - cbn [env_steps] in H, H'. apply bind_Ok in H as (s1 & H1 & H). apply bind_Ok in H' as (s1' & H1' & H').
      eapply IH; [|exact H|exact H']. eapply embed_step; eauto.
  Qed.

  Lemma embed_discrete w : dyn_local (dw_cont w) -> dyn_local (DiscreteActionSpaceWrapper w).
  Proof.
    intros (g & G). exists (fun a p => let* b := decode_action w a in g b p). intros acts cur us H i a p Ea Ep.
    cbn [d_update DiscreteActionSpaceWrapper] in H. unfold dw_update in H. apply bind_Ok in H as (acts' & Hd & H).
    destruct (mapM_nth _ _ _ i a Hd Ea) as (b & Db & Eb). rewrite Db. cbn [bind]. eapply G; eauto.
  Qed.

  (** Metrics. *)
  Lemma embed_current n n' T f s s' cur cur' : same_episode n n' T f s s' -> current_sim s = Ok cur -> current_sim s' = Ok cur' ->
    length cur = n /\ length cur' = n' /\ same_rows n f cur cur' /\
    forall j p, spare n n' f j -> nth_error cur' j = Some p -> p_valid p = false.
  Proof.
    intros SE H H'. destruct (episode_wf _ _ _ _ _ _ SE) as [W W'].
    pose proof SE as (SS & R0 & R0' & TS & SPS & ET). pose proof SS as (_ & _ & P & _). unfold current_sim in *. rewrite ET in H'.
    destruct (embed_index n n' T f (s_sim s) (s_sim s') (s_t s) cur cur' R0 R0' P TS) as (A & B & C & D); auto; [apply W|].
    repeat split; auto. intros j p Hj E. rewrite D in E by apply Hj. eapply SPS; eauto.
  Qed.

  Lemma embed_overlap n n' T f s s' ms ms' : same_episode n n' T f s s' ->
    overlap_compute s = Ok ms -> overlap_compute s' = Ok ms' ->
    same_rows n f ms ms' /\ forall j m, spare n n' f j -> nth_error ms' j = Some m -> mr_valid m = false.
  Proof.
    intros SE H H'. unfold overlap_compute in H, H'. apply bind_Ok in H as (cur & Hc & H). apply bind_Ok in H' as (cur' & Hc' & H').
    injection H as <-. injection H' as <-. destruct (embed_current _ _ _ _ _ _ _ _ SE Hc Hc') as (L & L' & CR & SP).
    destruct SE as ((_ & _ & (P1 & P2) & _) & _). split.
    - intros j Hj. destruct (nth_error cur j) as [p|] eqn:Ep; [|apply nth_error_None in Ep; lia].
      destruct (compute_overlap_spec cur j p Ep) as (b & -> & B).
      destruct (compute_overlap_spec cur' (f j) p ltac:(rewrite CR; auto)) as (b' & -> & B').
      assert (b' = true <-> b = true) as E.
      { rewrite B, B'. split.
        - intros (i & q & Hne & Eq & Vq & Ho). assert (Hi : i < n') by (rewrite <- L'; eapply nth_error_Some_lt; eauto).
          destruct (spare_dec n n' f i Hi) as [(i0 & Hi0 & <-)|Hs]; [|rewrite (SP _ _ Hs Eq) in Vq; discriminate].
          rewrite CR in Eq by auto. exists i0, q. split; [congruence|auto].
        - intros (i & q & Hne & Eq & Vq & Ho). assert (Hi : i < n) by (rewrite <- L; eapply nth_error_Some_lt; eauto).
          exists (f i), q. split; [intros E; apply Hne; auto|]. rewrite CR; auto. }
      destruct b, b'; intuition congruence.
    - intros j m Hj E. assert (exists p, nth_error cur' j = Some p) as (p & Ep).
      { destruct (nth_error cur' j) eqn:X; [eauto|]. apply nth_error_None in X. destruct Hj. lia. }
      destruct (compute_overlap_spec cur' j p Ep) as (b & Eb & _). rewrite E in Eb. injection Eb as ->. cbn. eauto.
  Qed.

  Lemma embed_log_divergence n n' T f s s' ms ms' : same_episode n n' T f s s' ->
    log_divergence_compute s = Ok ms -> log_divergence_compute s' = Ok ms' ->
    same_rows n f ms ms' /\ forall j m, spare n n' f j -> nth_error ms' j = Some m -> mr_valid m = false.
  Proof.
    intros SE H H'. unfold log_divergence_compute in H, H'. apply bind_Ok in H as (cur & Hc & H). apply bind_Ok in H' as (cur' & Hc' & H').
    apply bind_Ok in H as (log & Hl & H). apply bind_Ok in H' as (log' & Hl' & H').
    injection H as <-. injection H' as <-. destruct (embed_current _ _ _ _ _ _ _ _ SE Hc Hc') as (L & L' & CR & SP).
    destruct (episode_wf _ _ _ _ _ _ SE) as [(_ & RL & _ & _ & HT) (_ & RL' & _)]. pose proof SE as ((_ & _ & P & TL & SPL & _) & _ & _ & _ & _ & ET). rewrite ET in Hl'.
    destruct (embed_index n n' T f _ _ _ _ _ RL RL' P TL HT Hl Hl') as (LL & LL' & LR & _). split.
    - intros i Hi. rewrite !nth_error_map2, CR, LR by auto. reflexivity.
    - intros j m Hj E. rewrite nth_error_map2 in E. destruct (nth_error cur' j) as [p|] eqn:Ep; [|discriminate].
      destruct (nth_error log' j); [|discriminate]. injection E as <-. cbn. now rewrite (SP _ _ Hj Ep).
  Qed.

  (** Two consecutive frames. *)
  Lemma embed_two_frames n n' T f (m m' : traj) t ps ps' : rect n T m -> rect n' T m' -> places n n' f -> same_table n f m m' ->
    two_frames m t = Ok ps -> two_frames m' t = Ok ps' ->
    length ps = n /\ length ps' = n' /\ same_rows n f ps ps' /\
    (spares_absent n n' f m' -> forall j p q, spare n n' f j -> nth_error ps' j = Some (p, q) -> p_valid p = false).
  Proof.
    intros R R' (P1 & P2) TB H H'. unfold two_frames in *. apply bind_Ok in H as (sl & Hs & H). apply bind_Ok in H' as (sl' & Hs' & H').
    destruct (dynamic_slice_Ok _ _ _ _ _ _ R Hs) as [Q F]. destruct (dynamic_slice_Ok _ _ _ _ _ _ R' Hs') as [Q' F'].
    assert (LEN : forall l (r : list (pt * pt)), mapM (fun r0 : list pt => match r0 with p0 :: p1 :: _ => Ok (p0, p1) | _ => Err TypeError end) l = Ok r ->
       length r = length l) by (intros; eapply mapM_length; eauto).
    pose proof (LEN _ _ H) as L1. pose proof (LEN _ _ H') as L1'. destruct Q as [Q1 Q2], Q' as [Q1' Q2'].
    assert (GET : forall l r i, mapM (fun r0 : list pt => match r0 with p0 :: p1 :: _ => Ok (p0, p1) | _ => Err TypeError end) l = Ok r ->
       i < length l -> exists p q, nth_error r i = Some (p, q) /\ at2 l i 0 = Some p /\ at2 l i 1 = Some q).
    { intros l r i X Hi. destruct (nth_error l i) as [row|] eqn:E; [|apply nth_error_None in E; lia].
      destruct (mapM_nth _ _ _ i row X E) as ((p & q) & E2 & E1). unfold at2. rewrite E.
      destruct row as [|p0 [|p1 row]]; try discriminate. injection E2 as <- <-. eauto. }
    split; [lia|]. split; [lia|]. split.
    - intros i Hi. destruct (GET _ _ i H ltac:(lia)) as (p & q & -> & B & C).
      destruct (GET _ _ (f i) H' ltac:(rewrite Q1'; auto)) as (p' & q' & -> & B' & C').
      rewrite F' in B', C' by auto. rewrite F in B, C by auto. rewrite TB in B', C' by auto. congruence.
    - intros SP j p q Hj E. destruct (GET _ _ j H' ltac:(rewrite Q1'; apply Hj)) as (p' & q' & E' & B' & C').
      rewrite E in E'. injection E' as <- <-. rewrite F' in B' by (auto; apply Hj). eapply SP; eauto.
  Qed.

  Lemma embed_kim n n' T f k s s' ms ms' : same_episode n n' T f s s' ->
    kim_compute k s = Ok ms -> kim_compute k s' = Ok ms' ->
    same_rows n f ms ms' /\ forall j m, spare n n' f j -> nth_error ms' j = Some m -> mr_valid m = false.
  Proof.
    intros (SS & R0 & R0' & TS & SPS & ET) H H'. unfold kim_compute, compute_kinematics_infeasibility, compute_inverse in H, H'. rewrite ET in H'.
    apply bind_Ok in H as (acts & Ha & H). apply bind_Ok in H' as (acts' & Ha' & H'). injection H as <-. injection H' as <-.
    apply bind_Ok in Ha as (ps & Hp & Ha). apply bind_Ok in Ha' as (ps' & Hp' & Ha'). injection Ha as <-. injection Ha' as <-.
    destruct SS as (_ & _ & P & _).
    destruct (embed_two_frames n n' T f _ _ _ _ _ R0 R0' P TS Hp Hp') as (L & L' & PR & SP). split.
    - intros i Hi. rewrite !nth_error_map, PR by auto. reflexivity.
    - intros j m Hj E. rewrite !nth_error_map in E. destruct (nth_error ps' j) as [[p q]|] eqn:Ep; [|discriminate]. cbn [option_map fst snd] in E.
      injection E as <-. unfold bicycle_inverse1. cbn [kim1 a_data a_valid mr_valid]. now rewrite (SP SPS _ _ _ Hj Ep).
  Qed.

  Lemma embed_offroad n n' T f s s' ms ms' : same_episode n n' T f s s' ->
    offroad_compute s = Ok ms -> offroad_compute s' = Ok ms' -> same_rows n f ms ms'.
  Proof.
    intros SE H H'. unfold offroad_compute in H, H'. apply bind_Ok in H as (cur & Hc & H). apply bind_Ok in H' as (cur' & Hc' & H').
    destruct (embed_current _ _ _ _ _ _ _ _ SE Hc Hc') as (L & L' & CR & _). destruct SE as ((_ & _ & _ & _ & _ & _ & _ & _ & _ & ER) & _).
    rewrite ER in H'. destruct (s_rg s) as [rg|]; [|discriminate]. intros i Hi.
    destruct (nth_error cur i) as [p|] eqn:Ep; [|apply nth_error_None in Ep; lia].
    destruct (mapM_nth _ _ _ i p H Ep) as (m & E & ->). destruct (mapM_nth _ _ _ (f i) p H' ltac:(rewrite CR; auto)) as (m' & E' & ->). congruence.
  Qed.
End Embed.
