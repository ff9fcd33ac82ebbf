(** Planning episodes (C32, C33, C44). *)
From Coq Require Import String.
From Coq Require Import List ZArith Lia Bool.
From Verif.Lib Require Import Base JaxIndex Scalar.
From Verif.Model Require Import Operations State Dynamics BaseEnv Dyn_State Geometry
  Discretizer Comfort Metrics Actor PlanningEnv.
From Verif.Spec Require Import StateSpec PlanSpec.
From Verif.Proofs Require Import Core Episode P_Step P_Actor P_Plan.
Import ListNotations.
Open Scope nat_scope.

Section Run.
  Context {S : Scalar} {P X K : Type}.
  Variable split : K -> nat -> nat -> K.

  Lemma penv_steps_app (e : penv P X K) ps l1 l2 :
    penv_steps split e ps (l1 ++ l2)
    = bind (penv_steps split e ps l1) (fun ps' => penv_steps split e ps' l2).
  Proof.
    revert ps; induction l1 as [|[a k] l1 IH]; intros ps; simpl; auto.
    destruct (penv_step split e ps a k); simpl; auto.
  Qed.

  (** Everything that holds of a run that starts at step [t]. *)
  Lemma steps_basic n T (e : penv P X K) acts : forall ps ps' (t : nat),
    length (pe_params e) = length (pe_agents e) ->
    wf_state n T (ps_state ps) -> s_t (ps_state ps) = Z.of_nat t ->
    t + length acts < T ->
    penv_steps split e ps acts = Ok ps' ->
    same_scenario (ps_state ps) (ps_state ps') /\ wf_state n T (ps_state ps') /\
    s_t (ps_state ps') = Z.of_nat (t + length acts) /\
    (forall i k, i < n -> k <= t -> at2 (s_sim (ps_state ps')) i k = at2 (s_sim (ps_state ps)) i k).
  Proof.
    induction acts as [|[a k] acts IH]; intros ps ps' t Lp W Et Ht H; simpl in H, Ht.
    - injection H as <-. rewrite Nat.add_0_r. auto using same_scenario_refl.
    - apply bind_Ok in H as (ps1 & H1 & H).
      destruct (planning_step split n T e ps a k ps1 t Lp W Et) as (SC & W1 & E1 & Fr & _);
        auto; try lia.
      destruct (IH ps1 ps' (t + 1) Lp W1 E1) as (SC' & W' & E' & Fr'); auto; try lia.
      split; [eapply same_scenario_trans; eauto|]. split; auto.
      split; [rewrite E'; f_equal; simpl; lia|].
      intros i j Hi Hj. rewrite Fr' by lia. apply Fr; lia.
  Qed.

  Lemma run_planning_reset (e : penv P X K) s rng acts ps' :
    run_planning split e s rng acts = Ok ps' ->
    exists s0 xs, env_reset (pe_cfg e) s = Ok s0 /\
      penv_steps split e (mkps s0 xs) acts = Ok ps'.
  Proof.
    unfold run_planning, penv_reset. intros H. apply bind_Ok in H as (p0 & H0 & H).
    apply bind_Ok in H0 as (s0 & Hs & H0). apply bind_Ok in H0 as (xs & _ & H0).
    injection H0 as <-. eauto.
  Qed.

  (** Clock, warm-up and immutability of an episode. *)
  Lemma planning_basic n T (e : penv P X K) s rng acts ps' :
    length (pe_params e) = length (pe_agents e) ->
    wf_scenario n T s -> 1 <= c_init_steps (pe_cfg e) ->
    c_init_steps (pe_cfg e) + length acts <= T ->
    run_planning split e s rng acts = Ok ps' ->
    same_scenario s (ps_state ps') /\ wf_state n T (ps_state ps') /\
    s_t (ps_state ps') = (Z.of_nat (c_init_steps (pe_cfg e) + length acts) - 1)%Z /\
    (forall i t, i < n -> t < c_init_steps (pe_cfg e) ->
       at2 (s_sim (ps_state ps')) i t = at2 (s_log s) i t).
  Proof.
    intros Lp W Hi Hl H. apply run_planning_reset in H as (s0 & xs & H0 & H).
    destruct W as (R & Lm & Hn & HT).
    destruct (env_reset_Ok _ _ _ _ _ R Hn H0) as (_ & _ & R0 & SC & Et & Fr).
    pose proof (env_reset_wf _ _ _ _ _ R Lm Hn HT H0) as W0.
    set (t0 := c_init_steps (pe_cfg e) - 1).
    destruct (steps_basic n T e acts (mkps s0 xs) ps' t0 Lp) as (SC' & W' & E' & Fr'); auto.
    { simpl. rewrite Et. unfold t0. lia. }
    { unfold t0. lia. }
    simpl in SC', Fr'.
    split; [eapply same_scenario_trans; eauto|]. split; auto.
    split; [rewrite E'; unfold t0; lia|].
    intros i t Hin Ht. rewrite Fr' by (unfold t0; lia). rewrite Fr by lia.
    replace (t <? c_init_steps (pe_cfg e)) with true by (symmetry; apply Nat.ltb_lt; auto).
    reflexivity.
  Qed.

  (** The state before step [j] of an episode, and that step. *)
  Lemma planning_split n T (e : penv P X K) s rng acts ps' (j : nat) :
    length (pe_params e) = length (pe_agents e) ->
    wf_scenario n T s -> 1 <= c_init_steps (pe_cfg e) ->
    c_init_steps (pe_cfg e) + length acts <= T -> j < length acts ->
    run_planning split e s rng acts = Ok ps' ->
    exists ps1 ps2 a k,
      run_planning split e s rng (firstn j acts) = Ok ps1 /\
      nth_error acts j = Some (a, k) /\
      penv_step split e ps1 a k = Ok ps2 /\
      run_planning split e s rng (firstn (Datatypes.S j) acts) = Ok ps2 /\
      (forall i t, i < n -> t <= c_init_steps (pe_cfg e) + j ->
         at2 (s_sim (ps_state ps')) i t = at2 (s_sim (ps_state ps2)) i t) /\
      (forall i t, i < n -> t < c_init_steps (pe_cfg e) + j ->
         at2 (s_sim (ps_state ps')) i t = at2 (s_sim (ps_state ps1)) i t).
  Proof.
    intros Lp W Hi Hl Hj H.
    destruct (nth_error_lt_Some acts j Hj) as [[a k] Ea].
    destruct (nth_error_split _ _ Ea) as (l1 & l2 & -> & Ll).
    assert (F1 : firstn j (l1 ++ (a, k) :: l2) = l1).
    { rewrite <- Ll, firstn_app, Nat.sub_diag, firstn_all, firstn_O, app_nil_r. auto. }
    assert (F2 : firstn (Datatypes.S j) (l1 ++ (a, k) :: l2) = l1 ++ [(a, k)]).
    { rewrite firstn_app, firstn_all2 by lia. f_equal.
      replace (Datatypes.S j - length l1) with 1 by lia. reflexivity. }
    rewrite F1, F2. rewrite app_length in Hl, Hj. simpl in Hl, Hj.
    unfold run_planning in H |- *.
    apply bind_Ok in H as (p0 & H0 & H). rewrite H0. cbn [bind].
    rewrite penv_steps_app in H. apply bind_Ok in H as (ps1 & H1 & H).
    simpl in H. apply bind_Ok in H as (ps2 & H2 & H).
    rewrite penv_steps_app, H1. cbn [bind penv_steps]. rewrite H2. cbn [bind].
    assert (B1 : run_planning split e s rng l1 = Ok ps1).
    { unfold run_planning. now rewrite H0. }
    destruct (planning_basic n T e s rng l1 ps1 Lp W Hi) as (_ & W1 & E1 & _); auto; try lia.
    set (t1 := c_init_steps (pe_cfg e) + j - 1).
    destruct (planning_step split n T e ps1 a k ps2 t1 Lp W1) as (_ & W2 & E2 & Fr2 & _); auto.
    { rewrite E1, Ll. unfold t1. lia. } { unfold t1; lia. }
    destruct (steps_basic n T e l2 ps2 ps' (t1 + 1) Lp W2 E2) as (_ & _ & _ & Fr3); auto.
    { unfold t1; lia. }
    exists ps1, ps2, a, k. repeat split; auto.
    - intros i t Hin Ht. apply Fr3; auto. unfold t1; lia.
    - intros i t Hin Ht. rewrite Fr3 by (auto; unfold t1; lia). apply Fr2; auto. unfold t1; lia.
  Qed.

  (** History is immutable: continuing an episode changes no simulated frame up
      to the current one. *)
  Lemma planning_prefix n T (e : penv P X K) s rng l1 l2 ps1 ps' :
    length (pe_params e) = length (pe_agents e) ->
    wf_scenario n T s -> 1 <= c_init_steps (pe_cfg e) ->
    c_init_steps (pe_cfg e) + length (l1 ++ l2) <= T ->
    run_planning split e s rng l1 = Ok ps1 ->
    run_planning split e s rng (l1 ++ l2) = Ok ps' ->
    forall i t, i < n -> t < c_init_steps (pe_cfg e) + length l1 ->
      at2 (s_sim (ps_state ps')) i t = at2 (s_sim (ps_state ps1)) i t.
  Proof.
    intros Lp W Hi Hl H1 H i t Hin Ht. rewrite app_length in Hl.
    destruct (planning_basic n T e s rng l1 ps1 Lp W Hi) as (_ & W1 & E1 & _); auto; try lia.
    unfold run_planning in *. apply bind_Ok in H1 as (p0 & H0 & H1).
    rewrite H0 in H. cbn [bind] in H. rewrite penv_steps_app, H1 in H. cbn [bind] in H.
    destruct (steps_basic n T e l2 ps1 ps' (c_init_steps (pe_cfg e) + length l1 - 1) Lp W1)
      as (_ & _ & _ & Fr); auto; try lia.
    apply Fr; auto; lia.
  Qed.

  (** Scenario facts carry over to the states of an episode. *)
  Lemma is_sdc_same s s' i : same_scenario s s' -> is_sdc s' i <-> is_sdc s i.
  Proof. unfold is_sdc. intros (_ & _ & E & _). now rewrite E. Qed.
  Lemma starts_same s s' i :
    same_scenario s s' -> starts_overlapping s' i <-> starts_overlapping s i.
  Proof. unfold starts_overlapping. intros (E & _). now rewrite E. Qed.

  (** An object that is neither the SDC nor allowed to be driven replays the
      log, whatever the planner and the sim agents do. *)
  Lemma blocked_replays n T (e : penv P X K) s rng acts ps' i (j : nat) :
    length (pe_params e) = length (pe_agents e) ->
    wf_scenario n T s -> 1 <= c_init_steps (pe_cfg e) ->
    c_init_steps (pe_cfg e) + length acts <= T -> j < length acts ->
    run_planning split e s rng acts = Ok ps' -> i < n ->
    starts_overlapping s i -> ~ is_sdc s i ->
    exists p l, at2 (s_sim (ps_state ps')) i (c_init_steps (pe_cfg e) + j) = Some p /\
      at2 (s_log s) i (c_init_steps (pe_cfg e) + j) = Some l /\ same_pose p l /\
      p_ts p = p_ts l.
  Proof.
    intros Lp W Hi Hl Hj H Hin SO NS.
    destruct (planning_split n T e s rng acts ps' j Lp W Hi Hl Hj H)
      as (ps1 & ps2 & a & k & R1 & _ & St & _ & Fr & _).
    assert (Lf : length (firstn j acts) = j) by (apply firstn_length_le; lia).
    destruct (planning_basic n T e s rng (firstn j acts) ps1 Lp W Hi) as (SC & W1 & E1 & _); eauto; try lia.
    rewrite Lf in E1.
    destruct (planning_step split n T e ps1 a k ps2 (c_init_steps (pe_cfg e) + j - 1) Lp W1)
      as (_ & _ & _ & _ & outs & cur & us & _ & _ & _ & _ & _ & _ & Sp); auto; try lia.
    replace (c_init_steps (pe_cfg e) + j - 1 + 1) with (c_init_steps (pe_cfg e) + j) in Sp by lia.
    destruct (Sp i Hin) as (p & c & l & Ep & Ec & El & _ & _ & Sl & _ & _ & _ & _ & _ & _ & Ts).
    exists p, l. rewrite Fr by lia. split; auto. split.
    { destruct SC as (EL & _). now rewrite <- EL. }
    split; auto. apply Sl.
    - intros [_ N]. apply N. eapply starts_same; eauto.
    - intros Is. apply NS. apply (is_sdc_same s (ps_state ps1) i SC). exact Is.
  Qed.

  (** With no sim agents the planning environment is the base environment that
      controls the SDC, for every per-object dynamics model. *)
  Lemma no_agents_is_base n T (e : penv P X K) s xs a k ps' acts s' :
    pe_agents e = [] -> c_controlled (pe_cfg e) = SDC -> dyn_local (pe_dyn e) ->
    wf_state n T s ->
    penv_step split e (mkps s xs) a k = Ok ps' ->
    env_step (pe_dyn e) (pe_cfg e) s acts = Ok s' ->
    (forall i, is_sdc s i -> nth_error acts i = Some a) ->
    ps_state ps' = s'.
  Proof.
    intros Ea Ec [f Hf] W H H' Hs.
    destruct (env_step_Ok _ _ _ _ _ _ _ W H')
      as (mask & cur & us & nxt & Em & La & Lm & Lc & Lu & Ln & Hc & Hx & Hu & R & Fr & SC & Et).
    unfold env_control_mask in Em. rewrite Ec in Em. simpl in Em. injection Em as <-.
    unfold penv_step in H. cbn [ps_state ps_actors] in H.
    apply bind_Ok in H as (cur' & Hc' & H). apply bind_Ok in H as (us' & Hu' & H).
    apply bind_Ok in H as (over & _ & H). apply bind_Ok in H as (u0 & _ & H).
    rewrite Ea in H. cbn [merge_sim_agents bind] in H.
    apply bind_Ok in H as (sim' & Hfw & H).
    assert (E0 : ps_state ps' = mkstate sim' (s_log s) (s_tls s) (s_meta s) (s_t s + 1)
                   (s_paths s) (s_rg s)).
    { match type of H with Ok ?z = _ => assert (ps' = z) as -> by congruence end. reflexivity. }
    rewrite E0. clear H E0 ps'.
    destruct W as (R1 & R2 & Lmt & Hn & HT).
    unfold current_sim in Hc'. eapply dynamic_index_Ok in Hc' as [Lc' Hc']; [|eauto].
    assert (cur' = cur) as ->.
    { apply nth_error_ext_eq. intros i. destruct (Nat.lt_ge_cases i n).
      - rewrite Hc', Hc; auto.
      - rewrite !(proj2 (nth_error_None _ i)) by lia. auto. }
    destruct (forward_Ok n T _ _ _ _ _ _ _ _ R1 R2 HT Hfw)
      as (cur2 & us2 & La2 & _ & Lc2 & Hc2 & Hu2 & Ha2).
    assert (cur2 = cur) as ->.
    { apply nth_error_ext_eq. intros i. destruct (Nat.lt_ge_cases i n).
      - rewrite Hc2, Hc; auto.
      - rewrite !(proj2 (nth_error_None _ i)) by lia. auto. }
    destruct (apply_Ok _ _ _ _ _ _ _ _ _ _ R1 R2 HT Ha2)
      as (Lu2 & _ & R3 & cur3 & nxt3 & Lc3 & Ln3 & Hc3 & Hn3 & Fr3).
    assert (cur3 = cur) as ->.
    { apply nth_error_ext_eq. intros i. destruct (Nat.lt_ge_cases i n).
      - rewrite Hc3, Hc; auto.
      - rewrite !(proj2 (nth_error_None _ i)) by lia. auto. }
    assert (nxt3 = nxt) as ->.
    { apply nth_error_ext_eq. intros i. destruct (Nat.lt_ge_cases i n).
      - rewrite Hn3, Hx; auto.
      - rewrite !(proj2 (nth_error_None _ i)) by lia. auto. }
    destruct SC as (E1 & E2 & E3 & E4 & E5).
    destruct s' as [sim1 log1 tls1 m1 t1 pa1 rg1]. cbn in *. subst. f_equal.
    apply (rect_ext (length (s_meta s)) T); auto. intros i t Hi Ht.
    rewrite Fr, Fr3 by auto. destruct (t =? norm_start (s_t s + 1) T 1); auto.
    rewrite !nth_error_map4.
    destruct (nth_error_lt_Some us i) as [u Eu]; [lia|].
    destruct (nth_error_lt_Some us2 i) as [u2 Eu2]; [lia|].
    destruct (nth_error_lt_Some cur i) as [c Ecu]; [lia|].
    destruct (nth_error_lt_Some nxt i) as [l El]; [lia|].
    destruct (nth_error_lt_Some (s_meta s) i) as [m Emt]; [lia|].
    rewrite Eu, Eu2, Ecu, El, nth_error_map, Emt. cbn [option_map]. f_equal.
    destruct (m_is_sdc m) eqn:Sd.
    - (* the SDC: same action, same frame, same update *)
      assert (Is : is_sdc s i) by (exists m; auto).
      destruct (Hf _ _ _ Hu i a c (Hs _ Is) Ecu) as (v & Ev & Ev').
      assert (v = u) as -> by congruence.
      unfold planning_update in Hu'. rewrite Lc in Hu'.
      destruct (Hf _ _ _ Hu' i a c) as (v & Ew & Ew'); auto.
      { rewrite nth_error_repeat; auto. }
      assert (v = u) as -> by congruence.
      destruct (per_object_Ok _ _ _ _ Hu2) as (_ & _ & PO).
      destruct (PO i (as_action u) c) as (w & Es & Es'); auto.
      { rewrite nth_error_map, Ew'. reflexivity. }
      assert (w = u2) as -> by congruence.
      simpl in Es. injection Es as <-. reflexivity.
    - unfold next_pt. reflexivity.
  Qed.

  (** The step never fails on an environment whose parts fit together. *)
  Lemma planning_step_total n T (e : penv P X K) s xs a rng ok :
    wf_state n T s -> dyn_total (pe_dyn e) ok -> ok a ->
    length (pe_params e) = length (pe_agents e) -> length xs = length (pe_agents e) ->
    (forall ag p x k, In ag (pe_agents e) -> In p (pe_params e) -> In x xs ->
       exists o, ac_select ag p s x k = Ok o /\ length (o_controlled o) = n /\
         length (o_action o) = n /\ Forall (fun b => length (a_data b) = 5) (o_action o)) ->
    exists ps', penv_step split e (mkps s xs) a rng = Ok ps'.
  Proof.
    intros W D Oa Lp Lx Hag. destruct W as (R1 & R2 & Lm & Hn & HT).
    unfold penv_step. cbn [ps_state ps_actors].
    destruct (dynamic_index_total n T (s_sim s) (s_t s) R1 HT) as [cur Hc].
    unfold current_sim. rewrite Hc. cbn [bind].
    destruct (dynamic_index_Ok n T (s_sim s) (s_t s) cur R1 Hc) as [Lc _].
    unfold planning_update. destruct (D (repeat a (length cur)) cur) as (us & Hu & Lu).
    { apply repeat_length. }
    { apply Forall_forall. intros b Hb. apply repeat_spec in Hb. now subst. }
    rewrite Hu. cbn [bind].
    destruct (initialized_overlap_total n T (s_log s) R2 HT) as [over Ho]. rewrite Ho. cbn [bind].
    destruct (initialized_overlap_spec n T (s_log s) over R2 HT Ho) as [Lov _].
    unfold guard. rewrite Lx, Nat.eqb_refl. cbn [bind].
    assert (G : forall agents xs' params keys action ctrl,
      (forall ag, In ag agents -> In ag (pe_agents e)) ->
      (forall p, In p params -> In p (pe_params e)) -> (forall x, In x xs' -> In x xs) ->
      length action = n -> length ctrl = n ->
      Forall (fun b => length (a_data b) = 5) action ->
      exists r, merge_sim_agents (K := K) s (map negb over) agents xs' params keys action ctrl = Ok r /\
        length (fst (fst r)) = n /\ length (snd (fst r)) = n /\
        Forall (fun b => length (a_data b) = 5) (fst (fst r))).
    { induction agents as [|ag agents IH]; intros xs' params keys action ctrl H1 H2 H3 L1 L2 F5.
      - simpl. eexists; split; eauto.
      - destruct xs' as [|x xs']; [simpl; eexists; split; eauto|].
        destruct params as [|p params]; [simpl; eexists; split; eauto|].
        destruct keys as [|k keys]; [simpl; eexists; split; eauto|].
        cbn [merge_sim_agents].
        destruct (Hag ag p x k) as (o & Hs & Lo1 & Lo2 & Fo);
          [apply H1; now left | apply H2; now left | apply H3; now left |].
        rewrite Hs. cbn [bind]. unfold guard at 1.
        rewrite map_length, Lo1, Lov, Nat.eqb_refl. cbn [bind].
        assert (DD : Forall2 dims_eq (o_action o) action).
        { clear -Fo F5 Lo2 L1. assert (E : length (o_action o) = length action) by congruence.
          clear Lo2 L1. revert action F5 E. induction Fo; intros [|b action] F5 E; simpl in *;
            try discriminate; constructor.
          - inversion F5; subst. unfold dims_eq. congruence.
          - inversion F5; subst. apply IHFo; auto. }
        assert (Wh : where_actions (map2 andb (o_controlled o) (map negb over)) (o_action o) action
          = Ok (map3 (fun (m : bool) a b => if m then a else b)
                  (map2 andb (o_controlled o) (map negb over)) (o_action o) action)).
        { apply where_Ok. rewrite map2_length, map_length. split; [lia|]. auto. }
        rewrite Wh. cbn [bind].
        destruct (where_dims _ _ _ _ Wh) as [Dw Lw].
        match goal with |- context [merge_sim_agents s _ agents xs' params keys ?act ?ct] =>
          destruct (IH xs' params keys act ct) as (r & Hr & A1 & A2 & A3) end.
        + intros; apply H1; now right.
        + intros; apply H2; now right.
        + intros; apply H3; now right.
        + congruence.
        + rewrite map2_length, map2_length, map_length. lia.
        + clear -Dw F5. revert F5. induction Dw; intros F5; constructor; inversion F5; subst; auto.
          unfold dims_eq in *; congruence.
        + rewrite Hr. destruct r as [[r1 r2] r3]. cbn [bind]. cbn in A1, A2, A3.
          eexists; split; [reflexivity|]. simpl. auto. }
    destruct (G (pe_agents e) xs (pe_params e) (split_keys split rng (length (pe_agents e)))
                (map as_action us) (map m_is_sdc (s_meta s))) as (r & Hr & A1 & A2 & A3); auto.
    { rewrite map_length. congruence. } { rewrite map_length. auto. }
    { apply Forall_forall. intros b Hb. apply in_map_iff in Hb as (u & <- & _). reflexivity. }
    rewrite Hr. destruct r as [[action ctrl] xs2]. cbn [bind fst snd] in *.
    unfold forward. destruct R1 as [R1 R1']. destruct R2 as [R2 R2'].
    unfold guard. rewrite R1, R2, A1, A2, Nat.eqb_refl. cbn [bind andb].
    rewrite Hc. cbn [bind].
    assert (PU : exists us2, d_update StateDynamics action cur = Ok us2 /\ length us2 = n).
    { simpl. assert (E : length action = length cur) by congruence.
      clear -A3 E A1. rewrite <- A1. clear A1. revert cur E.
      induction A3 as [|b action Hb F IH]; intros [|c cur] E; simpl in *; try discriminate.
      - eexists; split; eauto.
      - injection E as E. destruct (IH cur E) as (us2 & H2 & L2).
        destruct (a_data b) as [|x0 [|y0 [|w0 [|vx0 [|vy0 [|? ?]]]]]] eqn:Ed; simpl in Hb;
          try discriminate.
        unfold state_update at 1. rewrite Ed. cbn [bind]. rewrite H2. cbn [bind].
        eexists; split; [reflexivity|]. simpl. congruence. }
    destruct PU as (us2 & H2 & L2). rewrite H2. cbn [bind].
    destruct (apply_total n T us2 (s_sim s) (s_log s) ctrl (s_t s)
                (c_allow_new_objects (pe_cfg e)) false) as [sim' Hs]; auto.
    { split; auto. } { split; auto. }
    rewrite Hs. cbn [bind]. eauto.
  Qed.

  (** PlanningAgentDynamics.forward: unusable for more than one object. *)
  Lemma planning_forward_fails d a vsh (sim ref : traj) ctrl t inj : length sim <> 1 ->
    planning_forward d a vsh sim ref ctrl t inj = Err AssertionError.
  Proof.
    intros Hn. unfold planning_forward. cbn [tile_second_last rev app bind].
    assert (N1 : (length sim =? 1) = false) by (apply Nat.eqb_neq; auto).
    unfold tile_last, action_validate. rewrite rev_app_distr. cbn [rev app]. rewrite N1.
    destruct (guard _ _) as [|e] eqn:G; cbn [bind guard]; [reflexivity|].
    unfold guard in G. destruct (_ && _); congruence.
  Qed.

  Lemma planning_forward_one d a vsh (sim ref : traj) ctrl t inj :
    (vsh = [] \/ vsh = [1]) -> length sim = 1 ->
    planning_forward d a vsh sim ref ctrl t inj = forward d [a] sim ref ctrl t false.
  Proof.
    intros Hv Hn. unfold planning_forward. rewrite Hn. destruct Hv as [->| ->]; reflexivity.
  Qed.

  Lemma planning_forward_blind d a vsh (sim ref : traj) ctrl t inj inj' :
    planning_forward d a vsh sim ref ctrl t inj = planning_forward d a vsh sim ref ctrl t inj'.
  Proof. reflexivity. Qed.

  (** A frozen object does not move. *)
  Lemma frozen_output s none (ctrl : state -> list bool) p x k o :
    ac_select (sim_agent (P := P) (X := X) (K := K) none ctrl frozen_update) p s x k = Ok o ->
    exists cur, current_sim s = Ok cur /\ o_controlled o = ctrl s /\
      o_action o = map (fun q => mkact [p_x q; p_y q; p_yaw q; p_vx q; p_vy q] (p_valid q)) cur.
  Proof.
    simpl. intros H. apply bind_Ok in H as (us & Hu & H). injection H as <-.
    unfold frozen_update in Hu. apply bind_Ok in Hu as (cur & Hc & Hu).
    assert (us = map (fun p => mkupd (p_x p) (p_y p) (p_yaw p) (p_vx p) (p_vy p) (p_valid p)) cur)
      as -> by congruence.
    exists cur. simpl. split; auto. split; auto. rewrite map_map. reflexivity.
  Qed.
End Run.
