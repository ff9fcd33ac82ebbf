(** The repository's environments are episodic; brax wrapper; environment factory. *)
From Coq Require Import String.
From Coq Require Import List ZArith Bool Lia.
From Verif.Lib Require Import Base JaxIndex Scalar.
From Verif.Model Require Import Operations State Dynamics Dyn_State BaseEnv Expert Metrics Actor PlanningEnv Envs Batch Specs Wrappers.
From Verif.Spec Require Import StateSpec PlanSpec WrapSpec BatchSpec SpecsSpec.
From Verif.Proofs Require Import Core Episode P_Actions P_Reward P_Plan P_PlanRun P_Rollout P_Wrappers P_Specs.
Import ListNotations.
Open Scope nat_scope.

Section Inst.
  Context {S : Scalar}.

  (** Scenario of [h + k] steps of [n] objects; state with [k] steps left. *)
  Definition scenario_len (n h : nat) (s : state) (k : nat) : Prop := wf_scenario n (h + k) s.
  Definition steps_left (n : nat) (s : state) (k : nat) : Prop :=
    exists T, wf_state n T s /\ (s_t s + 1 + Z.of_nat k = Z.of_nat T)%Z /\ (0 <= s_t s)%Z.

  Lemma wf_timesteps n T s : wf_state n T s -> num_timesteps (s_log s) = T.
  Proof. intros (_ & R & _ & Hn & _). eapply rect_num_timesteps; eauto. Qed.

  Lemma steps_left_done n s k : steps_left n s k ->
    is_done s = (k =? 0) /\ truncation s = (k =? 0).
  Proof.
    intros (T & W & Et & H0). unfold is_done, truncation, remaining_timesteps.
    rewrite (wf_timesteps _ _ _ W).
    destruct (Nat.eqb_spec k 0) as [->|N].
    - split; [apply Z.leb_le; lia|apply Z.ltb_lt; lia].
    - split; [apply Z.leb_gt; lia|apply Z.ltb_ge; lia].
  Qed.

  Lemma reset_left n h c s k : c_max_num_objects c = n -> c_init_steps c = h -> 1 <= h ->
    scenario_len n h s k -> exists s', env_reset c s = Ok s' /\ steps_left n s' k.
  Proof.
    intros E1 E2 Hh (R & Lm & Hn & HT).
    destruct (env_reset_total n (h + k) c s R E1) as [s' Hs]; [lia|].
    exists s'. split; auto. exists (h + k). split; [now apply (env_reset_wf n (h + k) c s)|].
    rewrite (env_reset_clock _ _ _ Hs). lia.
  Qed.

  Lemma chunks_spec {A} d n (l : list A) : length l = n * d ->
    length (chunks d n l) = n /\ Forall (fun r => length r = d) (chunks d n l) /\ concat (chunks d n l) = l.
  Proof.
    revert l. induction n as [|n IH]; intros l H; simpl in *.
    - destruct l; [auto|discriminate].
    - destruct (IH (skipn d l)) as (A1 & A2 & A3); [rewrite skipn_length; lia|].
      split; [lia|]. split.
      + constructor; auto. rewrite firstn_length. lia.
      + rewrite A3. apply firstn_skipn.
  Qed.

  Lemma base_to_action_Ok (c : envcfg) sp n dim s (a : arr F) :
    c_max_num_objects c = n -> vector_spec dim sp -> numel (dims a) = n * dim ->
    base_to_action c (Ok sp) s a = Ok (map (fun r => mkact r true) (chunks dim n (flat a))).
  Proof.
    intros En V Hl. destruct (base_spec c dim sp V) as (sp' & E & Es & _). unfold base_to_action. rewrite E. cbn [bind].
    rewrite Es, En. unfold reshape2. rewrite flat_length, Hl, Nat.eqb_refl. cbn [guard bind].
    destruct V as (_ & _ & _ & Hd & _). apply Nat.leb_le in Hd. now rewrite Hd.
  Qed.

  Lemma base_episodic reg (e : benv) n h dim sp :
    c_max_num_objects (be_cfg e) = n -> c_init_steps (be_cfg e) = h -> 1 <= h ->
    c_controlled (be_cfg e) <> NON_SDC ->
    dyn_total (be_dyn e) (fun a => length (a_data a) = dim) ->
    (forall T s, wf_state n T s -> exists r, base_reward reg e s = Ok r) ->
    vector_spec dim sp ->
    episodic (base_env reg e) (fun s _ => base_reward reg e s) (base_to_action (be_cfg e) (Ok sp))
      (scenario_len n h) (fun a => numel (dims a) = n * dim) (steps_left n).
  Proof.
    intros En Eh Hh Hc D HR V. constructor.
    - intros sc k Hs. exact (reset_left n h (be_cfg e) sc k En Eh Hh Hs).
    - intros s k raw (T & W & Et & H0) Hl.
      destruct (HR T s W) as [r Hr].
      destruct (chunks_spec dim n (flat raw)) as (C1 & C2 & _); [now rewrite flat_length|].
      set (a := map (fun r => mkact r true) (chunks dim n (flat raw))).
      destruct (env_step_total n T (be_dyn e) (be_cfg e) s a _ W Hc D) as [s' Hs'].
      { unfold a. now rewrite map_length. }
      { unfold a. apply Forall_forall. intros x Hx. apply in_map_iff in Hx as (q & <- & Hq).
        rewrite Forall_forall in C2. now apply C2. }
      exists r, a, s'. split; auto. split.
      { now apply base_to_action_Ok. }
      split; [exact Hs'|]. exists T. split; [eapply env_step_wf; eauto|].
      rewrite (env_step_clock _ _ _ _ _ Hs'). lia.
    - intros s k _. exists s. reflexivity.
    - intros s k Hl. apply (steps_left_done n s k Hl).
    - intros s k Hl. exists 1. split; [lia|]. split; [reflexivity|]. cbn [repeat]. cbn.
      now rewrite (proj2 (steps_left_done n s k Hl)).
  Qed.

  (** The same environment driven by Action objects. *)
  Lemma base_episodic_actions reg (e : benv) n h dim :
    c_max_num_objects (be_cfg e) = n -> c_init_steps (be_cfg e) = h -> 1 <= h ->
    c_controlled (be_cfg e) <> NON_SDC ->
    dyn_total (be_dyn e) (fun a => length (a_data a) = dim) ->
    (forall T s, wf_state n T s -> exists r, base_reward reg e s = Ok r) ->
    episodic (base_env reg e) (fun s _ => base_reward reg e s) (fun _ a => Ok a)
      (scenario_len n h)
      (fun acts => length acts = n /\ Forall (fun a => length (a_data a) = dim) acts) (steps_left n).
  Proof.
    intros En Eh Hh Hc D HR. constructor.
    - intros sc k Hs. exact (reset_left n h (be_cfg e) sc k En Eh Hh Hs).
    - intros s k a (T & W & Et & H0) [Hl Ha].
      destruct (HR T s W) as [r Hr].
      destruct (env_step_total n T (be_dyn e) (be_cfg e) s a _ W Hc D Hl Ha) as [s' Hs'].
      exists r, a, s'. split; auto. split; auto.
      split; [exact Hs'|]. exists T. split; [eapply env_step_wf; eauto|].
      rewrite (env_step_clock _ _ _ _ _ Hs'). lia.
    - intros s k _. exists s. reflexivity.
    - intros s k Hl. apply (steps_left_done n s k Hl).
    - intros s k Hl. exists 1. split; [lia|]. split; [reflexivity|]. cbn [repeat]. cbn.
      now rewrite (proj2 (steps_left_done n s k Hl)).
  Qed.

  Lemma base_reward_off reg (e : benv) s : be_compute_reward e = false ->
    base_reward reg e s = Ok (repeat f0 (c_max_num_objects (be_cfg e))).
  Proof. intros H. unfold base_reward. now rewrite H. Qed.

  (** The planning environment the factory can build: no sim agents. *)
  Lemma planning_episodic {P X K} split reg (e : penv P X K) n h dim sp :
    pe_agents e = [] -> pe_params e = [] ->
    c_max_num_objects (pe_cfg e) = n -> c_init_steps (pe_cfg e) = h -> 1 <= h ->
    dyn_total (pe_dyn e) (fun a => length (a_data a) = dim) ->
    (forall T s, wf_state n T s -> exists r, penv_reward reg e (mkps s []) = Ok r) ->
    bs_shape sp = [dim] -> 1 <= dim ->
    episodic (planning_env split reg e) (fun ps _ => penv_reward reg e ps) (planning_to_action (Ok sp))
      (scenario_len n h) (fun a => numel (dims a) = dim)
      (fun ps k => ps_actors ps = [] /\ steps_left n (ps_state ps) k).
  Proof.
    intros Ea Ep En Eh Hh D HR Es Hd. constructor.
    - intros sc k Hs. destruct (reset_left n h (pe_cfg e) sc k En Eh Hh Hs) as (s & Hr & Hl).
      exists (mkps s []). cbn. unfold penv_reset. rewrite Hr. cbn [bind]. rewrite Ea. cbn. auto.
    - intros [s xs] k raw (Ex & T & W & Et & H0) Hl. rewrite <- flat_length in Hl. cbn [ps_state ps_actors] in *. subst xs.
      destruct (HR T s W) as [r Hr].
      destruct (planning_step_total split n T e s [] (mkact (flat raw) true) None _ W D Hl) as [ps' Hs'].
      { now rewrite Ea, Ep. } { now rewrite Ea. } { rewrite Ea. intros ag p x q []. }
      exists r, (mkact (flat raw) true), ps'. split; auto. split.
      { unfold planning_to_action, planning_action_spec. cbn [bind]. rewrite Es, Hl, Nat.eqb_refl.
        apply Nat.leb_le in Hd. now rewrite Hd. }
      split; [exact Hs'|].
      destruct (planning_step split n T e (mkps s []) (mkact (flat raw) true) None ps' (Z.to_nat (s_t s)))
        as (SC & W' & E' & _ & outs & cur & us & [Lo _] & Eps & _); auto.
      { now rewrite Ea, Ep. } { cbn. lia. } { lia. }
      rewrite Ea in Lo. destruct outs; [|discriminate]. split; [exact Eps|].
      exists T. split; auto. lia.
    - intros s k _. exists s. reflexivity.
    - intros s k [_ Hl]. apply (steps_left_done n _ k Hl).
    - intros s k [_ Hl]. exists 1. split; [lia|]. split; [reflexivity|]. cbn [repeat]. cbn.
      now rewrite (proj2 (steps_left_done n _ k Hl)).
  Qed.
End Inst.

(* -------- brax -------- *)
Section Brax.
  Context {Sc St A O M R RA : Type}.
  Variable env : aenv Sc St A O M R.
  Variable zero_reward : R.

  Lemma brax_reset_Ok sc ts : brax_reset env zero_reward sc = Ok ts <->
    ae_reset env sc = Ok (bt_state ts) /\ ae_observe env (bt_state ts) = Ok (bt_obs ts) /\
    ae_metrics env (bt_state ts) = Ok (bt_metrics ts) /\ bt_reward ts = zero_reward /\
    bt_done ts = ae_termination env (bt_state ts) /\
    bt_discount ts = map (fun _ => true) (ae_termination env (bt_state ts)).
  Proof.
    unfold brax_reset. split.
    - intros H. apply bind_Ok in H as (s & H1 & H). apply bind_Ok in H as (o & H2 & H).
      apply bind_Ok in H as (m & H3 & H). injection H as <-. cbn. auto 10.
    - destruct ts as [s o r dn dc m]. cbn. intros (H1 & H2 & H3 & -> & -> & ->).
      rewrite H1. cbn [bind]. rewrite H2. cbn [bind]. rewrite H3. reflexivity.
  Qed.

  Lemma brax_step_Ok ts a ts' : brax_step env ts a = Ok ts' <->
    ae_step env (bt_state ts) a = Ok (bt_state ts') /\
    ae_observe env (bt_state ts') = Ok (bt_obs ts') /\
    ae_reward env (bt_state ts) a = Ok (bt_reward ts') /\
    ae_metrics env (bt_state ts) = Ok (bt_metrics ts') /\
    bt_done ts' = map2 orb (ae_termination env (bt_state ts')) (ae_truncation env (bt_state ts')) /\
    bt_discount ts' = map negb (ae_termination env (bt_state ts')).
  Proof.
    unfold brax_step. split.
    - intros H. apply bind_Ok in H as (s & H1 & H). apply bind_Ok in H as (o & H2 & H).
      apply bind_Ok in H as (r & H3 & H). apply bind_Ok in H as (m & H4 & H). injection H as <-. cbn. auto 10.
    - destruct ts' as [s o r dn dc m]. cbn. intros (H1 & H2 & H3 & H4 & -> & ->).
      rewrite H1. cbn [bind]. rewrite H2. cbn [bind]. rewrite H3. cbn [bind]. rewrite H4. reflexivity.
  Qed.

  Lemma brax_steps_snoc ts l a ts' : brax_steps env ts (l ++ [a]) = Ok ts' <->
    exists t1, brax_steps env ts l = Ok t1 /\ brax_step env t1 a = Ok ts'.
  Proof.
    revert ts. induction l as [|b l IH]; intros ts; cbn.
    - split.
      + intros H. apply bind_Ok in H as (t & H1 & H). injection H as <-. eauto.
      + intros (t1 & H1 & H2). injection H1 as <-. rewrite H2. reflexivity.
    - destruct (brax_step env ts b) as [t|e]; cbn; [apply IH|]. split; [discriminate|].
      intros (t1 & H1 & _). discriminate.
  Qed.

  (** Running the wrapper is running the environment, and the done flag counts. *)
  Lemma brax_run (raw_reward : St -> A -> res R) scn ok inv :
    episodic env raw_reward (fun _ a => Ok a) scn ok inv ->
    forall sc k acts t0 ts, scn sc k -> Forall ok acts -> length acts <= k ->
    brax_reset env zero_reward sc = Ok t0 -> brax_steps env t0 acts = Ok ts ->
    user_steps env (fun _ a => Ok a) (bt_state t0) acts = Ok (bt_state ts) /\
    ae_observe env (bt_state ts) = Ok (bt_obs ts) /\
    exists b, 0 < b /\ bt_discount ts = repeat true b /\
      bt_done ts = repeat (negb (length acts =? 0) && (length acts =? k)) b.
  Proof.
    intros E sc k acts. induction acts as [|a acts IH] using rev_ind; intros t0 ts Hs Ho Hl H0 H.
    - injection H as <-. apply brax_reset_Ok in H0 as (H1 & H2 & H3 & H4 & H5 & H6). split; [reflexivity|]. split; auto.
      destruct (ep_reset _ _ _ _ _ _ E sc k Hs) as (s & Hr & Is). rewrite H1 in Hr. injection Hr as <-.
      destruct (ep_batch _ _ _ _ _ _ E _ k Is) as (b & Hb & ET & EC). exists b. split; auto.
      rewrite H5, H6, ET. split; [|reflexivity]. clear. induction b; simpl; f_equal; auto.
    - apply brax_steps_snoc in H as (t1 & H1 & H2).
      rewrite app_length in *. cbn [length] in *. apply Forall_app in Ho as [Ho Ha].
      assert (G : exists s, user_steps env (fun _ a => Ok a) (bt_state t0) acts = Ok s /\ inv s (k - length acts)).
      { apply brax_reset_Ok in H0 as (Hr & _).
        destruct (ep_reset _ _ _ _ _ _ E sc k Hs) as (s & Hr' & Is). rewrite Hr in Hr'. injection Hr' as <-.
        assert (Hl' : length acts <= k) by lia. clear - E Is Ho Hl'. revert Is Ho Hl'.
        generalize (bt_state t0). revert k. induction acts as [|a acts IH]; intros k s Is Ho Hl.
        - exists s. cbn. now rewrite Nat.sub_0_r.
        - inversion Ho; subst. cbn in Hl. destruct k as [|k]; [lia|].
          destruct (ep_step _ _ _ _ _ _ E s k a Is) as (r & a' & s' & _ & E2 & E3 & Is'); auto.
          injection E2 as <-. cbn. rewrite E3. cbn [bind]. apply IH; auto. lia. }
      destruct G as (s1 & Hs1 & Is1).
      destruct (IH t0 t1 Hs Ho ltac:(lia) H0 H1) as (U & _).
      rewrite Hs1 in U. injection U as ->.
      apply brax_step_Ok in H2 as (S1 & S2 & S3 & S4 & S5 & S6).
      assert (Ek : k - length acts = Datatypes.S (k - length acts - 1)) by lia. rewrite Ek in Is1.
      inversion Ha as [|a' l' Oa _]; subst.
      destruct (ep_step _ _ _ _ _ _ E _ _ a Is1 Oa) as (r & a' & s' & _ & E2 & E3 & Is').
      injection E2 as <-. rewrite S1 in E3. injection E3 as <-.
      split.
      { clear - Hs1 S1. revert Hs1 S1. generalize (bt_state t0), (bt_state t1). intros s0 s1. revert s0.
        induction acts as [|b acts IH]; intros s0 Hs1 S1; cbn in *.
        - injection Hs1 as ->. rewrite S1. reflexivity.
        - destruct (ae_step env s0 b); cbn in *; [now apply IH|discriminate]. }
      split; auto.
      destruct (ep_batch _ _ _ _ _ _ E _ _ Is') as (b & Hb & ET & EC). exists b. split; auto.
      rewrite S5, S6, ET, EC, orb_repeat_false, negb_repeat. split; [reflexivity|]. f_equal.
      replace (length acts + 1 =? 0) with false by (symmetry; apply Nat.eqb_neq; lia). cbn [negb andb].
      destruct (Nat.eqb_spec (k - length acts - 1) 0), (Nat.eqb_spec (length acts + 1) k); auto; lia.
  Qed.
End Brax.

(* -------- factory -------- *)
Section Factory.
  Context {S : Scalar} {P X K : Type}.
  Variable idm : (state -> list bool) -> actor P X K.

  Lemma create_agent c : exists r, create_sim_agents_from_config idm c = r /\
    match sa_controlled c with
    | SDC => r = Ok (idm control_sdc) | NON_SDC => r = Ok (idm control_non_sdc)
    | _ => r = Err NotImplementedError end.
  Proof. eexists. split; [reflexivity|]. destruct c as [[] []]; reflexivity. Qed.

  Lemma factory_none reg d c rewards metrics cr agents data r :
    agents = None \/ agents = Some [] ->
    make_sdc_dm_environment idm reg d c rewards metrics cr agents data = Ok r <->
    c_controlled c = SDC /\ (exists m, make_linear_reward reg rewards = Ok m) /\
    exists sc rest, data = sc :: rest /\
      r = (mkpenv d c rewards metrics cr [] [], mkdm rest sc None false false).
  Proof.
    intros Ha. unfold make_sdc_dm_environment.
    assert (EA : match agents with Some l => mapM (create_sim_agents_from_config idm) l | None => Ok [] end = Ok [])
      by (destruct Ha as [->| ->]; reflexivity). rewrite EA. cbn [bind].
    unfold make_penv. cbn [pe_rewards pe_cfg pe_agents pe_params length Nat.eqb].
    split.
    - intros H. apply bind_Ok in H as (u & Hg & H). apply guard_Ok in Hg.
      apply bind_Ok in H as (e & He & H). apply bind_Ok in He as (m & Hm & He).
      apply bind_Ok in He as (u2 & _ & He). cbn [guard bind] in He. injection He as <-.
      apply bind_Ok in H as (w & Hw & H). injection H as <-.
      split; [now destruct (c_controlled c)|]. split; [eauto|].
      destruct data as [|sc rest]; [discriminate|]. injection Hw as <-. eauto.
    - intros (E & (m & Hm) & sc & rest & -> & ->). rewrite E, Hm. reflexivity.
  Qed.

  Lemma factory_agents reg d c rewards metrics cr ag agents data :
    exists e, make_sdc_dm_environment idm reg d c rewards metrics cr (Some (ag :: agents)) data = Err e.
  Proof.
    unfold make_sdc_dm_environment. destruct (guard _ _); cbn [bind]; [|eauto].
    destruct (mapM (create_sim_agents_from_config idm) (ag :: agents)) as [l|e] eqn:EM; cbn [bind]; [|eauto].
    apply mapM_length in EM. destruct l as [|x l]; [discriminate|].
    unfold make_penv. cbn [pe_rewards pe_cfg pe_agents pe_params].
    destruct (make_linear_reward reg rewards); cbn [bind]; [|eauto].
    destruct (guard (is_SDC _) _); cbn [bind]; [|eauto]. cbn [length Nat.eqb guard bind]. eauto.
  Qed.

  (** With well-formed configurations the error is the ValueError about the missing
      parameters. *)
  Lemma factory_agents_error reg d c rewards metrics cr ag agents data m :
    c_controlled c = SDC -> make_linear_reward reg rewards = Ok m ->
    Forall (fun a => sa_controlled a = SDC \/ sa_controlled a = NON_SDC) (ag :: agents) ->
    make_sdc_dm_environment idm reg d c rewards metrics cr (Some (ag :: agents)) data = Err ValueError.
  Proof.
    intros E Hm HF. unfold make_sdc_dm_environment. rewrite E. cbn [is_SDC guard bind].
    destruct (mapM_total (create_sim_agents_from_config idm) (ag :: agents)) as [l EM].
    { intros a Ha. rewrite Forall_forall in HF. destruct (HF a Ha) as [H|H];
        unfold create_sim_agents_from_config; rewrite H; destruct (sa_type a); cbn; eauto. }
    rewrite EM. cbn [bind]. apply mapM_length in EM. destruct l as [|x l]; [discriminate|].
    unfold make_penv. cbn [pe_rewards pe_cfg pe_agents pe_params]. rewrite Hm, E. reflexivity.
  Qed.
End Factory.
