(** Time steps of the dm_env wrapper against the specs. *)
From Coq Require Import String.
From Coq Require Import List ZArith Bool Lia.
From Verif.Lib Require Import Base JaxIndex Scalar.
From Verif.Model Require Import Operations State Dynamics Dyn_State Dyn_Delta Dyn_Bicycle BaseEnv Comfort Metrics Actor PlanningEnv Envs Batch Specs Wrappers.
From Verif.Spec Require Import StateSpec WrapSpec BatchSpec SpecsSpec.
From Verif.Proofs Require Import Core Episode P_Actions P_Metrics P_Reward P_Config P_Wrappers P_WrapInst P_Specs.
Import ListNotations.
Open Scope nat_scope.

Section Reward.
  Context {S : Scalar}.

  Lemma lookup_initial name m : lookup name (initial_registry (S := S)) = Some m ->
    In (name, m) initial_registry.
  Proof.
    generalize (initial_registry (S := S)). intros l. induction l as [|[k a] l IH]; simpl; [discriminate|].
    destruct (String.eqb_spec name k) as [->|]; [intros H; injection H as ->; auto|auto].
  Qed.

  (** A built-in metric that returns one value per object returns n of them. *)
  Lemma builtin_sized n T s name m v : wf_state n T s ->
    lookup name initial_registry = Some m -> m s = Ok v -> sized n v.
  Proof.
    intros (R & RL & _) L E. apply lookup_initial in L. simpl in L.
    repeat destruct L as [L|L]; try contradiction; injection L as <- <-; apply bind_Ok in E as (x & E & H);
      injection H as <-; simpl; auto.
    - unfold log_divergence_compute in E. apply bind_Ok in E as (cur & Ec & E). apply bind_Ok in E as (lg & El & E).
      injection E as <-. destruct (dynamic_index_Ok n T _ _ _ R Ec). destruct (dynamic_index_Ok n T _ _ _ RL El).
      rewrite map2_length. lia.
    - unfold overlap_compute in E. apply bind_Ok in E as (cur & Ec & E). injection E as <-.
      destruct (dynamic_index_Ok n T _ _ _ R Ec). unfold compute_overlap. now rewrite mapi_length.
    - unfold offroad_compute in E. apply bind_Ok in E as (cur & Ec & E).
      destruct (dynamic_index_Ok n T _ _ _ R Ec). destruct (s_rg s); [|discriminate].
      rewrite (mapM_length _ _ _ E). assumption.
    - unfold kim_compute, compute_kinematics_infeasibility, compute_inverse, two_frames in E.
      apply bind_Ok in E as (y & E & H). injection H as <-.
      apply bind_Ok in E as (ps & E & H). injection H as <-. rewrite !map_length.
      apply bind_Ok in E as (sl & E & H). rewrite (mapM_length _ _ _ H).
      destruct (dynamic_slice_Ok n T _ _ _ _ R E) as [[L' _] _]. exact L'.
  Qed.

  Lemma linear_reward_length n reg rewards s mask r : length mask = n ->
    (forall name m v, lookup name reg = Some m -> m s = Ok v -> sized n v) ->
    linear_reward reg rewards s mask = Ok r -> length r = n.
  Proof.
    intros LM H E. unfold linear_reward in E. apply bind_Ok in E as (all & Ea & E).
    destruct (run_metrics_Ok _ _ _ _ Ea) as [_ V].
    destruct (reward_total n reg s rewards mask LM) as (r' & Er & L).
    { intros name Hin. destruct (V name Hin) as (m & v & A & B & _). exists m, v. eauto. }
    unfold linear_reward in Er. rewrite Ea in Er. cbn [bind] in Er. rewrite E in Er. now injection Er as <-.
  Qed.

  Lemma base_reward_length n T (e : benv) s r : wf_state n T s -> c_max_num_objects (be_cfg e) = n ->
    base_reward initial_registry e s = Ok r -> length r = n.
  Proof.
    intros W En H. unfold base_reward in H. destruct (be_compute_reward e).
    - apply bind_Ok in H as (mask & Hm & H). eapply linear_reward_length; [|intros; eapply builtin_sized; eauto|exact H].
      rewrite map_length. destruct W as (_ & _ & Lm & _). unfold get_control_mask in Hm.
      destruct (c_controlled (be_cfg e)); injection Hm as <- || discriminate; now rewrite map_length.
    - injection H as <-. now rewrite repeat_length.
  Qed.
End Reward.

Section Inv.
  Context {Sc St A O M R RA : Type}.
  Variable env : aenv Sc St A O M R.
  Variable raw_reward : St -> RA -> res R.
  Variable to_action : St -> RA -> res A.
  Variable Q : Sc -> Prop.
  Variable P : St -> Prop.
  Hypothesis HR : forall sc s, Q sc -> ae_reset env sc = Ok s -> P s.
  Hypothesis HS : forall s a s', P s -> ae_step env s a = Ok s' -> P s'.

  (** Every returned time step observes a state satisfying the invariant and is
      rewarded for one. *)
  Definition good_ts (ts : dm_timestep O R) : Prop :=
    exists s, P s /\ ae_observe env s = Ok (ts_obs ts) /\
      forall r, ts_reward ts = Some r -> exists s0 a, P s0 /\ raw_reward s0 a = Ok r.

  Lemma dm_run_good h : forall w, Forall Q (dm_data w) -> (forall s, dm_cur w = Some s -> P s) ->
    forall ts, In (Ok ts) (snd (dm_run env raw_reward to_action w h)) -> good_ts ts.
  Proof.
    induction h as [|c h IH]; intros w D C ts Hin; [destruct Hin|].
    cbn [dm_run] in Hin. destruct (dm_call env raw_reward to_action w c) as [w1 r1] eqn:E1.
    destruct (dm_run env raw_reward to_action w1 h) as [w2 rs] eqn:E2. cbn [snd] in Hin.
    assert (G : Forall Q (dm_data w1) /\ (forall s, dm_cur w1 = Some s -> P s) /\ (forall ts, r1 = Ok ts -> good_ts ts)).
    { destruct c as [|a]; cbn [dm_call] in E1.
      - unfold dm_reset in E1. destruct (dm_data w) as [|sc rest] eqn:Ed.
        { injection E1 as <- <-. rewrite Ed. split; [constructor|]. split; [exact C|discriminate]. }
        inversion D as [|? ? Hq D']; subst.
        destruct (ae_reset env sc) as [s|x] eqn:Er.
        + assert (Ps := HR sc s Hq Er). destruct (ae_is_done env s).
          * injection E1 as <- <-. cbn. split; [exact D'|]. split; [intros s' [= <-]; exact Ps | discriminate].
          * injection E1 as <- <-. cbn. split; [exact D'|]. split; [intros s' [= <-]; exact Ps|].
            intros t Ht. destruct (ae_observe env s) as [o|] eqn:Eo; [|discriminate]. injection Ht as <-.
            exists s. split; [exact Ps|]. split; [exact Eo | discriminate].
        + injection E1 as <- <-. cbn. split; [exact D'|]. split; [exact C | discriminate].
      - unfold dm_step in E1. destruct (negb (dm_initialized w)).
        { injection E1 as <- <-. split; [exact D|]. split; [exact C | discriminate]. }
        destruct (dm_done w). { injection E1 as <- <-. split; [exact D|]. split; [exact C | discriminate]. }
        destruct (dm_cur w) as [s|] eqn:Ec.
        2: { injection E1 as <- <-. split; [exact D|]. split; [rewrite Ec; exact C | discriminate]. }
        assert (Ps := C s eq_refl).
        destruct (raw_reward s a) as [r|x] eqn:Er; cbn [bind] in E1.
        2: { injection E1 as <- <-. split; [exact D|]. split; [rewrite Ec; exact C | discriminate]. }
        destruct (to_action s a) as [b|x]; cbn [bind] in E1.
        2: { injection E1 as <- <-. split; [exact D|]. split; [rewrite Ec; exact C | discriminate]. }
        destruct (ae_step env s b) as [s'|x] eqn:Es; cbn [bind] in E1.
        2: { injection E1 as <- <-. split; [exact D|]. split; [rewrite Ec; exact C | discriminate]. }
        assert (Ps' := HS s b s' Ps Es).
        assert (K : forall t ty d, (let* o := ae_observe env s' in Ok (mkdts ty (Some r) d o)) = Ok t -> good_ts t).
        { intros t ty d Ht. destruct (ae_observe env s') as [o|] eqn:Eo; [|discriminate]. injection Ht as <-.
          exists s'. split; [exact Ps'|]. split; [exact Eo|]. intros r' [= <-]. eauto. }
        cbv zeta in E1. destruct (forallb _ _).
        { injection E1 as <- <-. cbn. split; [exact D|]. split; [intros s0 [= <-]; exact Ps' | intros t Ht; eapply K; eauto]. }
        destruct (existsb _ _).
        { injection E1 as <- <-. cbn. split; [exact D|]. split; [intros s0 [= <-]; exact Ps' | discriminate]. }
        injection E1 as <- <-. cbn. split; [exact D|]. split; [intros s0 [= <-]; exact Ps' | intros t Ht; eapply K; eauto]. }
    destruct G as (D1 & C1 & G). destruct Hin as [Hin|Hin]; [now apply G|].
    apply (IH w1 D1 C1). now rewrite E2.
  Qed.
End Inv.

Section Obs.
  Context {S : Scalar}.

  (** [n] objects, [T] steps, and the other arrays shaped like those of [s0]. *)
  Definition like (n T : nat) (s0 s : state) : Prop :=
    wf_state n T s /\ shape2 (s_tls s) = shape2 (s_tls s0) /\
    option_map (fun ps => shape2 (map path_pts ps)) (s_paths s) = option_map (fun ps => shape2 (map path_pts ps)) (s_paths s0) /\
    option_map (@length _) (s_rg s) = option_map (@length _) (s_rg s0).

  Lemma rect_shape2 {B} n T (m : list (list B)) : rect n T m -> 0 < n -> shape2 m = [n; T].
  Proof.
    intros [L R] Hn. unfold shape2. rewrite L. destruct m as [|r m]; [simpl in L; lia|]. now rewrite (R r (or_introl eq_refl)).
  Qed.

  Lemma like_leaves n T s0 s s' : like n T s0 s -> like n T s0 s' -> state_leaves s = state_leaves s'.
  Proof.
    intros (W & A & B & C) (W' & A' & B' & C'). unfold state_leaves.
    destruct W as (R1 & R2 & Lm & Hn & _), W' as (R1' & R2' & Lm' & _ & _).
    rewrite (rect_shape2 _ _ _ R1 Hn), (rect_shape2 _ _ _ R2 Hn), (rect_shape2 _ _ _ R1' Hn), (rect_shape2 _ _ _ R2' Hn).
    rewrite Lm, Lm', A, A'. f_equal. f_equal.
    - rewrite <- B' in B. destruct (s_paths s), (s_paths s'); try discriminate B; [|reflexivity].
      cbn [option_map] in B. congruence.
    - rewrite <- C' in C. destruct (s_rg s), (s_rg s'); try discriminate C; [|reflexivity].
      cbn [option_map] in C. congruence.
  Qed.

  Lemma like_same n T s0 s s' : like n T s0 s -> wf_state n T s' -> same_scenario s s' -> like n T s0 s'.
  Proof.
    intros (_ & A & B & C) W (_ & E1 & _ & E2 & E3). split; [exact W|]. now rewrite E1, E2, E3.
  Qed.

  Lemma reset_like n T c s0 s s' : scenario_like n T s0 s -> env_reset c s = Ok s' -> like n T s0 s'.
  Proof.
    intros ((R & Lm & Hn & HT) & A & B & C) H. pose proof (env_reset_wf n T c s s' R Lm Hn HT H) as W.
    destruct (env_reset_Ok n T c s s' R Hn H) as (_ & _ & _ & (_ & E1 & _ & E2 & E3) & _).
    split; [exact W|]. now rewrite E1, E2, E3.
  Qed.

  Lemma step_like n T d c s0 s a s' : like n T s0 s -> env_step d c s a = Ok s' -> like n T s0 s'.
  Proof.
    intros L H. pose proof L as (W & _). apply (like_same n T s0 s); [exact L | eapply env_step_wf; eauto |].
    destruct (env_step_Ok _ _ _ _ _ _ _ W H) as (mask & cur & us & nxt & _ & _ & _ & _ & _ & _ & _ & _ & _ & _ & _ & SC & _).
    exact SC.
  Qed.

  Lemma base_conform {RA} (e : benv) n T (to_action : state -> RA -> res (list act)) s0 data w h :
    c_max_num_objects (be_cfg e) = n -> c_init_steps (be_cfg e) <= T ->
    Forall (scenario_like n T s0) (s0 :: data) -> make_dm (s0 :: data) = Ok w ->
    exists spec, dm_observation_spec (base_env initial_registry e) state_leaves w = Ok spec /\
      forall ts, In (Ok ts) (snd (dm_run (base_env initial_registry e) (fun s _ => base_reward initial_registry e s) to_action w h)) ->
        state_leaves (ts_obs ts) = spec /\
        forall r, ts_reward ts = Some r -> length r = n.
  Proof.
    intros En Hi D Hw. injection Hw as <-. inversion D as [|? ? L0 D']; subst.
    pose proof L0 as ((R & Lm & Hn & HT) & _).
    destruct (env_reset_total (c_max_num_objects (be_cfg e)) T (be_cfg e) s0 R eq_refl Hi) as [s1 E1].
    unfold dm_observation_spec. cbn [dm_sample base_env ae_reset ae_observe]. rewrite E1. cbn [bind].
    eexists. split; [reflexivity|]. intros ts Hin.
    destruct (dm_run_good (base_env initial_registry e) (fun s _ => base_reward initial_registry e s) to_action
      (scenario_like (c_max_num_objects (be_cfg e)) T s0) (like (c_max_num_objects (be_cfg e)) T s0)) with (h := h) (w := mkdm (St := state) data s0 None false false) (ts := ts)
      as (s & Ps & Eo & Er); auto.
    - intros sc s Hs Hr. exact (reset_like _ _ _ _ _ _ Hs Hr).
    - intros s a s' Hs Hr. exact (step_like _ _ _ _ _ _ _ _ Hs Hr).
    - discriminate.
    - cbn in Eo. injection Eo as <-. split.
      + eapply like_leaves; [exact Ps | eapply reset_like; eauto].
      + intros r Hr. destruct (Er r Hr) as (s2 & _ & (W & _) & E2). eapply base_reward_length; eauto.
  Qed.
End Obs.
