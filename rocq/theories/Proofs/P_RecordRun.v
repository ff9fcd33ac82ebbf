(** Episodes of recorded scenarios. *)
From Coq Require Import String.
From Coq Require Import List ZArith Bool Arith Lia Permutation.
From Verif.Lib Require Import Base JaxIndex Scalar.
From Verif.Model Require Import Operations State Metrics Masked Womd WomdState Batch Dynamics Dyn_State BaseEnv Pipeline Loader Expert.
From Verif.Spec Require Import StateSpec DynSpec WomdSpec BatchSpec LoadSpec LoaderSpec RecordSpec.
From Verif.Proofs Require Import Core Episode P_Step P_Replay P_Actions P_Expert P_Batch P_Loader.
Import ListNotations.
Local Open Scope nat_scope.

Section RecordRun.
  Context {S : Scalar}.

  Lemma step_parts t : t < 91 -> exists part steps from k,
    In (part, steps, from) parts /\ k < steps /\ t = from + k /\ step_in t part steps k.
  Proof.
    intros Ht. destruct (Nat.lt_ge_cases t 10) as [H|H]; [|destruct (Nat.eq_dec t 10) as [->|N]].
    - exists "past"%string, 10, 0, t. repeat split; auto; [now left|]. left. auto.
    - exists "current"%string, 1, 10, 0. repeat split; auto; [right; now left|]. right. left. auto.
    - exists "future"%string, 80, 11, (t - 11). repeat split; try lia; [right; right; now left|].
      right. right. repeat split; lia.
  Qed.

  Lemma log_recorded n N paths e s i t p : scenario_of_record n N paths e s ->
    at2 (s_log s) i t = Some p -> recorded e i t p.
  Proof.
    intros (_ & R & Hf & _) Hp. destruct (at2_Some_lt _ _ _ _ _ _ R Hp) as [_ Ht].
    destruct (step_parts t Ht) as (part & steps & from & k & Hin & Hk & -> & Hs).
    exists part, steps, k. split; [exact Hs|]. eapply Hf; eauto.
  Qed.

  Lemma step_in_unique t part steps k part' steps' k' :
    step_in t part steps k -> step_in t part' steps' k' -> part = part' /\ steps = steps' /\ k = k'.
  Proof.
    unfold step_in. intros H H'. 
    destruct H as [(-> & -> & -> & ?)|[(-> & -> & -> & ?)|(-> & -> & ? & ?)]];
    destruct H' as [(-> & -> & -> & ?)|[(-> & -> & -> & ?)|(-> & -> & ? & ?)]]; repeat split; auto; lia.
  Qed.

  Lemma control_steered n N paths e s c i : scenario_of_record n N paths e s -> i < n ->
    1 <= c_init_steps c -> c_init_steps c <= 91 ->
    (in_control c s i <-> steered c e i).
  Proof.
    intros W Hi H1 H2. pose proof W as (_ & R & Hf & _ & _ & _ & _ & _ & _ & Ln & Ho & _).
    assert (Hm : exists m, nth_error (s_meta s) i = Some m).
    { destruct (nth_error (s_meta s) i) eqn:E; eauto. apply nth_error_None in E. lia. }
    destruct Hm as (m & Em). destruct (Ho i m Em) as (_ & _ & Hs & Ht & Hv & _ & _).
    assert (M : forall f, (exists m', nth_error (s_meta s) i = Some m' /\ f m' = true) <-> f m = true).
    { intros f. split; [intros (m' & E & F); congruence|eauto]. }
    assert (P : (exists p, at2 (s_log s) i (c_init_steps c - 1) = Some p /\ p_valid p = true) <-> present e i (c_init_steps c - 1)).
    { destruct (rect_at2 _ _ _ i (c_init_steps c - 1) R Hi) as (p & Ep); [lia|].
      destruct (log_recorded _ _ _ _ _ _ _ _ W Ep) as (part & steps & k & St & Fr).
      destruct Fr as (_ & _ & _ & _ & _ & _ & V & _). split.
      - intros (p' & E' & V'). rewrite Ep in E'. injection E' as <-.
        destruct (int_entry e (state_key part "valid") (i * steps + k)) as [z|] eqn:Ez; [|discriminate].
        exists part, steps, k, z. split; [exact St|]. split; [exact Ez|]. cbn in V. injection V as V. rewrite V' in V.
        unfold nonzero in V. apply negb_true_iff, Z.eqb_neq in V. exact V.
      - intros (part' & steps' & k' & z & St' & Ez & Nz). 
        destruct (step_in_unique _ _ _ _ _ _ _ St' St) as (-> & -> & ->). exists p. split; [exact Ep|].
        rewrite Ez in V. cbn in V. injection V as V. rewrite <- V. unfold nonzero. now apply negb_true_iff, Z.eqb_neq. }
    assert (One : forall z b, option_map is_one z = Some b -> (b = true <-> z = Some 1%Z)).
    { intros [z|] b E; [|discriminate]. cbn in E. injection E as <-. unfold is_one. rewrite Z.eqb_eq. split; congruence. }
    unfold in_control, steered. destruct (c_controlled c).
    - rewrite M. now apply One.
    - rewrite M. now apply One.
    - destruct (c_allow_new_objects c); [|exact P]. rewrite M.
      destruct (int_entry e "state/tracks_to_predict" i) as [z|]; [|discriminate]. cbn in Hv. injection Hv as <-.
      rewrite negb_true_iff, Z.eqb_neq. split; [eauto|]. intros (z' & E & N'). congruence.
    - tauto.
  Qed.

  (** Episodes succeed. *)
  Lemma env_steps_total n T d c acts ok : c_controlled c <> NON_SDC -> dyn_total d ok ->
    Forall (fun a => length a = n /\ Forall ok a) acts -> forall s, wf_state n T s ->
    exists s', env_steps d c s acts = Ok s'.
  Proof.
    intros Hc D. induction 1 as [|a acts [La Fa] _ IH]; intros s W; cbn [env_steps]; [eauto|].
    destruct (env_step_total n T d c s a ok W Hc D La Fa) as (s1 & H1). rewrite H1. cbn [bind].
    apply IH. eapply env_step_wf; eauto.
  Qed.

  Lemma run_episode_total n T d c s acts ok : wf_scenario n T s -> c_max_num_objects c = n ->
    c_init_steps c <= T -> c_controlled c <> NON_SDC -> dyn_total d ok ->
    Forall (fun a => length a = n /\ Forall ok a) acts -> exists s', run_episode d c s acts = Ok s'.
  Proof.
    intros (R & Lm & Hn & HT) Hm Hi Hc D F. unfold run_episode.
    destruct (env_reset_total n T c s R Hm Hi) as (s0 & H0). rewrite H0. cbn [bind].
    eapply env_steps_total; eauto. eapply env_reset_wf; eauto.
  Qed.

  Lemma in_scenarios B n N paths s b : loaded_shape B n N paths s -> inside B b -> In (scenario s b) (scenarios s).
  Proof.
    intros ((_ & _ & D & _) & _) I. unfold scenarios, b_shape. rewrite D.
    assert (E : removelast (B ++ [n]) = B) by apply removelast_last. rewrite E.
    apply in_map. now apply indices_inside.
  Qed.

  Lemma recorded_episode B n N paths s b e c f w acts :
    loaded_shape B n N paths s -> inside B b -> scenario_of_record n N paths e (scenario s b) -> 0 < n ->
    c_max_num_objects c = n -> c_controlled c <> NON_SDC -> 1 <= c_init_steps c -> c_init_steps c + length acts <= 91 ->
    column_checked f -> (forall a p, length (a_data a) = w -> exists u, f a p = Ok u) -> Forall (actions_of B n w) acts ->
    exists s', b_episode (b_elementwise f) c s acts = Ok s' /\ batch_of B n 91 s' /\
      let now := c_init_steps c + length acts in
      let sim := s_sim (scenario s' b) in
      clock (b_t s') b = (Z.of_nat now - 1)%Z /\
      (exists tr, b_truncation s' = Ok tr /\ (cell tr b = true <-> now = 91)) /\
      (forall i t, i < n -> t < now -> exists p, at2 sim i t = Some p /\
         (t < c_init_steps c -> recorded e i t p) /\
         (~ steered c e i -> recorded_pose e i t p) /\
         (exists q, recorded e i t q /\ p_ts p = p_ts q)) /\
      (forall i t, i < n -> now <= t < 91 -> exists p, at2 sim i t = Some p /\ p_valid p = false).
  Proof.
    intros HL I He Hn Hm Hc H1 H2 CC Hf Ha. pose proof He as (_ & R & _ & _ & _ & _ & _ & _ & _ & Lm & _).
    assert (LB : loaded_batch B n 91 s) by (destruct HL as ((_ & D2 & D3 & _) & _); split; assumption).
    assert (W : wf_scenario n 91 (scenario s b)) by (repeat split; auto; try apply R; lia).
    assert (HT : 0 < 91) by lia.
    set (d := mkdyn (per_object f) (fun _ _ _ => Err ValueError)).
    assert (D : dyn_total d (fun a => length (a_data a) = w)) by (apply per_object_total; exact Hf).
    assert (Fa : Forall (fun a => length a = n /\ Forall (fun a => length (a_data a) = w) a) (map (fun a => vector a b) acts)).
    { apply Forall_map. eapply Forall_impl; [|exact Ha]. intros a [Da Wa].
      assert (Lb : length b = length B) by (symmetry; exact (Forall2_len _ _ _ I)).
      assert (E : nth (length b) (dims a) 0 = n) by (rewrite Da, Lb, app_nth2, Nat.sub_diag by lia; reflexivity).
      unfold vector, tabulate. rewrite E. split; [now rewrite map_length, seq_length|].
      apply Forall_map, Forall_forall. intros i Hi. apply in_seq in Hi. apply Wa.
      apply Forall2_app; [exact I|]. constructor; [lia|constructor]. }
    destruct (run_episode_total n 91 d c (scenario s b) (map (fun a => vector a b) acts) _ W Hm ltac:(lia) Hc D Fa) as (s1 & Hs1).
    pose proof (b_episode_eq f (fun _ _ _ => Err ValueError) B n 91 w c s acts b LB Hn HT CC Ha I) as E.
    fold d in E. rewrite Hs1 in E.
    destruct (b_episode (b_elementwise f) c s acts) as [s'|x] eqn:Es; [|discriminate]. cbn [rmap] in E.
    assert (E1 : scenario s' b = s1) by congruence. clear E. exists s'. split; [reflexivity|].
    assert (WB : batch_of B n 91 s').
    { unfold b_episode in Es. apply bind_Ok in Es as (s0 & Hr & Es).
      destruct (b_reset_shape B n 91 c s s0 LB Hr) as [W0 Dt0].
      exact (proj1 (b_steps_shape f B n 91 w c s0 acts s' W0 Dt0 Hn HT CC Ha Es)). }
    split; [exact WB|]. intros now sim. 
    assert (Ll : length (map (fun a => vector a b) acts) = length acts) by apply map_length.
    destruct (clock_lemma n 91 d c (scenario s b) _ s1 W Hs1) as (Ct & _ & Ctr & _). rewrite Ll in Ct, Ctr.
    destruct (episode_basic n 91 d c (scenario s b) _ s1 W Hs1) as (_ & _ & _ & _ & Warm & Fut); [rewrite Ll; lia|].
    rewrite Ll in Fut. subst sim. rewrite E1. split; [|split; [|split]].
    - assert (Q : s_t (scenario s' b) = clock (b_t s') b) by reflexivity. rewrite <- Q, E1, Ct. unfold now. lia.
    - destruct (b_truncation_eq B n 91 s' WB Hn) as (tr & H & _ & Et). exists tr. split; [exact H|].
      rewrite (Et b I), E1, Ctr. unfold now. lia.
    - intros i t Hi Ht.
      destruct (timestamps_lemma n 91 d c (scenario s b) _ s1 i t W Hs1 H1 ltac:(rewrite Ll; lia) Hi ltac:(rewrite Ll; exact Ht))
        as (p & l & Hp & Hl & Hts).
      exists p. split; [exact Hp|]. pose proof (log_recorded _ _ _ _ _ _ _ _ He Hl) as Rl. split; [|split].
      + intros Hw. rewrite Warm in Hp by auto. rewrite Hl in Hp. injection Hp as <-. exact Rl.
      + intros Nd. assert (Nc : ~ in_control c (scenario s b) i).
        { intros Q. apply Nd. apply (control_steered n N paths e (scenario s b) c i He Hi H1) in Q; [exact Q|lia]. }
        destruct (replay_lemma n 91 d c (scenario s b) _ s1 i t W Hs1 H1 ltac:(rewrite Ll; lia) Hi Nc ltac:(rewrite Ll; exact Ht))
          as (p' & l' & Hp' & Hl' & Sp & St).
        rewrite Hp in Hp'. rewrite Hl in Hl'. injection Hp' as <-. injection Hl' as <-. exists l. auto.
      + exists l. auto.
    - intros i t Hi [Ht Ht']. exists invalid_pt. split; [apply Fut; auto|reflexivity].
  Qed.

  (** The expert, on any loaded scenario. *)
  Lemma recorded_expert n N paths s e c k :
    scenario_of_record n N paths e s -> 0 < n ->
    c_max_num_objects c = n -> c_controlled c <> NON_SDC -> 1 <= c_init_steps c -> c_init_steps c + k <= 91 ->
    exists s', run_policy StateDynamics c (infer_expert_action StateDynamics) s k = Ok s' /\
      forall i t, i < n -> t < c_init_steps c + k ->
        exists p, at2 (s_sim s') i t = Some p /\ recorded_pose e i t p.
  Proof.
    intros He Hn Hm Hc H1 H2. pose proof He as (_ & R & _ & _ & _ & _ & _ & _ & _ & Lm & _).
    assert (W : wf_scenario n 91 s) by (repeat split; auto; try apply R; lia).
    destruct (expert_runs n 91 c s k W Hm Hc H1 H2) as (s' & Hs). exists s'. split; [exact Hs|].
    intros i t Hi Ht. destruct (expert_replay n 91 c s k s' i t W Hs H1 H2 Hi Ht) as (p & l & Hp & Hl & Sp & St).
    exists p. split; [exact Hp|]. exists l. split; [eapply log_recorded; eauto|]. auto.
  Qed.

  Lemma Forall2_In_r {A B} (P : A -> B -> Prop) l l' y : Forall2 P l l' -> In y l' -> exists x, In x l /\ P x y.
  Proof.
    induction 1 as [|a b l l' Hab _ IH]; intros H; [contradiction|]. destruct H as [<-|H].
    - exists a. split; [now left|exact Hab].
    - destruct (IH H) as (x & Hx & HP). exists x. split; [now right|exact HP].
  Qed.

  (** Every loaded batch holds recorded scenarios. *)
  Lemma loaded_records {File} (records : File -> list serialized) py_shuffle c devices files count runs ys x s :
    (forall s (l : list File), Permutation (py_shuffle s l) l) ->
    standard_config c devices -> 1 <= count -> length runs = count ->
    (forall f s, In f files -> In s (records f) ->
       exists e, s = Some e /\ well_formed (dc_max_num_rg_points c) (wanted_paths c) e) ->
    (forall p ys x, nth_error runs p = Some (ys, x) ->
       simulator_state_generator records py_shuffle c devices files count p ys x) ->
    In (ys, x) runs -> In s ys ->
    let wanted := generator_batch_dims (dc_distributed c) devices (ld_batch_dims (dc_loader c)) in
    exists B, shape_within B wanted /\ (ld_drop (dc_loader c) = true -> B = wanted) /\
      loaded_shape B (kept (dc_max_num_objects c)) (dc_max_num_rg_points c) (wanted_paths c) s /\
      forall b, inside B b -> exists e, In (Some e) (flat_map records files) /\
        scenario_of_record (kept (dc_max_num_objects c)) (dc_max_num_rg_points c) (wanted_paths c) e (scenario s b).
  Proof.
    intros Hp Hs Hc Lr Hw Hg Hin Hy wanted.
    destruct (generator_all records py_shuffle c devices files count runs Hp Hs Hc Lr Hw Hg) as (F & es & rest & F2 & P & _).
    rewrite Forall_forall in F. destruct (F _ Hin) as [_ Fy]. cbn [fst] in Fy. rewrite Forall_forall in Fy.
    destruct (Fy s Hy) as (B & HB & HD & HL). exists B. split; [exact HB|]. split; [exact HD|]. split; [exact HL|].
    intros b I. assert (Q : In (scenario s b) (flat_map scenarios (concat (map fst runs)))).
    { apply in_flat_map. exists s. split; [|eapply in_scenarios; eauto].
      apply in_concat. exists ys. split; [|exact Hy]. apply in_map_iff. exists (ys, x). auto. }
    destruct (Forall2_In_r _ _ _ _ F2 Q) as (e & He & Hsc). exists e. split; [|exact Hsc].
    assert (Q2 : In (Some e) (concat (repeat (flat_map records files) (ld_repeat (dc_loader c))))).
    { eapply Permutation_in; [exact P|]. apply in_app_iff. left. now apply in_map. }
    apply in_concat in Q2 as (l & Hl & Hel). apply repeat_spec in Hl. now subst l.
  Qed.
End RecordRun.
