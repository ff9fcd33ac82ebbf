(** C72: the scenarios of a batch are independent in the planning environment, with its sim
    agents, metrics, reward and expert.
    [scenario s b] (Spec/BatchSpec.v) is the single scenario at batch index [b],
    [pscenario part ps b] (Spec/BatchPlanSpec.v) the planning state of that scenario, where
    [part] reads off what a sim agent remembers of it, and [alone f inv e ags] the
    environment for single scenarios with the same settings. *)
From Coq Require Import String.
From Coq Require Import List ZArith QArith Bool Lia.
From Verif.Lib Require Import Base JaxIndex Scalar QScalar.
From Verif.Model Require Import Operations State Dynamics Dyn_State Dyn_Delta Dyn_Bicycle BaseEnv Geometry
  Discretizer Comfort Metrics Expert Actor Waypoint PlanningEnv Batch BatchMetrics BatchAgents BatchPlanning.
From Verif.Spec Require Import StateSpec BatchSpec BatchPlanSpec.
From Verif.Proofs Require Import Core P_Batch P_BatchMetrics P_BatchSdc P_BatchReward P_BatchAgents P_BatchPlanning.
From Verif.Props Require Import C60.
Import ListNotations.
Local Open Scope nat_scope.

(** The metrics of the initial registry. *)
Definition shipped_metric (name : string) : Prop :=
  In name ["log_divergence"; "overlap"; "offroad"; "kinematic_infeasibility";
           "sdc_wrongway"; "sdc_progression"; "sdc_off_route"]%string.

(** The update of one object succeeds on actions of [w] columns. *)
Definition accepts {S : Scalar} (f : act -> pt -> res upd) (w : nat) : Prop :=
  forall a p, length (a_data a) = w -> exists u, f a p = Ok u.

Section C72.
  Context {S : Scalar} {P X XB K : Type}.
  Variable part : XB -> list nat -> X.
  Variable split : K -> nat -> nat -> K.

  (** Sim agents for the trajectories of all models shipped: the frozen, the IDM and the
      constant-speed policies, and the expert and constant-speed actors with the dynamics
      that the environment steps with. *)
  Inductive shipped_agent (T : nat) (none : XB) (none' : X) (bc : bstate -> arr bool) (c : state -> list bool)
    : bactor P XB K -> actor P X K -> Prop :=
  | AgFrozen : shipped_agent T none none' bc c
      (b_sim_agent none bc b_frozen_update) (sim_agent none' c frozen_update)
  | AgIDM p : (lookahead_from_current_position p = false -> 1 <= max_lookahead p <= T) ->
      shipped_agent T none none' bc c (b_sim_agent none bc (b_idm_policy p)) (sim_agent none' c (idm_policy p))
  | AgSpeed v : shipped_agent T none none' bc c
      (b_sim_agent none bc (b_constant_speed_policy v)) (sim_agent none' c (constant_speed_policy v))
  | AgExpert : shipped_agent T none none' bc c
      (b_expert_actor none b_state_inverse bc) (expert_actor none' StateDynamics c)
  | AgConstant v : shipped_agent T none none' bc c
      (b_constant_speed_actor none b_state_inverse bc v) (constant_speed_actor none' StateDynamics c v).

  (** Each acts in every scenario as it would in that scenario alone, whatever objects it
      controls. *)
  Theorem C72_agents B n T none none' bc c ba a : 0 < T ->
    (forall b, inside B b -> part none b = none') -> choice_of B n T bc c ->
    shipped_agent T none none' bc c ba a -> agent_of part B n T ba a.
  Proof.
    intros HT Hn Hc []; [apply sim_agent_of; auto..|apply expert_agent_of; auto|apply constant_agent_of; auto].
    - now apply frozen_updates.
    - now apply idm_updates.
    - now apply constant_updates.
    - apply state_inverse_of.
    - apply state_inverse_of.
  Qed.
  Theorem C72_choices B n T :
    choice_of B n T b_control_non_sdc control_non_sdc /\ choice_of B n T b_control_sdc control_sdc.
  Proof. split; [apply non_sdc_choice|apply sdc_choice]. Qed.

  (** The dynamics of the planner. *)
  Theorem C72_dynamics d f bi w : shipped d f bi w ->
    d = mkdyn (per_object f) (d_inverse d) /\ accepts f w /\ forall B n, inverse_of B n w bi (d_inverse d).
  Proof.
    intros []; (split; [reflexivity|split]).
    - intros a p. apply state_update_ok.
    - intros. apply state_inverse_of.
    - intros [d0 v] p E; cbn [a_data] in E; unfold delta_global_update; cbn [a_data].
      destruct d0 as [|x0 [|x1 [|x2 [|x3 d0]]]]; simpl in E; try lia. eauto.
    - intros. apply global_inverse_of.
    - intros [d0 v] p E; cbn [a_data] in E; unfold delta_local_update; cbn [a_data].
      destruct d0 as [|x0 [|x1 [|x2 [|x3 d0]]]]; simpl in E; try lia. unfold delta_global_update. simpl. eauto.
    - intros. apply local_inverse_of.
    - intros [d0 v] p E; cbn [a_data] in E; unfold bicycle_update; cbn [a_data].
      destruct d0 as [|x0 [|x1 [|x2 d0]]]; simpl in E; try lia. simpl. eauto.
    - intros. apply bicycle_inverse_of.
  Qed.

  (** reset. *)
  Theorem C72_reset B n T f inv (e : bpenv P XB K) ags s k :
    loaded_batch B n T s -> 0 < n -> c_max_num_objects (bp_cfg e) = n -> c_init_steps (bp_cfg e) <= T ->
    Forall2 (agent_of part B n T) (bp_agents e) ags ->
    exists ps, b_penv_reset split e s k = Ok ps /\
      running B n T (bp_state ps) /\ length (bp_actors ps) = length (bp_agents e) /\
      forall b, inside B b ->
        penv_reset split (alone f inv e ags) (scenario s b) k = Ok (pscenario part ps b).
  Proof. exact (b_penv_reset_eq part split B n T f inv e ags s k). Qed.

  (** step, from any state that reset or another step leaves. *)
  Theorem C72_step B n T w f inv (e : bpenv P XB K) ags ps a k :
    running B n T (bp_state ps) -> 0 < T -> bp_dyn e = b_elementwise f -> accepts f w ->
    planner_actions B w a -> Forall2 (agent_of part B n T) (bp_agents e) ags ->
    length (bp_params e) = length (bp_agents e) -> length (bp_actors ps) = length (bp_agents e) ->
    exists ps', b_penv_step split e ps a k = Ok ps' /\
      running B n T (bp_state ps') /\ length (bp_actors ps') = length (bp_agents e) /\
      forall b, inside B b ->
        penv_step split (alone f inv e ags) (pscenario part ps b) (cell a b) k = Ok (pscenario part ps' b).
  Proof. exact (b_penv_step_eq part split B n T w f inv e ags ps a k). Qed.

  (** A whole episode. *)
  Theorem C72_episode B n T w f inv (e : bpenv P XB K) ags s k acts :
    loaded_batch B n T s -> 0 < n -> 0 < T ->
    c_max_num_objects (bp_cfg e) = n -> c_init_steps (bp_cfg e) <= T ->
    bp_dyn e = b_elementwise f -> accepts f w ->
    Forall2 (agent_of part B n T) (bp_agents e) ags -> length (bp_params e) = length (bp_agents e) ->
    Forall (fun ak => planner_actions B w (fst ak)) acts ->
    exists ps ps', b_penv_reset split e s k = Ok ps /\ b_penv_steps split e ps acts = Ok ps' /\
      running B n T (bp_state ps') /\
      forall b, inside B b -> exists p0,
        penv_reset split (alone f inv e ags) (scenario s b) k = Ok p0 /\
        penv_steps split (alone f inv e ags) p0 (map (fun ak => (cell (fst ak) b, snd ak)) acts)
        = Ok (pscenario part ps' b).
  Proof.
    intros W Hn HT Hc Hi Hd Ha HA Hp Hacts.
    destruct (C72_reset B n T f inv e ags s k W Hn Hc Hi HA) as (ps & H1 & R1 & L1 & E1).
    destruct (b_penv_steps_eq part split B n T w f inv e ags acts HT Hd Ha Hacts HA Hp ps R1 L1) as (ps' & H2 & R2 & L2 & E2).
    exists ps, ps'. split; [exact H1|]. split; [exact H2|]. split; [exact R2|]. intros b I.
    exists (pscenario part ps b). split; [exact (E1 b I)|exact (E2 b I)].
  Qed.

  (** Hence what becomes of a scenario depends neither on the batch it is in, nor on its
      place there, nor on what the other planners do. *)
  Theorem C72_independence B B' n T w f (e : bpenv P XB K) ags s s' k acts acts' b b' :
    loaded_batch B n T s -> loaded_batch B' n T s' -> 0 < n -> 0 < T ->
    c_max_num_objects (bp_cfg e) = n -> c_init_steps (bp_cfg e) <= T ->
    bp_dyn e = b_elementwise f -> accepts f w ->
    Forall2 (agent_of part B n T) (bp_agents e) ags -> Forall2 (agent_of part B' n T) (bp_agents e) ags ->
    length (bp_params e) = length (bp_agents e) ->
    Forall (fun ak => planner_actions B w (fst ak)) acts -> Forall (fun ak => planner_actions B' w (fst ak)) acts' ->
    inside B b -> inside B' b' ->
    scenario s b = scenario s' b' ->
    map (fun ak => (cell (fst ak) b, snd ak)) acts = map (fun ak => (cell (fst ak) b', snd ak)) acts' ->
    exists p1 p1' p2 p2',
      b_penv_reset split e s k = Ok p1 /\ b_penv_steps split e p1 acts = Ok p2 /\
      b_penv_reset split e s' k = Ok p1' /\ b_penv_steps split e p1' acts' = Ok p2' /\
      pscenario part p2 b = pscenario part p2' b'.
  Proof.
    intros W W' Hn HT Hc Hi Hd Ha HA HA' Hp A A' I I' Es Ea.
    pose (inv := fun (_ : traj) (_ : list meta) (_ : Z) => @Err (list act) ValueError).
    destruct (C72_episode B n T w f inv e ags s k acts W Hn HT Hc Hi Hd Ha HA Hp A) as (p1 & p2 & H1 & H2 & _ & E).
    destruct (C72_episode B' n T w f inv e ags s' k acts' W' Hn HT Hc Hi Hd Ha HA' Hp A') as (p1' & p2' & H1' & H2' & _ & E').
    exists p1, p1', p2, p2'. do 4 (split; [assumption|]).
    destruct (E b I) as (x & X1 & X2). destruct (E' b' I') as (y & Y1 & Y2). rewrite Es, Y1 in X1. injection X1 as <-.
    rewrite Ea, Y2 in X2. symmetry. exact (f_equal (fun r => match r with Ok v => v | Err _ => pscenario part p2 b end) X2).
  Qed.

  (** The metrics of the environment have one result per scenario, its own. *)
  Theorem C72_metrics B n T m p k f inv (e : bpenv P XB K) ags ps :
    running B n T (bp_state ps) -> 0 < n -> 2 <= T ->
    has_roadgraph B m (bp_state ps) -> 0 < m -> has_paths B p k (bp_state ps) -> 0 < p -> 0 < k ->
    (forall name, In name (bp_metrics e) -> shipped_metric name) ->
    exists all, b_penv_metrics b_initial_registry e ps = Ok all /\
      (forall name v, In (name, v) all -> dims v = B) /\
      (forall name, In name (bp_metrics e) <-> In name (map fst all)) /\
      forall b, inside B b ->
        penv_metrics initial_registry (alone f inv e ags) (pscenario part ps b)
        = Ok (map (fun r => (fst r, Scalar0 (cell (snd r) b))) all).
  Proof.
    intros R Hn HT Hr Hm Hp Lp Lk H. eapply b_penv_metrics_eq; [exact R|]. apply Forall_forall. intros name Hi.
    apply H in Hi. destruct R as [W Dt].
    assert (Ho : object_metric name -> of_objects name = true ->
      named_entry B n (bp_state ps) b_initial_registry initial_registry of_objects name).
    { intros O Eo. destruct (object_named B n T m _ name W Dt HT Hr Hm O) as (f0 & g & L1 & L2 & x & H1 & H2 & H3).
      exists f0, g, x. rewrite Eo. auto. }
    assert (Hs : forall f0 g, sdc_metric name f0 g -> of_objects name = false ->
      named_entry B n (bp_state ps) b_initial_registry initial_registry of_objects name).
    { intros f0 g O Eo. destruct (sdc_lookup name f0 g O) as [L1 L2].
      destruct (C60_sdc_metrics B n T p k _ name f0 g W Hn ltac:(lia) Hp Lp Lk O) as (x & H1 & H2 & H3).
      exists f0, (fun s => let* m := g s in Ok (Scalar0 m)), x. rewrite Eo, app_nil_r.
      split; [exact L1|]. split; [exact L2|]. split; [exact H1|]. split; [exact H2|].
      intros b I. now rewrite H3. }
    destruct Hi as [<-|[<-|[<-|[<-|[<-|[<-|[<-|[]]]]]]]].
    1-4: apply Ho; [unfold object_metric; cbn [In]; tauto|reflexivity].
    - eapply Hs; [constructor|reflexivity].
    - eapply Hs; [constructor|reflexivity].
    - eapply Hs; [constructor|reflexivity].
  Qed.

  (** So is the reward, when it is made of object metrics ... *)
  Theorem C72_reward B n T m f inv (e : bpenv P XB K) ags ps :
    running B n T (bp_state ps) -> 2 <= T -> has_roadgraph B m (bp_state ps) -> 0 < m ->
    c_controlled (bp_cfg e) = SDC -> (forall r, In r (bp_rewards e) -> object_metric (fst r)) ->
    exists r, b_penv_reward b_initial_registry e ps = Ok r /\ dims r = B /\
      forall b, inside B b -> penv_reward initial_registry (alone f inv e ags) (pscenario part ps b) = Ok (cell r b).
  Proof.
    intros R HT Hr Hm Hc H. eapply b_penv_reward_eq; [exact R|exact Hc|]. apply Forall_forall. intros name Hn.
    apply in_map_iff in Hn as (r & <- & Hi). destruct R as [W Dt]. eapply object_named; eauto.
  Qed.

  (** ... but a reward with an SDC metric raises for most batches (and see the example
      below for those where it does not). *)
  Theorem C72_sdc_reward_raises_refuted B0 n T p k (e : bpenv P XB K) ps name f g w :
    running [B0] n T (bp_state ps) -> 0 < n -> 0 < T -> has_paths [B0] p k (bp_state ps) -> 0 < p -> 0 < k ->
    c_controlled (bp_cfg e) = SDC -> bp_compute_reward e = true -> bp_rewards e = [(name, w)] ->
    sdc_metric name f g -> B0 <> 1 -> n <> 1 -> B0 <> n ->
    b_penv_reward b_initial_registry e ps = Err TypeError.
  Proof.
    intros [W Dt] Hn HT Hp Lp Lk Hc Hb Hr HS N1 N2 N3. unfold b_penv_reward. rewrite Hb, Hc, Hr.
    cbn [b_get_control_mask bind]. pose proof W as (_ & _ & Dm & _).
    erewrite (C60_sdc_reward_raises_refuted B0 n T p k _ name f g w); eauto.
  Qed.

  (** The expert action of the planner, for each of the shipped dynamics. *)
  Theorem C72_expert B n T d f bi w s : shipped d f bi w -> running B n T s -> 0 < n -> 0 < T ->
    exists r, b_planning_expert bi s = Ok r /\ planner_actions B w r /\
      forall b, inside B b -> planning_expert d (scenario s b) = Ok (cell r b).
  Proof.
    intros H R Hn HT. destruct (C72_dynamics d f bi w H) as (Ed & _ & Hi).
    destruct (b_planning_expert_eq B n T w bi _ s (Hi B n) R Hn HT) as (r & H1 & H2 & H3).
    exists r. split; [exact H1|]. split; [exact H2|]. intros b I. rewrite Ed. now apply H3.
  Qed.

  (** The planner that repeats the expert stays among the actions accepted by [step]: the
      closed loop of a batch is that of its scenarios. *)
  Fixpoint b_expert_run (bi : binverse) (e : bpenv P XB K) (ps : bpstate XB) (ks : list (option K)) : res (bpstate XB) :=
    match ks with
    | [] => Ok ps
    | k :: ks' => let* a := b_planning_expert bi (bp_state ps) in
                  let* ps' := b_penv_step split e ps a k in b_expert_run bi e ps' ks'
    end.
  Fixpoint expert_run (d : dynamics) (e : penv P X K) (ps : pstate X) (ks : list (option K)) : res (pstate X) :=
    match ks with
    | [] => Ok ps
    | k :: ks' => let* a := planning_expert d (ps_state ps) in
                  let* ps' := penv_step split e ps a k in expert_run d e ps' ks'
    end.
  Theorem C72_expert_run B n T d f bi w (e : bpenv P XB K) ags ks :
    shipped d f bi w -> 0 < n -> 0 < T -> bp_dyn e = b_elementwise f ->
    Forall2 (agent_of part B n T) (bp_agents e) ags -> length (bp_params e) = length (bp_agents e) ->
    forall ps, running B n T (bp_state ps) -> length (bp_actors ps) = length (bp_agents e) ->
    exists ps', b_expert_run bi e ps ks = Ok ps' /\ running B n T (bp_state ps') /\
      forall b, inside B b ->
        expert_run d (alone f (d_inverse d) e ags) (pscenario part ps b) ks = Ok (pscenario part ps' b).
  Proof.
    intros H Hn HT Hd HA Hp. destruct (C72_dynamics d f bi w H) as (Ed & Ha & _).
    induction ks as [|k ks IH]; intros ps R L; cbn [b_expert_run expert_run].
    - exists ps. auto.
    - destruct (C72_expert B n T d f bi w _ H R Hn HT) as (a & H1 & W1 & E1).
      destruct (C72_step B n T w f (d_inverse d) e ags ps a k R HT Hd Ha W1 HA Hp L) as (ps1 & H2 & R2 & L2 & E2).
      destruct (IH ps1 R2 L2) as (ps' & H3 & R3 & E3). exists ps'. rewrite H1. cbn [bind]. rewrite H2. cbn [bind].
      split; [exact H3|]. split; [exact R3|]. intros b I.
      pose proof (E1 b I) as X1. cbn [pscenario ps_state]. rewrite X1. cbn [bind]. rewrite E2 by exact I. cbn [bind]. now apply E3.
  Qed.

  (** A batch whose scenarios have clocks of their own cannot be stepped. *)
  Theorem C72_own_clocks_refuted (e : bpenv P XB K) ps a k ps' :
    dims (b_t (bp_state ps)) <> [] -> b_penv_step split e ps a k <> Ok ps'.
  Proof. exact (b_penv_step_own_clock split e ps a k ps'). Qed.
End C72.

(* ---------------- a concrete batch ---------------- *)
#[local] Existing Instance QS.

(** The two scenarios of three objects and three steps of C60, the objects numbered; sim
    agents: IDM for all but the SDC, then the expert for object 2 (the later agent wins). *)
Definition exb_meta (i : list nat) : meta :=
  let sdc := (nth 1 i 0 =? 0) in mkmeta (Z.of_nat (nth 1 i 0)) 1 sdc true true false sdc.
Definition exb (k n : nat) : bstate :=
  let s := ex_batch k n (scalar 1%Z) in
  mkbs (b_sim s) (b_log s) (b_tls s) (mkA [k; n] exb_meta) (b_t s) (b_paths s) (b_rg s).
Definition exb_two (s : bstate) : arr bool := amap (fun m => m_id m =? 2)%Z (b_meta s).
Definition exb_two' (s : state) : list bool := map (fun m => m_id m =? 2)%Z (s_meta s).
Definition exb_env (n : nat) rewards metrics : bpenv (S := QS) unit unit unit :=
  mkbpenv (b_elementwise (delta_global_update delta_default)) (mkcfg n 1 SDC true) rewards metrics true
    [b_sim_agent tt b_control_non_sdc (b_idm_policy default_idm); b_expert_actor tt b_state_inverse exb_two]
    [tt; tt].
Definition exb_agents : list (actor (S := QS) unit unit unit) :=
  [sim_agent tt control_non_sdc (idm_policy default_idm); expert_actor tt StateDynamics exb_two'].
Definition exb_split (_ : unit) (_ _ : nat) : unit := tt.
Definition exb_part (_ : unit) (_ : list nat) : unit := tt.
(** The planner of scenario [b] moves [b + 3] meters. *)
Definition exb_acts (k : nat) : arr act := mkA [k] (fun b => mkact [ex_num (Z.of_nat (nth 0 b 0 + 3)); ex_num 0; ex_num 0] true).
Definition exb_names : list string :=
  ["log_divergence"; "overlap"; "offroad"; "kinematic_infeasibility";
   "sdc_wrongway"; "sdc_progression"; "sdc_off_route"]%string.

Lemma exb_choice B n T : choice_of (S := QS) B n T exb_two exb_two'.
Proof.
  intros s (_ & _ & D & _). split; [exact D|]. intros b I. unfold exb_two, exb_two'. cbn [scenario s_meta].
  now rewrite vector_amap.
Qed.

(** All hypotheses hold, for two and for any number of scenarios ... *)
Example C72_ex_hypotheses k n rewards metrics : 0 < n ->
  loaded_batch [k] n 3 (exb k n) /\ running [k] n 3 (exb k n) /\
  c_max_num_objects (bp_cfg (exb_env n rewards metrics)) = n /\
  accepts (delta_global_update delta_default) 3 /\ planner_actions [k] 3 (exb_acts k) /\
  Forall2 (agent_of exb_part [k] n 3) (bp_agents (exb_env n rewards metrics)) exb_agents /\
  length (bp_params (exb_env n rewards metrics)) = length (bp_agents (exb_env n rewards metrics)) /\
  has_roadgraph [k] 2 (exb k n) /\ has_paths [k] 1 2 (exb k n) /\ Forall shipped_metric exb_names.
Proof.
  intros Hn. split; [split; reflexivity|]. split; [split; [repeat split; now left|reflexivity]|]. split; [reflexivity|].
  split; [exact (proj1 (proj2 (C72_dynamics _ _ _ _ (ShippedGlobal delta_default))))|].
  split; [split; [reflexivity|]; intros; reflexivity|].
  split.
  { constructor; [|constructor; [|constructor]].
    - eapply (C72_agents exb_part [k] n 3 tt tt b_control_non_sdc control_non_sdc); [lia|reflexivity|apply C72_choices|].
      constructor. discriminate.
    - eapply (C72_agents exb_part [k] n 3 tt tt exb_two exb_two'); [lia|reflexivity|apply exb_choice|]. constructor. }
  split; [reflexivity|]. split; [eexists; split; reflexivity|]. split; [eexists; eexists; repeat split|].
  apply Forall_forall. intros x H. exact H.
Qed.

Definition exb_alone (b : nat) : res (pstate (S := QS) unit) :=
  let e := alone (delta_global_update delta_default) (delta_global_inverse delta_default) (exb_env 3 [] []) exb_agents in
  let* p0 := penv_reset exb_split e (scenario (exb 2 3) [b]) None in
  penv_steps exb_split e p0 (repeat (cell (exb_acts 2) [b], None) 2).
Definition exb_xs (ps : pstate (S := QS) unit) : list (list Q) :=
  map (map (fun p => Qred (p_x p))) (s_sim (ps_state ps)).

(** ... in which every scenario goes its own way: the planners move 3 and 4 meters per step,
    object 1 brakes behind object 2, which follows its log. *)
Example C72_ex_episode :
  exists ps ps', b_penv_reset exb_split (exb_env 3 [] []) (exb 2 3) None = Ok ps /\
    b_penv_steps exb_split (exb_env 3 [] []) ps (repeat (exb_acts 2, None) 2) = Ok ps' /\
    running [2] 3 3 (bp_state ps') /\
    exb_xs (pscenario exb_part ps' [0])
    = [[0; 3; 6]; [10; 1486001 # 147000; 225689299 # 22050000]; [20; 21; 22]]%Q /\
    exb_xs (pscenario exb_part ps' [1])
    = [[100; 104; 108]; [110; 16186001 # 147000; 2430689299 # 22050000]; [120; 121; 122]]%Q.
Proof.
  destruct (C72_ex_hypotheses 2 3 [] [] ltac:(lia)) as (W & _ & H1 & H2 & H3 & H4 & H5 & _).
  destruct (C72_episode exb_part exb_split [2] 3 3 3 (delta_global_update delta_default)
    (delta_global_inverse delta_default) (exb_env 3 [] []) exb_agents (exb 2 3) None (repeat (exb_acts 2, None) 2)
    W ltac:(lia) ltac:(lia) H1 ltac:(cbn; lia) eq_refl H2 H4 H5 ltac:(repeat constructor; exact H3))
    as (ps & ps' & E1 & E2 & R & E).
  exists ps, ps'. split; [exact E1|]. split; [exact E2|]. split; [exact R|].
  assert (G : forall i, i < 2 -> rmap exb_xs (exb_alone i) = Ok (exb_xs (pscenario exb_part ps' [i]))).
  { intros i Hi. destruct (E [i] ltac:(constructor; [exact Hi|constructor])) as (p0 & E3 & E4).
    unfold exb_alone. rewrite E3. cbn [bind]. cbn [repeat map fst snd] in E4 |- *. rewrite E4. reflexivity. }
  pose proof (G 0 ltac:(lia)) as G0. pose proof (G 1 ltac:(lia)) as G1.
  assert (L : forall A (x y : A), Ok x = Ok y -> y = x) by (intros A x y Q; inversion Q; reflexivity).
  split; apply L.
  - refine (eq_trans _ G0). vm_compute. reflexivity.
  - refine (eq_trans _ G1). vm_compute. reflexivity.
Qed.

Definition exb_ps (k n : nat) : bpstate (S := QS) unit := mkbps (exb k n) [tt; tt].

(** Divergence from the log: 1 and 2 meters; distance from the route: 0 and 98. *)
Example C72_ex_metrics :
  rmap (fun all => map (fun r => (fst r, dims (snd r), map (fun b => Qred (mr_value (cell (snd r) b))) [[0]; [1]])) all)
    (b_penv_metrics b_initial_registry (exb_env 3 [] ["log_divergence"; "sdc_wrongway"]%string) (exb_ps 2 3))
  = Ok [("log_divergence"%string, [2], [1; 2]%Q); ("sdc_wrongway"%string, [2], [0; 98]%Q)].
Proof. vm_compute. reflexivity. Qed.

(** With as many scenarios as objects a reward with an SDC metric does not raise; the
    planner of the second scenario is then charged the metric of the first. *)
Theorem C72_sdc_reward_crossed_refuted :
  exists (e : bpenv (S := QS) unit unit unit) ps r r',
    running [2] 2 3 (bp_state ps) /\ has_paths [2] 1 2 (bp_state ps) /\ c_controlled (bp_cfg e) = SDC /\
    b_penv_reward b_initial_registry e ps = Ok r /\ dims r = [2] /\
    penv_reward initial_registry (alone (delta_global_update delta_default) (delta_global_inverse delta_default) e exb_agents)
      (pscenario exb_part ps [1]) = Ok r' /\
    Qeq (cell r [1]) 0 /\ Qeq r' 98.
Proof.
  exists (exb_env 2 [("sdc_wrongway"%string, ex_num 1)] []), (exb_ps 2 2).
  eexists. eexists. split; [split; [repeat split; now left|reflexivity]|]. split; [eexists; eexists; repeat split|].
  split; [reflexivity|]. split; [reflexivity|]. split; [vm_compute; reflexivity|]. split; [vm_compute; reflexivity|].
  split; vm_compute; reflexivity.
Qed.

Print Assumptions C72_agents.
Print Assumptions C72_choices.
Print Assumptions C72_dynamics.
Print Assumptions C72_reset.
Print Assumptions C72_step.
Print Assumptions C72_episode.
Print Assumptions C72_independence.
Print Assumptions C72_metrics.
Print Assumptions C72_reward.
Print Assumptions C72_sdc_reward_raises_refuted.
Print Assumptions C72_sdc_reward_crossed_refuted.
Print Assumptions C72_expert.
Print Assumptions C72_expert_run.
Print Assumptions C72_own_clocks_refuted.
