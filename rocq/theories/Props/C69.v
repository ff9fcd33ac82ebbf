(** C69: only the objects that are there matter.  Listing them in another order, or adding
    rows for objects that are never present (padding), changes nothing for the others. *)
From Coq Require Import Reals String List ZArith QArith Bool Lia.
From Verif.Lib Require Import Base JaxIndex Scalar XR QScalar.
From Verif.Model Require Import Operations State Dynamics BaseEnv Dyn_State Dyn_Delta Dyn_Bicycle Discretizer Comfort Metrics
  Observation Expert Waypoint Actor PlanningEnv.
From Verif.Spec Require Import StateSpec DynSpec ObsSpec MetricSpec MovedSpec RewardSpec AgentSpec PlanSpec EmbedSpec MovedPlanSpec EmbedReportSpec.
From Verif.Proofs Require Import Core P_Actions P_Config P_Offroad P_Metrics P_Route P_Observation P_OwnFrame P_Embed P_EmbedMore P_EmbedPlan P_EmbedReport.
From Verif.Props Require Import Ex.
Import ListNotations.
Local Open Scope nat_scope.

(** Every scene can be listed in every order, with any amount of padding. *)
Theorem C69_every_scene : forall {S : Scalar} n n' T f s, wf_state n T s -> places n n' f ->
  exists s', same_episode n n' T f s s'.
Proof. intros S. exact every_episode. Qed.

(** Reset. *)
Theorem C69_reset : forall {S : Scalar} n n' T f c c' s s', same_scene n n' T f s s' -> same_config n n' c c' ->
  c_init_steps c <= T ->
  exists r r', env_reset c s = Ok r /\ env_reset c' s' = Ok r' /\ same_episode n n' T f r r'.
Proof.
  intros S n n' T f c c' s s' SC CC Hi. pose proof SC as ((L & M & Hn & HT) & (L' & M' & Hn' & _) & _).
  pose proof CC as (C1 & C2 & C3 & _).
  destruct (env_reset_total n T c s L C1 Hi) as (r & Er). destruct (env_reset_total n' T c' s' L' C2 ltac:(lia)) as (r' & Er').
  exists r, r'. split; [exact Er|]. split; [exact Er'|]. eapply embed_reset; eauto.
Qed.

(** Steps and episodes, for every model whose update looks at one object at a time. *)
Theorem C69_episode : forall {S : Scalar} n n' T f d c c' s s' al al' r r', same_config n n' c c' -> dyn_local d ->
  same_episode n n' T f s s' -> Forall2 (same_actions n n' f) al al' ->
  env_steps d c s al = Ok r -> env_steps d c' s' al' = Ok r' -> same_episode n n' T f r r'.
Proof. intros. eapply embed_steps; eauto. Qed.

(** The four models and their discretised versions are such models. *)
Theorem C69_models : forall {S : Scalar},
  dyn_local StateDynamics /\ (forall q, dyn_local (DeltaGlobal q)) /\ (forall q, dyn_local (DeltaLocal q)) /\
  (forall q, dyn_local (InvertibleBicycleModel q)) /\
  forall w, dyn_local (dw_cont w) -> dyn_local (DiscreteActionSpaceWrapper w).
Proof.
  intros S. split; [apply per_object_local|]. split; [intros; apply per_object_local|]. split; [intros; apply per_object_local|].
  split; [intros; apply per_object_local|]. apply embed_discrete.
Qed.

(** Expert actions, for the four models and their discretised versions. *)
Theorem C69_expert : forall {S : Scalar} n n' T f d s s' a a', same_episode n n' T f s s' ->
  (let base d0 := d0 = StateDynamics \/ (exists q, d0 = DeltaGlobal q) \/ (exists q, d0 = DeltaLocal q) \/
                  exists q, d0 = InvertibleBicycleModel q in
   base d \/ exists w, base (dw_cont w) /\ d = DiscreteActionSpaceWrapper w) ->
  infer_expert_action d s = Ok a -> infer_expert_action d s' = Ok a' -> same_rows n f a a'.
Proof.
  intros S n n' T f d s s' a a' SE HD.
  assert (B : forall d0, d0 = StateDynamics \/ (exists q, d0 = DeltaGlobal q) \/ (exists q, d0 = DeltaLocal q) \/
      (exists q, d0 = InvertibleBicycleModel q) -> inverse_by_row d0 /\ dyn_local d0).
  { intros d0 [->|[(q & ->)|[(q & ->)|(q & ->)]]]; (split; [|apply C69_models || apply per_object_local]).
    - apply state_by_row.
    - apply global_by_row.
    - apply local_by_row.
    - apply bicycle_by_row. }
  apply (embed_expert n n' T f d s s' a a'); [|exact SE].
  destruct HD as [HD|(w & HD & ->)]; [apply B, HD|]. apply wrapper_by_row; apply B, HD.
Qed.

(** A closed loop: any way of choosing actions object by object drives the same episode. *)
Theorem C69_closed_loop : forall {S : Scalar} n n' T f d c c' pol s s' k r r', same_config n n' c c' -> dyn_local d ->
  (forall x x' a a', same_episode n n' T f x x' -> pol x = Ok a -> pol x' = Ok a' -> same_rows n f a a') ->
  same_episode n n' T f s s' -> policy_steps d c pol s k = Ok r -> policy_steps d c' pol s' k = Ok r' ->
  same_episode n n' T f r r'.
Proof.
  intros S n n' T f d c c' pol s s' k r r' CC DL HP. revert s s'. induction k as [|k IH]; intros s s' SE H H'; cbn [policy_steps] in H, H'.
  - apply Ok_inj in H, H'. now subst.
  - apply bind_Ok in H as (a & Ha & H). apply bind_Ok in H as (z & Hz & H).
    apply bind_Ok in H' as (a' & Ha' & H'). apply bind_Ok in H' as (z' & Hz' & H').
    eapply (IH z z'); eauto. eapply embed_step; eauto. destruct (episode_wf _ _ _ _ _ _ SE) as [W W'].
    assert (LA : forall N c0 x b y, wf_state N T x -> env_step d c0 x b = Ok y -> length b = N).
    { intros N c0 x b y WX HX. destruct (env_step_Ok _ _ _ _ _ _ _ WX HX) as (? & ? & ? & ? & ? & ? & _). assumption. }
    split; [eapply LA; eauto|]. split; [eapply LA; eauto|]. eapply HP; eauto.
Qed.

(** Metrics per object; those of padding rows are not valid, except that off-road is
    always reported as valid. *)
Theorem C69_metrics : forall {S : Scalar} n n' T f s s', same_episode n n' T f s s' ->
  let same ms ms' := same_rows n f ms ms' /\ forall j m, spare n n' f j -> nth_error ms' j = Some m -> mr_valid m = false in
  (exists ms ms', log_divergence_compute s = Ok ms /\ log_divergence_compute s' = Ok ms' /\ same ms ms') /\
  (exists ms ms', overlap_compute s = Ok ms /\ overlap_compute s' = Ok ms' /\ same ms ms') /\
  (forall k, 2 <= T -> exists ms ms', kim_compute k s = Ok ms /\ kim_compute k s' = Ok ms' /\ same ms ms') /\
  (forall rg, s_rg s = Some rg -> rg <> [] ->
     exists ms ms', offroad_compute s = Ok ms /\ offroad_compute s' = Ok ms' /\ same_rows n f ms ms').
Proof.
  intros S n n' T f s s' SE same. destruct (episode_wf _ _ _ _ _ _ SE) as [W W']. split; [|split; [|split]].
  - destruct (log_divergence_total _ _ _ W) as (ms & E). destruct (log_divergence_total _ _ _ W') as (ms' & E').
    exists ms, ms'. split; [auto|]. split; [auto|]. eapply embed_log_divergence; eauto.
  - destruct (overlap_total _ _ _ W) as (ms & E). destruct (overlap_total _ _ _ W') as (ms' & E').
    exists ms, ms'. split; [auto|]. split; [auto|]. eapply embed_overlap; eauto.
  - intros k HT. destruct (kim_total _ _ k _ W HT) as (ms & E & _). destruct (kim_total _ _ k _ W' HT) as (ms' & E' & _).
    exists ms, ms'. split; [auto|]. split; [auto|]. eapply embed_kim; eauto.
  - intros rg Hr Hn. pose proof SE as ((_ & _ & _ & _ & _ & _ & _ & _ & _ & ER) & _).
    destruct (proj1 (offroad_total _ _ _ _ W Hr) Hn) as (ms & E & _).
    destruct (proj1 (offroad_total _ _ _ _ W' (eq_trans ER Hr)) Hn) as (ms' & E' & _).
    exists ms, ms'. split; [auto|]. split; [auto|]. eapply embed_offroad; eauto.
Qed.

(** The SDC's route metrics, as long as the padding holds finite numbers. *)
Theorem C69_route : forall n n' T f s s' i cur cur', same_episode (S := XR) n n' T f s s' ->
  current_sim s = Ok cur -> current_sim s' = Ok cur' -> readable (s_meta s) cur i -> readable (s_meta s') cur' (f i) ->
  wrongway_compute s' = wrongway_compute s /\ off_route_compute s' = off_route_compute s /\
  forall fst0 fst0' lst lst',
     log_frame (s_log s) 0 = Ok fst0 -> log_frame (s_log s') 0 = Ok fst0' ->
     log_frame (s_log s) (num_timesteps (s_log s) - 1) = Ok lst ->
     log_frame (s_log s') (num_timesteps (s_log s') - 1) = Ok lst' ->
     readable (s_meta s) fst0 i -> readable (s_meta s') fst0' (f i) ->
     readable (s_meta s) lst i -> readable (s_meta s') lst' (f i) ->
     progression_compute s' = progression_compute s.
Proof. exact embed_route. Qed.

(** Rewards made of the metrics per object. *)
Theorem C69_reward : forall {S : Scalar} n n' T f s s' rewards mask mask' r r', same_episode n n' T f s s' ->
  (forall name, In name (map fst rewards) ->
     In name ["log_divergence"; "overlap"; "offroad"; "kinematic_infeasibility"]%string) ->
  length mask = n -> length mask' = n' -> same_rows n f mask mask' ->
  linear_reward initial_registry rewards s mask = Ok r -> linear_reward initial_registry rewards s' mask' = Ok r' ->
  same_rows n f r r'.
Proof.
  intros S n n' T f s s' rewards mask mask' r r' SE HN Lm Lm' MR. apply (embed_reward n n' f); auto.
  destruct (episode_wf _ _ _ _ _ _ SE) as [W W'].
  intros name g v v' Hin G E E'.
  destruct (HN name Hin) as [<-|[<-|[<-|[<-|[]]]]]; cbn in G; injection G as <-;
    apply bind_Ok in E as (l & El & E); apply bind_Ok in E' as (l' & El' & E'); apply Ok_inj in E, E'; subst v v'; cbn [same_measure];
    (split; [eapply sizes; eauto 6|split; [eapply sizes; eauto 6|]]).
  - eapply embed_log_divergence; eauto.
  - eapply embed_overlap; eauto.
  - eapply embed_offroad; eauto.
  - eapply embed_kim; eauto.
Qed.

(** What every object, and the SDC, sees. *)
Theorem C69_observation : forall {S : Scalar} n n' L T t f s s' k topk fr rg, same_episode n n' T f s s' ->
  obs_wf n L T t s -> k <= t + 1 -> s_rg s = Some rg -> topk <= length rg ->
  (fr = FRAME_SDC -> exists i, the_sdc (s_meta s) i) ->
  exists o o', observation_from_state s k topk fr = Ok o /\ observation_from_state s' k topk fr = Ok o' /\
    length o = n /\ length o' = n' /\
    forall i, i < n -> exists v v', nth_error o i = Some v /\ nth_error o' (f i) = Some v' /\ same_sight n n' f v v'.
Proof. intros S. exact embed_observation. Qed.

Theorem C69_sdc_observation : forall {S : Scalar} n n' L T t f s s' k topk fr rg i, same_episode n n' T f s s' ->
  obs_wf n L T t s -> k <= t + 1 -> s_rg s = Some rg -> topk <= length rg -> the_sdc (s_meta s) i ->
  exists v v', sdc_observation_from_state s k topk fr = Ok [v] /\ sdc_observation_from_state s' k topk fr = Ok [v'] /\
    same_sight n n' f v v' /\ same_rows n f (v_is_ego v) (v_is_ego v').
Proof. intros S. exact embed_sdc_observation. Qed.

(** The route-following agents: each object gets the same update; padding gets none. *)
Theorem C69_agents : forall n n' T f s s' u u', same_episode (S := XR) n n' T f s s' ->
  (exists v, constant_speed_policy v s = Ok u /\ constant_speed_policy v s' = Ok u') \/
  (exists p, idm_policy p s = Ok u /\ idm_policy p s' = Ok u') ->
  same_rows n f u u' /\ forall j x, spare n n' f j -> nth_error u' j = Some x -> u_valid x = false.
Proof.
  intros n n' T f s s' u u' SE [(v & H & H')|(p & H & H')].
  - eapply (embed_waypoint n n' T f); [exact SE| |exact H|exact H']. intros. eapply embed_constant_speed; eauto.
  - eapply (embed_waypoint n n' T f); [exact SE| |exact H|exact H']. intros. eapply embed_idm_speed; eauto.
Qed.

(** The planning environment: whole episodes, with the same planner actions and random
    keys, for any sim agents that treat the two listings alike, as long as the padding
    does not overlap an object at log step 0. *)
Theorem C69_planning : forall {S : Scalar} {P X K} (R : X -> X -> Prop) split n n' T f (e e' : penv P X K) s s' rng acts r r',
  same_planning R n n' T f e e' -> dyn_local (pe_dyn e) -> same_scene n n' T f s s' -> starts_clear n n' f s' ->
  run_planning split e s rng acts = Ok r -> run_planning split e' s' rng acts = Ok r' ->
  same_episode n n' T f (ps_state r) (ps_state r') /\ Forall2 R (ps_actors r) (ps_actors r').
Proof.
  intros S P X K R split n n' T f e e' s s' rng acts r r' SP DL SC CL H H'. unfold run_planning in H, H'.
  apply bind_Ok in H as (z & Hz & H). apply bind_Ok in H' as (z' & Hz' & H').
  destruct (embed_penv_reset R split n n' T f e e' s s' rng z z' SP SC Hz Hz') as (SE & HX & EL).
  eapply (embed_penv_steps R split n n' T f e e' acts SP DL z z'); eauto. intros i j p q Hi Hj. rewrite EL. now apply CL.
Qed.

(** A mere reordering has no padding. *)
Theorem C69_planning_reordered : forall {S : Scalar} n T f (s s' : state), same_scene n n T f s s' -> starts_clear n n f s'.
Proof.
  intros S n T f s s' (_ & _ & (P1 & P2) & _) i j p q Hi (Hj & N). exfalso.
  assert (IN : incl (map f (seq 0 n)) (seq 0 n)).
  { intros x Hx. apply in_map_iff in Hx as (k & <- & Hk). apply in_seq in Hk. apply in_seq. specialize (P1 k ltac:(lia)). lia. }
  assert (ND : NoDup (map f (seq 0 n))).
  { assert (forall l, (forall k, In k l -> k < n) -> NoDup l -> NoDup (map f l)) as G; [|apply G; [intros k Hk; apply in_seq in Hk; lia|apply seq_NoDup]].
    induction l as [|x l IH]; intros B D; [constructor|]. inversion D; subst. cbn [map]. constructor; [|apply IH; auto; intros; apply B; now right].
    intros Hx. apply in_map_iff in Hx as (y & E & Hy). apply P2 in E; [subst; auto|apply B; now right|apply B; now left]. }
  assert (In j (map f (seq 0 n))) as Hin.
  { refine (NoDup_length_incl (l' := seq 0 n) ND _ IN _ _); [rewrite map_length; auto|apply in_seq; lia]. }
  apply in_map_iff in Hin as (k & E & Hk). apply in_seq in Hk. exact (N k ltac:(lia) E).
Qed.

(** The shipped agents treat the two listings alike, with any choice of controlled objects
    that does. *)
Theorem C69_planning_agents : forall {P X K} n n' T f (none : X) (ct : state (S := XR) -> list bool),
  (forall s s', same_episode (S := XR) n n' T f s s' -> same_rows n f (ct s) (ct s')) ->
  let same := same_agent (S := XR) (P := P) (X := X) (K := K) eq n n' T f in
  same (sim_agent none ct frozen_update) (sim_agent none ct frozen_update) /\
  (forall v, same (sim_agent none ct (constant_speed_policy v)) (sim_agent none ct (constant_speed_policy v))) /\
  (forall p, same (idm_actor none ct p) (idm_actor none ct p)) /\
  forall d, d = StateDynamics \/ (exists q, d = DeltaGlobal q) \/ (exists q, d = DeltaLocal q) \/ (exists q, d = InvertibleBicycleModel q) ->
    same (expert_actor none d ct) (expert_actor none d ct) /\
    forall v, same (constant_speed_actor none d ct v) (constant_speed_actor none d ct v).
Proof.
  intros P X K n n' T f none ct HC same. split; [|split; [|split]].
  - apply sim_agent_same; [exact HC|]. intros. eapply embed_frozen; eauto.
  - intros v. apply sim_agent_same; [exact HC|]. intros s s' u u' SE H H'. eapply (proj1 (C69_agents n n' T f s s' u u' SE (or_introl (ex_intro _ v (conj H H'))))).
  - intros p. apply sim_agent_same; [exact HC|]. intros s s' u u' SE H H'. eapply (proj1 (C69_agents n n' T f s s' u u' SE (or_intror (ex_intro _ p (conj H H'))))).
  - intros d HD. assert (IR : inverse_by_row d).
    { destruct HD as [->|[(q & ->)|[(q & ->)|(q & ->)]]]; [apply state_by_row|apply global_by_row|apply local_by_row|apply bicycle_by_row]. }
    split; [now apply expert_agent_same|]. intros v. now apply speed_agent_same.
Qed.
Theorem C69_controlled_sets : forall {S : Scalar} n n' T f (s s' : state), same_episode n n' T f s s' ->
  same_rows n f (control_sdc s) (control_sdc s') /\ same_rows n f (control_non_sdc s) (control_non_sdc s').
Proof.
  intros S n n' T f s s' ((_ & _ & _ & _ & _ & TM & _) & _). unfold control_sdc, control_non_sdc.
  split; intros i Hi; rewrite !nth_error_map, TM; auto.
Qed.

(** What the planning environment reports is about the SDC alone: with any registry of
    metrics that say the same about it in both listings, the very same dictionary (or
    error). *)
Theorem C69_planning_metrics : forall {P X K} n n' T f reg (e e' : penv (S := XR) P X K) ps ps' i,
  same_episode (S := XR) n n' T f (ps_state ps) (ps_state ps') -> the_sdc (s_meta (ps_state ps)) i ->
  pe_metrics e' = pe_metrics e -> same_config n n' (pe_cfg e) (pe_cfg e') ->
  (forall name m, In name (pe_metrics e) -> lookup name reg = Some m ->
     alike (tells_same (s_meta (ps_state ps)) i (s_meta (ps_state ps')) (f i) name) (m (ps_state ps)) (m (ps_state ps'))) ->
  penv_metrics reg e' ps' = penv_metrics reg e ps.
Proof.
  intros P X K n n' T f reg e e' ps ps' i SE US Em (_ & _ & C3 & _) H. assert (ET : s_t (ps_state ps') = s_t (ps_state ps)) by apply SE.
  eapply listed_metrics with (i := i) (i' := f i); eauto. eapply listed_sdc; eauto.
Qed.

(** So is the reward, for all finite weights. *)
Theorem C69_planning_reward : forall {P X K} n n' T f reg (e e' : penv (S := XR) P X K) ps ps' i wt names,
  same_episode (S := XR) n n' T f (ps_state ps) (ps_state ps') -> the_sdc (s_meta (ps_state ps)) i ->
  c_controlled (pe_cfg e) = SDC -> c_controlled (pe_cfg e') = SDC -> pe_compute_reward e' = pe_compute_reward e ->
  pe_rewards e = map (fun name => (name, Fin (wt name))) names -> pe_rewards e' = pe_rewards e ->
  (forall name, In name names -> exists m v v', lookup name reg = Some m /\ m (ps_state ps) = Ok v /\ m (ps_state ps') = Ok v' /\
     counted_same (s_meta (ps_state ps)) i (s_meta (ps_state ps')) (f i) v v') ->
  penv_reward reg e' ps' = penv_reward reg e ps.
Proof.
  intros P X K n n' T f reg e e' ps ps' i wt names SE US C C' CR W W' H.
  eapply listed_reward with (i := i) (i' := f i); eauto. eapply listed_sdc; eauto.
Qed.

(** The shipped metrics are such metrics. *)
Theorem C69_planning_shipped : forall n n' T f s s' i name m, same_episode (S := XR) n n' T f s s' -> the_sdc (s_meta s) i ->
  lookup name initial_registry = Some m -> listing_comparable name s s' i (f i) ->
  alike (tells_same (s_meta s) i (s_meta s') (f i) name) (m s) (m s') /\
  (reported_for_sdc name -> exists v v', m s = Ok v /\ m s' = Ok v').
Proof. exact listed_shipped. Qed.

(** The planner's expert action: the SDC's, the same in both listings, as long as the
    expert actions of all rows are finite (padding included, see C52). *)
Theorem C69_planning_expert : forall n n' T f d (s s' : state (S := XR)) i (acts acts' : list (act (S := XR))) w,
  same_episode n n' T f s s' -> the_sdc (s_meta s) i ->
  (let base d0 := d0 = StateDynamics \/ (exists q, d0 = DeltaGlobal q) \/ (exists q, d0 = DeltaLocal q) \/
                  exists q, d0 = InvertibleBicycleModel q in
   base d \/ exists w0, base (dw_cont w0) /\ d = DiscreteActionSpaceWrapper w0) ->
  infer_expert_action d s = Ok acts -> infer_expert_action d s' = Ok acts' -> length acts = n -> length acts' = n' ->
  Forall (fun b : act (S := XR) => length (a_data b) = w /\ Forall finite (a_data b)) acts ->
  Forall (fun b : act (S := XR) => length (a_data b) = w /\ Forall finite (a_data b)) acts' ->
  exists a, nth_error acts i = Some a /\ planning_expert d s = Ok a /\ planning_expert d s' = Ok a.
Proof. intros. eapply listed_expert; eauto. eapply C69_expert; eauto. Qed.

(* ---------------- what does depend on the listing ---------------- *)

(** Two cars, the second moving and driven by an agent that freezes it; a padding row may
    hold a position, with number 1 that of the second car at the first step. *)
Definition pair_log (pad : option Z) : traj (S := QS) :=
  [[expt 0 0 true; expt 0 1 true]; [expt 1 0 true; expt 1 1 true]] ++
  match pad with Some z => [[expt z 0 false; expt z 0 false]] | None => [] end.
Definition pair_size (pad : option Z) : nat := match pad with Some _ => 3 | None => 2 end.
Definition pair_scene (pad : option Z) : state (S := QS) :=
  mkstate [] (pair_log pad) [] (firstn (pair_size pad) ex_meta) 0 None None.
Definition pair_env (pad : option Z) : penv (S := QS) unit unit unit :=
  mkpenv StateDynamics (mkcfg (pair_size pad) 1 SDC false) [] [] false
    [sim_agent tt control_non_sdc frozen_update] [tt].
Definition pair_run (pad : option Z) : res (pstate (S := QS) unit) :=
  run_planning (fun k _ _ => k) (pair_env pad) (pair_scene pad) None [(sact 1 0, None)].

Lemma pair_spare j : spare 2 3 (fun i => i) j -> j = 2.
Proof. intros (Hj & N). pose proof (N 0 ltac:(lia)). pose proof (N 1 ltac:(lia)). lia. Qed.
Lemma pair_same z : same_scene 2 3 2 (fun i => i) (pair_scene None) (pair_scene (Some z)).
Proof.
  split; [split; [apply rectb_spec; reflexivity|repeat split; auto]|].
  split; [split; [apply rectb_spec; reflexivity|repeat split; auto]|].
  split; [split; intros; lia|]. split.
  - intros [|[|i]] t Hi; [reflexivity|reflexivity|lia].
  - split.
    + intros j t x Hj E. apply pair_spare in Hj. subst j. destruct t as [|[|t]]; [| |destruct t; discriminate]; injection E as <-; reflexivity.
    + split; [intros [|[|i]] Hi; [reflexivity|reflexivity|lia]|]. split; [|repeat split].
      intros j m Hj E. apply pair_spare in Hj. subst j. injection E as <-. reflexivity.
Qed.
Lemma pair_planning z : same_planning eq 2 3 2 (fun i => i) (pair_env None) (pair_env (Some z)).
Proof.
  split; [reflexivity|]. split; [repeat split|]. split; [reflexivity|]. constructor; [|constructor].
  apply sim_agent_same; [intros s s' SE; now apply (C69_controlled_sets 2 3 2)|]. intros. eapply embed_frozen; eauto.
Qed.

(** The overlap check at log step 0 does not ask whether the objects are there: padding
    that overlaps a car makes the sim agents leave that car to the log. *)
Theorem C69_overlapping_padding_refuted :
  ~ forall (S : Scalar) P X K (R : X -> X -> Prop) split n n' T f (e e' : penv P X K) s s' rng acts r r',
      same_planning R n n' T f e e' -> dyn_local (pe_dyn e) -> same_scene n n' T f s s' ->
      run_planning split e s rng acts = Ok r -> run_planning split e' s' rng acts = Ok r' ->
      same_episode n n' T f (ps_state r) (ps_state r').
Proof.
  intros H.
  assert (E1 : pair_run None = Ok (get (mkps (pair_scene None) []) (pair_run None))) by (apply is_ok_get; vm_compute; reflexivity).
  assert (E2 : pair_run (Some 1%Z) = Ok (get (mkps (pair_scene None) []) (pair_run (Some 1%Z)))) by (apply is_ok_get; vm_compute; reflexivity).
  pose proof (H QS unit unit unit eq _ 2 3 2 _ _ _ _ _ None _ _ _ (pair_planning 1) ltac:(apply per_object_local) (pair_same 1) E1 E2) as (_ & _ & _ & TS & _).
  specialize (TS 1 1 ltac:(lia)). revert TS. apply xval_neq. vm_compute. reflexivity.
Qed.

(** Padding elsewhere meets the condition of C69_planning: the car is frozen in both. *)
Example C69_planning_example : exists r r', pair_run None = Ok r /\ pair_run (Some 5%Z) = Ok r' /\
  starts_clear 2 3 (fun i => i) (pair_scene (Some 5%Z)) /\
  same_episode 2 3 2 (fun i => i) (ps_state r) (ps_state r') /\ xval (at2 (s_sim (ps_state r')) 1 1) = 10%Z.
Proof.
  exists (get (mkps (pair_scene None) []) (pair_run None)), (get (mkps (pair_scene None) []) (pair_run (Some 5%Z))).
  assert (E1 : pair_run None = Ok (get (mkps (pair_scene None) []) (pair_run None))) by (apply is_ok_get; vm_compute; reflexivity).
  assert (E2 : pair_run (Some 5%Z) = Ok (get (mkps (pair_scene None) []) (pair_run (Some 5%Z)))) by (apply is_ok_get; vm_compute; reflexivity).
  split; [exact E1|]. split; [exact E2|].
  assert (CL : starts_clear 2 3 (fun i => i) (pair_scene (Some 5%Z))).
  { intros i j p x Hi Hj Ep Ex. apply pair_spare in Hj. subst j. injection Ex as <-.
    destruct i as [|[|i]]; [| |lia]; injection Ep as <-; vm_compute; reflexivity. }
  split; [exact CL|]. split; [|vm_compute; reflexivity].
  apply (C69_planning eq _ 2 3 2 (fun i => i) (pair_env None) (pair_env (Some 5%Z)) _ _ None _ _ _ (pair_planning 5)
    ltac:(apply per_object_local) (pair_same 5) CL E1 E2).
Qed.

Definition duo : state (S := QS) :=
  mkstate [[expt 0 0 true]; [expt 1 0 true]] [[expt 0 0 true]; [expt 1 0 true]] [] (firstn 2 ex_meta) 0 None
    (Some [mkrg (q 0) (q 0) (q 0) (q 1) (q 0) (q 0) 15 1 true]).
Lemma duo_wf : wf_state 2 1 duo.
Proof.
  split; [split; [reflexivity|intros r [<-|[<-|[]]]; reflexivity]|].
  split; [split; [reflexivity|intros r [<-|[<-|[]]]; reflexivity]|]. repeat split; auto with arith.
Qed.
Lemma duo_obs : obs_wf 2 0 1 0 duo.
Proof. split; [apply duo_wf|]. split; [split; [reflexivity|intros r []]|]. split; [reflexivity|auto with arith]. Qed.

(** The is_ego flags of observation_from_state belong to positions in the list: swapping
    two objects changes them. *)
Theorem C69_is_ego_refuted :
  ~ forall (S : Scalar) n n' L T t f s s' k topk fr rg o o' i v v', same_episode n n' T f s s' ->
      obs_wf n L T t s -> k <= t + 1 -> s_rg s = Some rg -> topk <= length rg ->
      observation_from_state s k topk fr = Ok o -> observation_from_state s' k topk fr = Ok o' ->
      i < n -> nth_error o i = Some v -> nth_error o' (f i) = Some v' -> same_rows n f (v_is_ego v) (v_is_ego v').
Proof.
  intros H. set (f := fun i => 1 - i).
  assert (P : places 2 2 f) by (split; [unfold f; lia|intros [|[|i]] [|[|j]]; unfold f; lia]).
  destruct (C69_every_scene 2 2 1 f duo duo_wf P) as (s' & SE).
  destruct (C69_observation 2 2 0 1 0 f duo s' 1 1 FRAME_GLOBAL _ SE duo_obs ltac:(lia) eq_refl ltac:(cbn; lia) ltac:(discriminate))
    as (o & o' & Eo & Eo' & Lo & Lo' & V).
  destruct (V 0 ltac:(lia)) as (v & v' & Ev & Ev' & _).
  pose proof (H QS 2 2 0 1 0 f duo s' 1 1 FRAME_GLOBAL _ o o' 0 v v' SE duo_obs ltac:(lia) eq_refl ltac:(cbn; lia) Eo Eo' ltac:(lia) Ev Ev' 0 ltac:(lia)) as X.
  destruct (is_ego_spec 2 0 1 0 duo 1 1 FRAME_GLOBAL _ o 0 v 0 duo_obs ltac:(lia) eq_refl ltac:(cbn; lia) Eo Ev ltac:(lia)) as (b & Eb & B).
  assert (RG : s_rg s' = s_rg duo) by apply SE.
  destruct (is_ego_spec 2 0 1 0 s' 1 1 FRAME_GLOBAL _ o' 1 v' 1 (embed_obs_wf _ _ _ _ _ _ _ _ SE duo_obs) ltac:(lia) (eq_trans RG eq_refl) ltac:(cbn; lia) Eo' Ev' ltac:(lia)) as (b' & Eb' & B').
  change (f 0) with 1 in X. rewrite Eb, Eb' in X. injection X as ->. destruct (proj1 B (proj2 B' (conj eq_refl eq_refl))). discriminate.
Qed.

(** The position of the SDC is read by summing over all rows, so a padding row that holds a
    number that is not finite does change the SDC's metrics. *)
Definition lone : pt (S := XR) := mkpt (S := XR) (Fin 0) (Fin 0) (Fin 0) (Fin 0) (Fin 0) (Fin 0) true 0 (Fin 1) (Fin 1) (Fin 1).
Definition blank (nan : bool) : pt (S := XR) :=
  if nan then mkpt (S := XR) NaN NaN NaN NaN NaN NaN false 0 NaN NaN NaN else invalid_pt.
Definition lone_route : list (path (S := XR)) := [mkpath [mkpp (S := XR) (Fin 0) (Fin 0) (Fin 0) 1 true (Fin 0)] true].
Definition solo : state (S := XR) := mkstate [[lone]] [[lone]] [] (firstn 1 ex_meta) 0 (Some lone_route) None.
Definition padded (nan : bool) : state (S := XR) :=
  mkstate [[lone]; [blank nan]] [[lone]; [blank nan]] [] (firstn 2 ex_meta) 0 (Some lone_route) None.

Lemma padded_same nan : same_episode 1 2 1 (fun i => i) solo (padded nan).
Proof.
  assert (SP : forall j, spare 1 2 (fun i => i) j -> j = 1).
  { intros j (Hj & N). specialize (N 0 ltac:(lia)). lia. }
  assert (R1 : rect 1 1 [[lone]]) by (split; [reflexivity|intros r [<-|[]]; reflexivity]).
  assert (R2 : rect 2 1 [[lone]; [blank nan]]) by (split; [reflexivity|intros r [<-|[<-|[]]]; reflexivity]).
  assert (TB : same_table 1 (fun i => i) [[lone]] [[lone]; [blank nan]]) by (intros i t Hi; assert (i = 0) by lia; subst i; reflexivity).
  assert (SA : spares_absent 1 2 (fun i => i) [[lone]; [blank nan]]).
  { intros j t x Hj E. apply SP in Hj. subst j. destruct t as [|t]; [|destruct t; discriminate]. injection E as <-. destruct nan; reflexivity. }
  split; [|split; [exact R1|split; [exact R2|split; [exact TB|split; [exact SA|reflexivity]]]]].
  split; [split; [exact R1|repeat split; auto]|]. split; [split; [exact R2|repeat split; auto]|].
  split; [split; intros; lia|]. split; [exact TB|]. split; [exact SA|]. split.
  - intros i Hi. assert (i = 0) by lia. subst i. reflexivity.
  - split; [|repeat split]. intros j m Hj E. apply SP in Hj. subst j. injection E as <-. reflexivity.
Qed.
Lemma solo_sdc : the_sdc (s_meta solo) 0.
Proof. split; [eexists; split; reflexivity|]. intros [|j] m E _; [reflexivity|destruct j; discriminate]. Qed.
Lemma solo_readable : readable (s_meta solo) [lone] 0.
Proof.
  split; [reflexivity|]. split; [apply solo_sdc|]. split; [|eexists; split; reflexivity].
  intros x [<-|[]]. exists (0%R, 0%R). split; reflexivity.
Qed.

Theorem C69_nan_padding_refuted :
  ~ forall n n' T f s s', same_episode (S := XR) n n' T f s s' -> (exists i, the_sdc (s_meta s) i) ->
      wrongway_compute s' = wrongway_compute s.
Proof.
  intros H. specialize (H 1 2 1 _ solo (padded true) (padded_same true) (ex_intro _ 0 solo_sdc)).
  assert (E : wrongway_compute (padded true) = Ok (mkmres f0 false)) by reflexivity. rewrite E in H.
  assert (E1 : exists x, wrongway_compute solo = Ok (mkmres x true)).
  { destruct (readable_sdc _ _ _ lone solo_readable eq_refl) as [X _]. unfold wrongway_compute.
    replace (dynamic_index (s_sim solo) (s_t solo)) with (Ok [lone]) by reflexivity. cbn [bind]. rewrite X.
    cbn [bind s_paths solo lone_route flat_map map path_pts pp_valid app].
    change (p_x lone, p_y lone) with (@pair (F (Scalar := XR)) (F (Scalar := XR)) (Fin (fst (0%R, 0%R))) (Fin (snd (0%R, 0%R)))).
    rewrite (path_dist_Fin (0%R, 0%R) _ (0%R, 0%R)) by (split; reflexivity). eexists. reflexivity. }
  destruct E1 as (x & E1). rewrite E1 in H. discriminate.
Qed.

(** Ordinary padding meets the condition of C69_route. *)
Example C69_route_example : wrongway_compute (padded false) = wrongway_compute solo.
Proof.
  apply (C69_route 1 2 1 (fun i => i) solo (padded false) 0 [lone] [lone; invalid_pt] (padded_same false) eq_refl eq_refl solo_readable).
  split; [reflexivity|]. split.
  - split; [eexists; split; reflexivity|]. intros [|[|j]] m E V; [reflexivity|injection E as <-; discriminate|destruct j; discriminate].
  - split; [|eexists; split; reflexivity]. intros x [<-|[<-|[]]]; [exists (0%R, 0%R)|exists ((-1)%R, (-1)%R)]; split; try reflexivity;
      unfold invalid_pt; cbn [p_x p_y]; rewrite fm1_Fin; reflexivity.
Qed.

(** And the planning environment reports the same with and without this padding. *)
Definition report_env (n : nat) : penv (S := XR) unit unit unit :=
  mkpenv (S := XR) StateDynamics (mkcfg n 1 SDC false) [("overlap"%string, Fin (-2)%R)] ["log_divergence"; "overlap"]%string true [] [].

Lemma padded_finite s : s = solo \/ s = padded false -> finite_now s.
Proof.
  assert (IN : exists c, has_xy invalid_pt c)
    by (exists ((-1)%R, (-1)%R); split; unfold invalid_pt; cbn [p_x p_y]; rewrite fm1_Fin; reflexivity).
  assert (LN : exists c, has_xy lone c) by (exists (0%R, 0%R); split; reflexivity).
  intros [->| ->]; (split; intros cur x E Hx; injection E as <-); cbn [In] in Hx; intuition (subst x; auto).
Qed.

Example C69_planning_report_example : exists d w a,
  penv_metrics initial_registry (report_env 1) (mkps solo []) = Ok d /\
  penv_metrics initial_registry (report_env 2) (mkps (padded false) []) = Ok d /\ map fst d = ["log_divergence"; "overlap"]%string /\
  penv_reward initial_registry (report_env 1) (mkps solo []) = Ok w /\
  penv_reward initial_registry (report_env 2) (mkps (padded false) []) = Ok w /\
  planning_expert StateDynamics solo = Ok a /\ planning_expert StateDynamics (padded false) = Ok a.
Proof.
  assert (SH : forall name m, In name ["log_divergence"; "overlap"]%string -> lookup name initial_registry = Some m ->
     alike (tells_same (s_meta solo) 0 (s_meta (padded false)) 0 name) (m solo) (m (padded false)) /\
     (reported_for_sdc name -> exists v v', m solo = Ok v /\ m (padded false) = Ok v')).
  { intros name m Hn Hl. apply (C69_planning_shipped 1 2 1 (fun i => i) solo (padded false) 0 name m (padded_same false) solo_sdc Hl).
    destruct Hn as [<-|[<-|[]]]; cbn; [split; apply padded_finite; auto|exact I]. }
  assert (E1 : exists d, penv_metrics initial_registry (report_env 1) (mkps solo []) = Ok d /\ map fst d = ["log_divergence"; "overlap"]%string)
    by (eexists; split; reflexivity).
  assert (E2 : exists w, penv_reward initial_registry (report_env 1) (mkps solo []) = Ok w) by (eexists; reflexivity).
  destruct E1 as (d & E1 & K), E2 as (w & E2).
  assert (E3 : exists a, planning_expert StateDynamics solo = Ok a /\ planning_expert StateDynamics (padded false) = Ok a).
  { destruct (C69_planning_expert 1 2 1 (fun i => i) StateDynamics solo (padded false) 0 _ _ 5 (padded_same false) solo_sdc (or_introl (or_introl eq_refl))
      eq_refl eq_refl eq_refl eq_refl) as (a & _ & A); [| |exists a; exact A].
    - repeat constructor; eexists; reflexivity.
    - constructor; [split; [reflexivity|repeat constructor; eexists; reflexivity]|]. constructor; [|constructor]. split; [reflexivity|].
      cbn [a_data]. unfold blank, invalid_pt. cbn [p_x p_y p_yaw p_vx p_vy]. rewrite fm1_Fin. repeat constructor; eexists; reflexivity. }
  destruct E3 as (a & E3 & E4).
  exists d, w, a. split; [exact E1|]. split.
  { refine (eq_trans _ E1). apply (C69_planning_metrics 1 2 1 (fun i => i) initial_registry (report_env 1) (report_env 2) (mkps solo []) (mkps (padded false) []) 0);
      [apply padded_same|apply solo_sdc|reflexivity|repeat split|]. intros name m Hn Hl. now apply SH. }
  split; [exact K|]. split; [exact E2|]. split; [|split; assumption].
  refine (eq_trans _ E2). apply (C69_planning_reward 1 2 1 (fun i => i) initial_registry (report_env 1) (report_env 2) (mkps solo []) (mkps (padded false) []) 0
    (fun _ => (-2)%R) ["overlap"%string]); try reflexivity; [apply padded_same|apply solo_sdc|].
  intros name [<-|[]]. destruct (SH "overlap"%string _ ltac:(cbn; tauto) eq_refl) as (A & B).
  assert (RP : reported_for_sdc "overlap") by (cbn; tauto).
  destruct (B RP) as (v & v' & Ev & Ev'). rewrite Ev, Ev' in A. cbn [alike] in A.
  eexists. exists v, v'. split; [reflexivity|]. split; [exact Ev|]. split; [exact Ev'|]. left. now apply A.
Qed.

(* ---------------- a concrete scene ---------------- *)

(** The example scenario with its three objects listed as rows 4, 1 and 0 of five. *)
Definition rows (i : nat) : nat := match i with 0 => 4 | 1 => 1 | _ => 0 end.
Lemma rows_places : places 3 5 rows.
Proof. split; [intros [|[|[|i]]] H; cbn; lia|]. intros [|[|[|i]]] [|[|[|j]]] Hi Hj; cbn; lia. Qed.

Definition five (l : list (act (S := QS))) : list act := match l with [a; b; c] => [c; b; sact 0 0; sact 9 9; a] | _ => [] end.

Example C69_example :
  exists s' r r', same_episode 3 5 4 rows (get ex_state (env_reset (ex_cfg SDC true) ex_state)) s' /\
    Forall2 (same_actions 3 5 rows) ex_acts (map five ex_acts) /\
    env_steps StateDynamics (ex_cfg SDC true) (get ex_state (env_reset (ex_cfg SDC true) ex_state)) ex_acts = Ok r /\
    env_steps StateDynamics (mkcfg 5 2 SDC true) s' (map five ex_acts) = Ok r' /\
    same_episode 3 5 4 rows r r' /\ s_t r' = 3%Z.
Proof.
  assert (W : wf_state 3 4 (get ex_state (env_reset (ex_cfg SDC true) ex_state))).
  { split; [apply rectb_spec; vm_compute; reflexivity|]. split; [apply rectb_spec; vm_compute; reflexivity|].
    split; [vm_compute; reflexivity|]. split; auto with arith. }
  destruct (C69_every_scene 3 5 4 rows _ W rows_places) as (s' & SE).
  assert (A : Forall2 (same_actions 3 5 rows) ex_acts (map five ex_acts)).
  { constructor; [|constructor; [|constructor]]; (split; [reflexivity|]; split; [reflexivity|]; intros [|[|[|i]]] Hi; [reflexivity..|lia]). }
  assert (E1 : exists r, env_steps StateDynamics (ex_cfg SDC true) (get ex_state (env_reset (ex_cfg SDC true) ex_state)) ex_acts = Ok r /\ s_t r = 3%Z)
    by (exists (get ex_state (env_steps StateDynamics (ex_cfg SDC true) (get ex_state (env_reset (ex_cfg SDC true) ex_state)) ex_acts));
        split; [apply is_ok_get; vm_compute; reflexivity|vm_compute; reflexivity]).
  destruct E1 as (r & E1 & T1). destruct (episode_wf _ _ _ _ _ _ SE) as [_ W'].
  assert (OK : forall l, In l (map five ex_acts) -> length l = 5 /\ Forall (fun a => 5 <= length (a_data a)) l).
  { intros l [<-|[<-|[]]]; (split; [reflexivity|]; repeat constructor). }
  assert (E2 : forall l s, (forall x, In x l -> length x = 5 /\ Forall (fun a => 5 <= length (a_data a)) x) -> wf_state 5 4 s ->
     exists r', env_steps StateDynamics (mkcfg 5 2 SDC true) s l = Ok r').
  { induction l as [|a l IH]; intros s Hl Ws; [eexists; reflexivity|]. destruct (Hl a (or_introl eq_refl)) as [La Fa].
    destruct (env_step_total 5 4 StateDynamics (mkcfg 5 2 SDC true) s a _ Ws ltac:(discriminate) state_total La Fa) as (s1 & E).
    destruct (IH s1 ltac:(intros; apply Hl; now right) ltac:(eapply env_step_wf; eauto)) as (r' & Er). exists r'. cbn [env_steps]. rewrite E. exact Er. }
  destruct (E2 _ s' OK W') as (r' & Er').
  assert (SR : same_episode 3 5 4 rows r r').
  { eapply (C69_episode 3 5 4 rows StateDynamics (ex_cfg SDC true) (mkcfg 5 2 SDC true)); eauto; [repeat split|apply per_object_local]. }
  exists s', r, r'. split; [exact SE|]. split; [exact A|]. split; [exact E1|]. split; [exact Er'|]. split; [exact SR|].
  destruct SR as (_ & _ & _ & _ & _ & ->). exact T1.
Qed.

Print Assumptions C69_every_scene.
Print Assumptions C69_reset.
Print Assumptions C69_episode.
Print Assumptions C69_models.
Print Assumptions C69_expert.
Print Assumptions C69_closed_loop.
Print Assumptions C69_metrics.
Print Assumptions C69_route.
Print Assumptions C69_reward.
Print Assumptions C69_observation.
Print Assumptions C69_sdc_observation.
Print Assumptions C69_agents.
Print Assumptions C69_planning.
Print Assumptions C69_planning_reordered.
Print Assumptions C69_planning_agents.
Print Assumptions C69_controlled_sets.
Print Assumptions C69_overlapping_padding_refuted.
Print Assumptions C69_is_ego_refuted.
Print Assumptions C69_nan_padding_refuted.
Print Assumptions C69_planning_metrics.
Print Assumptions C69_planning_reward.
Print Assumptions C69_planning_shipped.
Print Assumptions C69_planning_expert.
