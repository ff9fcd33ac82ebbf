(** Proofs for C50: configuration checks and what they buy. *)
From Coq Require Import String.
From Coq Require Import List ZArith Bool Lia.
From Verif.Lib Require Import Base JaxIndex Scalar.
From Verif.Model Require Import Operations State Dynamics BaseEnv Geometry Discretizer Dyn_Delta Dyn_Bicycle
  Comfort Metrics Actor PlanningEnv Envs Roadgraph Observation Config.
From Verif.Spec Require Import StateSpec RewardSpec ConfigSpec ObsSpec.
From Verif.Proofs Require Import Core Episode P_Metrics P_Offroad P_Reward P_Observation.
Import ListNotations.
Local Open Scope nat_scope.

Section Config.
  Context {S : Scalar}.

  Lemma env_config_iff c cr obs ms rw :
    ((forall o, obs = Some o -> oc_num_steps o <= c_init_steps c) ->
       make_env_config c cr obs ms rw = Ok (mkec c cr obs ms rw)) /\
    (~ (forall o, obs = Some o -> oc_num_steps o <= c_init_steps c) ->
       make_env_config c cr obs ms rw = Err ValueError).
  Proof.
    unfold make_env_config. destruct obs as [o|]; [|split; [reflexivity|intros H; exfalso; apply H; discriminate]].
    destruct (Nat.ltb_spec (c_init_steps c) (oc_num_steps o)) as [H|H]; cbn [negb guard bind]; split; intros K; auto.
    - specialize (K o eq_refl). lia.
    - exfalso. apply K. intros o' E. injection E as <-. exact H.
  Qed.

  Lemma names_in_iff l name : names_in l name = true <-> In name l.
  Proof.
    unfold names_in. rewrite existsb_exists. split.
    - intros (x & Hx & E). apply String.eqb_eq in E. now subst.
    - intros H. exists name. split; auto. apply String.eqb_refl.
  Qed.

  Lemma waymax_config_iff dc ec :
    ((dc_include_sdc_paths dc = true \/ forall name, route_metric name -> ~ In name (ec_metrics ec)) ->
       make_waymax_config dc ec = Ok (dc, ec)) /\
    (dc_include_sdc_paths dc = false -> (exists name, route_metric name /\ In name (ec_metrics ec)) ->
       make_waymax_config dc ec = Err ValueError).
  Proof.
    unfold make_waymax_config.
    set (b := names_in (ec_metrics ec) "sdc_wrongway" || names_in (ec_metrics ec) "sdc_progression"
              || names_in (ec_metrics ec) "sdc_off_route").
    assert (E : b = true <-> exists name, route_metric name /\ In name (ec_metrics ec)).
    { unfold b. rewrite !orb_true_iff, !names_in_iff. unfold route_metric. split.
      - intros [[H|H]|H]; (eexists; split; [|exact H]); auto.
      - intros (name & [ -> | [ -> | -> ]] & H); auto. }
    split.
    - intros [->|H]; [reflexivity|]. destruct b; [|destruct (dc_include_sdc_paths dc); reflexivity].
      exfalso. destruct (proj1 E eq_refl) as (name & Hr & Hi). now apply (H name).
    - intros -> H. rewrite (proj2 E H). reflexivity.
  Qed.

  (* ---------------- totality of every built-in metric ---------------- *)
  Definition sized (n : nat) (v : mval (S := S)) : Prop :=
    match v with PerObject l => length l = n | Scalar0 _ => True end.

  Lemma two_frames_total n T (tr : traj) t : rect n T tr -> 2 <= T ->
    exists ps, two_frames tr t = Ok ps /\ length ps = n.
  Proof.
    intros R HT. unfold two_frames. destruct (dynamic_slice_total n T tr t 2 R HT) as [sl E]. rewrite E. cbn [bind].
    destruct (dynamic_slice_Ok n T tr t 2 sl R E) as [[L RR] _].
    destruct (mapM_total (fun r : list pt => match r with p0 :: p1 :: _ => Ok (p0, p1) | _ => Err TypeError end) sl) as [ps E'].
    - intros r Hr. specialize (RR r Hr). destruct r as [|? [|? ?]]; try discriminate. eauto.
    - exists ps. split; [exact E'|]. rewrite (mapM_length _ _ _ E'). exact L.
  Qed.

  Lemma kim_total n T k s : wf_state n T s -> 2 <= T ->
    exists ms, kim_compute k s = Ok ms /\ length ms = n.
  Proof.
    intros (R & _) HT. unfold kim_compute, compute_kinematics_infeasibility, compute_inverse.
    destruct (two_frames_total n T (s_sim s) (s_t s - 1) R HT) as (ps & -> & L). cbn [bind].
    eexists. split; [reflexivity|]. now rewrite !map_length.
  Qed.

  Lemma sdc_xy_total (frame : list pt) ms : length frame = length ms -> exists xy, sdc_xy frame ms = Ok xy.
  Proof.
    intros L. unfold sdc_xy, select_by_onehot. rewrite !map_length, L, Nat.eqb_refl. cbn [guard bind]. eauto.
  Qed.
  Lemma sdc_valid_total (frame : list pt) ms : length frame = length ms -> exists b, sdc_valid frame ms = Ok b.
  Proof.
    intros L. unfold sdc_valid, select_by_onehot_b. rewrite !map_length, L, Nat.eqb_refl. cbn [guard bind]. eauto.
  Qed.
  Lemma jmin_total (l : list F) : l <> [] -> exists m, jmin l = Ok m.
  Proof. destruct l; [congruence|]. intros _. eexists. reflexivity. Qed.

  Lemma flat_nonempty {B} (ps : list path) (f : path -> pathpt -> B) :
    ps <> [] -> (forall p, In p ps -> path_pts p <> []) -> flat_map (fun pa => map (f pa) (path_pts pa)) ps <> [].
  Proof.
    intros Hp HP. destruct ps as [|p ps]; [congruence|]. simpl. specialize (HP p (or_introl eq_refl)).
    destruct (path_pts p); [congruence|]. discriminate.
  Qed.

  Section Route.
    Context (n T : nat) (s : state) (ps : list path).
    Hypothesis WF : wf_state n T s.
    Hypothesis HP : s_paths s = Some ps.
    Hypothesis NE : ps <> [].
    Hypothesis NEP : forall p, In p ps -> path_pts p <> [].

    Lemma cur_total : exists cur, dynamic_index (s_sim s) (s_t s) = Ok cur /\ length cur = length (s_meta s).
    Proof.
      destruct WF as (R & _ & LM & _ & HT). destruct (dynamic_index_total n T (s_sim s) (s_t s) R HT) as [c E].
      exists c. split; auto. destruct (dynamic_index_Ok n T _ _ _ R E) as [L _]. congruence.
    Qed.

    Lemma wrongway_total : exists m, wrongway_compute s = Ok m.
    Proof.
      unfold wrongway_compute. destruct cur_total as (cur & -> & L). cbn [bind].
      destruct (sdc_xy_total cur (s_meta s) L) as [xy ->]. cbn [bind]. rewrite HP.
      edestruct jmin_total as [m ->]; [exact (flat_nonempty ps (fun _ => _) NE NEP)|]. cbn [bind]. eauto.
    Qed.

    Lemma off_route_total : exists m, off_route_compute s = Ok m.
    Proof.
      unfold off_route_compute. rewrite HP. destruct cur_total as (cur & -> & L). cbn [bind].
      destruct (sdc_xy_total cur (s_meta s) L) as [xy ->]. cbn [bind].
      destruct (sdc_valid_total cur (s_meta s) L) as [v ->]. cbn [bind].
      edestruct jmin_total as [m ->]; [exact (flat_nonempty ps (fun pa => _) NE NEP)|]. cbn [bind].
      edestruct jmin_total as [m' ->]; [exact (flat_nonempty ps (fun pa => _) NE NEP)|]. cbn [bind]. eauto.
    Qed.

    Lemma log_frame_total t : t < T -> exists fr, log_frame (s_log s) t = Ok fr /\ length fr = length (s_meta s).
    Proof.
      intros Ht. destruct WF as (_ & [RL RR] & LM & _). unfold log_frame.
      destruct (mapM_total (fun r : list pt => match nth_error r t with Some p => Ok p | None => Err IndexError end) (s_log s)) as [fr E].
      - intros r Hr. specialize (RR r Hr). destruct (nth_error_lt_Some r t) as [p ->]; [lia|]. eauto.
      - exists fr. split; [exact E|]. rewrite (mapM_length _ _ _ E). congruence.
    Qed.

    Lemma progression_total : exists m, progression_compute s = Ok m.
    Proof.
      unfold progression_compute. rewrite HP. destruct cur_total as (cur & -> & L). cbn [bind].
      destruct (sdc_xy_total cur (s_meta s) L) as [xy ->]. cbn [bind].
      assert (HT : 0 < T) by (destruct WF as (_ & _ & _ & _ & H); exact H).
      assert (NT : num_timesteps (s_log s) = T).
      { destruct WF as (_ & [RL RR] & _ & Hn & _). unfold num_timesteps. destruct (s_log s) as [|r lg]; [simpl in RL; lia|].
        apply (RR r). now left. }
      destruct (log_frame_total 0 HT) as (f0' & -> & L0). cbn [bind].
      destruct (sdc_xy_total f0' (s_meta s) L0) as [xy0 ->]. cbn [bind].
      rewrite NT. destruct (log_frame_total (T - 1)) as (f1' & -> & L1); [lia|]. cbn [bind].
      destruct (sdc_xy_total f1' (s_meta s) L1) as [xy1 ->]. cbn [bind].
      destruct (sdc_valid_total cur (s_meta s) L) as [v ->]. cbn [bind].
      match goal with |- exists m, bind ?x _ = _ => destruct x as [dp|e] eqn:E end.
      - cbn [bind]. edestruct (jmin_total dp) as [m ->]; [|cbn [bind]; eauto].
        intros ->. apply mapM_length in E. destruct ps; [congruence|discriminate].
      - exfalso. match type of E with mapM ?f ?l = _ => destruct (mapM_total f l) as [ds E'] end; [|rewrite E' in E; discriminate].
        intros pa Hpa. apply jmin_total. specialize (NEP pa Hpa). destruct (path_pts pa); [congruence|discriminate].
    Qed.
  End Route.

  (** Every documented metric succeeds on a well-formed loaded state, unless it needs
      routes that are not there. *)
  Lemma builtin_total n T b s name : wf_state n T s -> 2 <= T -> loaded b s ->
    documented_metric name -> (b = true \/ ~ route_metric name) ->
    exists m v, lookup name initial_registry = Some m /\ m s = Ok v /\ sized n v.
  Proof.
    intros WF HT [(rg & HR & NR) HPs] D HB.
    assert (RT : route_metric name -> exists ps, s_paths s = Some ps /\ ps <> [] /\ forall p, In p ps -> path_pts p <> []).
    { intros HR'. destruct HB as [-> | HB]; [exact HPs|contradiction]. }
    unfold documented_metric in D. simpl in D.
    destruct D as [<-|[<-|[<-|[<-|[<-|[<-|[<-|[]]]]]]]];
      cbn [initial_registry lookup String.eqb Ascii.eqb Bool.eqb andb];
      (match goal with |- exists m v, Some ?f = Some m /\ _ =>
         exists f; assert (G : exists v, f s = Ok v /\ sized n v); [cbv beta|destruct G as (v & G1 & G2); eauto] end).
    - destruct (log_divergence_total n T s WF) as [ms E]. rewrite E. cbn [bind]. eexists. split; [reflexivity|]. simpl.
      unfold log_divergence_compute in E. destruct WF as (R & RL & _).
      apply bind_Ok in E as (cur & Ec & E). apply bind_Ok in E as (lg & El & E). injection E as <-.
      destruct (dynamic_index_Ok n T _ _ _ R Ec). destruct (dynamic_index_Ok n T _ _ _ RL El).
      rewrite map2_length. lia.
    - destruct (overlap_total n T s WF) as [ms E]. rewrite E. cbn [bind]. eexists. split; [reflexivity|]. simpl.
      unfold overlap_compute in E. destruct WF as (R & RL & _).
      apply bind_Ok in E as (cur & Ec & E). injection E as <-.
      destruct (dynamic_index_Ok n T _ _ _ R Ec). unfold compute_overlap. now rewrite mapi_length.
    - destruct (offroad_total n T s rg WF HR) as [H _]. destruct (H NR) as (ms & E & L). rewrite E. cbn [bind].
      eexists. split; [reflexivity|exact L].
    - destruct RT as (ps & HP & NE & NEP); [unfold route_metric; auto|].
      destruct (wrongway_total n T s ps WF HP NE NEP) as [m ->]. cbn [bind]. eexists. split; [reflexivity|exact I].
    - destruct RT as (ps & HP & NE & NEP); [unfold route_metric; auto|].
      destruct (off_route_total n T s ps WF HP NE NEP) as [m ->]. cbn [bind]. eexists. split; [reflexivity|exact I].
    - destruct RT as (ps & HP & NE & NEP); [unfold route_metric; auto|].
      destruct (progression_total n T s ps WF HP NE NEP) as [m ->]. cbn [bind]. eexists. split; [reflexivity|exact I].
    - destruct (kim_total n T kim_default s WF HT) as (ms & -> & L). cbn [bind]. eexists. split; [reflexivity|exact L].
  Qed.

  (** A route metric without routes raises. *)
  Lemma route_metric_fails n T s name : wf_state n T s -> s_paths s = None -> route_metric name ->
    exists m e, lookup name initial_registry = Some m /\ m s = Err e.
  Proof.
    intros WF HP [ -> | [ -> | -> ]];
      cbn [initial_registry lookup String.eqb Ascii.eqb Bool.eqb andb];
      (match goal with |- exists m e, Some ?f = Some m /\ _ =>
         exists f; assert (G : exists e, f s = Err e); [cbv beta|destruct G as (v & G1); eauto] end).
    - unfold wrongway_compute. destruct (cur_total n T s WF) as (cur & -> & L). cbn [bind].
      destruct (sdc_xy_total cur (s_meta s) L) as [xy ->]. cbn [bind]. rewrite HP. eexists. reflexivity.
    - unfold progression_compute. rewrite HP. eexists. reflexivity.
    - unfold off_route_compute. rewrite HP. eexists. reflexivity.
  Qed.

  (* ---------------- the reward for any numbers ---------------- *)
  Lemma reward_total n reg s rewards mask : length mask = n ->
    (forall name, In name (map fst rewards) -> exists m v, lookup name reg = Some m /\ m s = Ok v /\ sized n v) ->
    exists r, linear_reward reg rewards s mask = Ok r /\ length r = n.
  Proof.
    intros LM H. unfold linear_reward.
    destruct (run_metrics_total reg s (map fst rewards)) as [all E].
    { intros name Hin. destruct (H name Hin) as (m & v & L & E & _). eauto. }
    rewrite E. cbn [bind]. destruct (run_metrics_Ok _ _ _ _ E) as [_ V]. clear E.
    assert (VV : forall name, In name (map fst rewards) -> exists v, lookup name all = Some v /\ sized n v).
    { intros name Hin. destruct (V name Hin) as (m & v & L & E & La). destruct (H name Hin) as (m' & v' & L' & E' & Z).
      rewrite L in L'. injection L' as <-. rewrite E in E'. injection E' as <-. eauto. }
    clear H V.
    assert (G : forall acc : list F, length acc = n ->
      exists r, fold_left (fun acc r => let* reward := acc in
         match lookup (fst r) all with
         | None => Err KeyError
         | Some v => let* metric := metric_times_mask v mask in
                     bcast2 fadd reward (map (fun m => fmul m (snd r)) metric)
         end) rewards (Ok acc) = Ok r /\ length r = n).
    { induction rewards as [|[name w] rw IH]; intros acc LA; [eexists; split; [reflexivity|exact LA]|].
      cbn [fold_left bind fst snd]. destruct (VV name) as (v & -> & Z); [now left|].
      assert (exists l, metric_times_mask v mask = Ok l /\ length l = n) as (l & -> & Ll).
      { destruct v as [ms|m]; simpl in *.
        - unfold bcast2. rewrite Z, LM, Nat.eqb_refl. eexists. split; [reflexivity|]. rewrite map2_length. lia.
        - eexists. split; [reflexivity|]. now rewrite map_length. }
      cbn [bind]. unfold bcast2. rewrite map_length, LA, Ll, Nat.eqb_refl. apply IH.
      - intros name' Hin. apply VV. now right.
      - rewrite map2_length, map_length. lia. }
    apply G. now rewrite map_length.
  Qed.

  (* ---------------- accepted configurations ---------------- *)

  Lemma wf_reach n T d c s acts s' : wf_scenario n T s -> run_episode d c s acts = Ok s' ->
    c_init_steps c + length acts <= T -> wf_state n T s' /\ s_paths s' = s_paths s /\ s_rg s' = s_rg s /\
    s_tls s' = s_tls s /\ s_meta s' = s_meta s.
  Proof.
    intros W H L. destruct (episode_basic n T d c s acts s' W H L) as (W' & (E1 & E2 & E3 & E4 & E5) & _). auto.
  Qed.

  Lemma loaded_same b s s' : s_paths s' = s_paths s -> s_rg s' = s_rg s -> loaded b s -> loaded b s'.
  Proof. unfold loaded. intros -> ->. auto. Qed.

  Lemma metrics_never_fail n T dc ec x d s acts s' :
    make_waymax_config dc ec = Ok x ->
    (forall name, In name (ec_metrics ec) -> documented_metric name) ->
    wf_scenario n T s -> 2 <= T -> loaded (dc_include_sdc_paths dc) s ->
    run_episode d (ec_env ec) s acts = Ok s' -> c_init_steps (ec_env ec) + length acts <= T ->
    exists results, run_metrics initial_registry s' (ec_metrics ec) = Ok results /\
      map fst results = distinct (ec_metrics ec).
  Proof.
    intros A D W HT LD HR HL. destruct (wf_reach _ _ _ _ _ _ _ W HR HL) as (W' & EP & ER & _).
    assert (LD' := loaded_same _ _ _ EP ER LD).
    destruct (run_metrics_total initial_registry s' (ec_metrics ec)) as [results E].
    - intros name Hin. destruct (builtin_total n T _ s' name W' HT LD' (D name Hin)) as (m & v & L & E & _).
      + destruct (dc_include_sdc_paths dc) eqn:B; [now left|right]. intros HRt.
        destruct (waymax_config_iff dc ec) as [_ X]. rewrite X in A by eauto. discriminate.
      + eauto.
    - exists results. split; [exact E|]. now destruct (run_metrics_Ok _ _ _ _ E).
  Qed.

  Lemma make_base_env_Ok reg d ec e : make_base_env reg d ec = Ok e ->
    e = mkbenv d (ec_env ec) (ec_rewards ec) (ec_metrics ec) (ec_compute_reward ec) /\
    forall name, In name (map fst (ec_rewards ec)) -> In name (get_metric_names reg).
  Proof.
    unfold make_base_env. destruct (make_reward_iff reg (ec_rewards ec)) as [A B]. intros H.
    apply bind_Ok in H as (rw & Hr & H). injection H as <-.
    assert (D : forall name, In name (map fst (ec_rewards ec)) -> In name (get_metric_names reg)).
    { intros name Hin. destruct (in_dec string_dec name (get_metric_names reg)) as [|N]; auto.
      rewrite B in Hr; [discriminate|]. intros H. apply N, H, Hin. }
    rewrite (A D) in Hr. injection Hr as <-. auto.
  Qed.

  (** The reward of an accepted environment succeeds whenever the rewards name no
      route metric or routes are loaded. *)
  Lemma reward_never_fails n T d ec e b s acts s' :
    make_base_env initial_registry d ec = Ok e ->
    (b = true \/ forall name, route_metric name -> ~ In name (map fst (ec_rewards ec))) ->
    c_controlled (ec_env ec) <> NON_SDC ->
    wf_scenario n T s -> 2 <= T -> loaded b s ->
    run_episode d (ec_env ec) s acts = Ok s' -> c_init_steps (ec_env ec) + length acts <= T ->
    exists r, base_reward initial_registry e s' = Ok r /\ length r = n.
  Proof.
    intros A HB NS W HT LD HR HL. destruct (make_base_env_Ok _ _ _ _ A) as [-> D].
    destruct (episode_basic n T d _ s acts s' W HR HL) as (W' & (E1 & E2 & E3 & E4 & E5) & EM & _).
    assert (LD' := loaded_same _ _ _ E4 E5 LD).
    unfold base_reward. cbn [be_compute_reward be_cfg be_rewards]. destruct (ec_compute_reward ec).
    - assert (exists mask, get_control_mask (s_meta s') (c_controlled (ec_env ec)) = Ok mask /\ length mask = n) as (mask & -> & LM).
      { destruct W' as (_ & _ & LM & _). unfold get_control_mask. destruct (c_controlled (ec_env ec)); try congruence;
          eexists; (split; [reflexivity|]); now rewrite map_length. }
      cbn [bind]. apply reward_total; [now rewrite map_length|]. intros name Hin.
      apply (builtin_total n T b s' name W' HT LD').
      + specialize (D name Hin). unfold documented_metric. cbn [get_metric_names initial_registry map fst In] in *. tauto.
      + destruct HB as [->|HB]; [now left|]. right. intros R. now apply (HB name).
    - eexists. split; [reflexivity|]. rewrite repeat_length. exact EM.
  Qed.

  (** Rewards are not checked against the data configuration: naming a route metric
      there makes the reward fail in every reachable state without routes. *)
  Lemma reward_always_fails n T d ec e s acts s' name :
    make_base_env initial_registry d ec = Ok e ->
    ec_compute_reward ec = true -> route_metric name -> In name (map fst (ec_rewards ec)) ->
    wf_scenario n T s -> s_paths s = None ->
    run_episode d (ec_env ec) s acts = Ok s' -> c_init_steps (ec_env ec) + length acts <= T ->
    exists err, base_reward initial_registry e s' = Err err.
  Proof.
    intros A CR RM Hin W HP HR HL. destruct (make_base_env_Ok _ _ _ _ A) as [-> D].
    destruct (wf_reach _ _ _ _ _ _ _ W HR HL) as (W' & EP & _).
    destruct (base_reward _ _ s') as [r|err] eqn:E; [|eauto]. exfalso.
    unfold base_reward in E. cbn [be_compute_reward be_cfg be_rewards] in E. rewrite CR in E.
    apply bind_Ok in E as (mask & _ & E). unfold linear_reward in E. apply bind_Ok in E as (all & E & _).
    destruct (run_metrics_Ok _ _ _ _ E) as [_ V]. destruct (V name Hin) as (m & v & L & Em & _).
    destruct (route_metric_fails n T s' name W' ltac:(congruence) RM) as (m' & err & L' & Ee).
    rewrite L in L'. injection L' as <-. congruence.
  Qed.

  (** Observing with an accepted configuration, in every reachable state. *)
  Lemma observe_accepted n L T c cr o ms rw x d s acts s' rg :
    make_env_config c cr (Some o) ms rw = Ok x ->
    wf_scenario n T s -> rect L T (s_tls s) -> 1 <= c_init_steps c ->
    s_rg s = Some rg -> oc_roadgraph_top_k o <= length rg ->
    run_episode d c s acts = Ok s' -> c_init_steps c + length acts <= T ->
    obs_wf n L T (c_init_steps c + length acts - 1) s' /\
    oc_num_steps o <= (c_init_steps c + length acts - 1) + 1 /\ s_rg s' = Some rg.
  Proof.
    intros A W RT HI HG HK HR HL.
    destruct (episode_basic n T d c s acts s' W HR HL) as (W' & (E1 & E2 & E3 & E4 & E5) & EM & ET & _).
    destruct (env_config_iff c cr (Some o) ms rw) as [_ B].
    assert (oc_num_steps o <= c_init_steps c).
    { destruct (le_lt_dec (oc_num_steps o) (c_init_steps c)) as [|G]; auto.
      rewrite B in A; [discriminate|]. intros H. specialize (H o eq_refl). lia. }
    split; [|split; [lia|congruence]]. split; [exact W'|]. split; [now rewrite E2|]. split; [|lia].
    rewrite ET. lia.
  Qed.
End Config.
