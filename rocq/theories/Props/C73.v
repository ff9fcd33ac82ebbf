(** C73: planning episodes with sim agents have no preferred coordinate frame.  The same
    scenario described with another map origin and orientation gives the same planning
    episode: the planner's actions and the sim agents' reactions, moved with the map. *)
From Coq Require Import String.
From Coq Require Import Reals ZArith List Bool Lia Lra.
From Verif.Lib Require Import Base JaxIndex Scalar XR.
From Verif.Model Require Import Operations State Dynamics BaseEnv Geometry Dyn_State Dyn_Delta Dyn_Bicycle Comfort
  Metrics Observation Actor Waypoint PlanningEnv.
From Verif.Spec Require Import StateSpec DynSpec DiscSpec MetricSpec ObsSpec WaypointSpec PlanSpec MovedSpec MovedPlanSpec.
From Verif.Proofs Require Import Core P_Angles P_Delta P_Bicycle P_Actions P_Metrics P_Overlap P_Agents P_IDM P_IDMRun P_Waypoint P_PlanRun
  P_Observation P_Moved P_MovedMetrics P_MovedObs P_MovedPlan P_MovedAgents P_MovedReport.
From Verif.Props Require Import ExM ExR ExW C68.
From Verif.Spec Require Import GeomSpec.
Import ListNotations.
Open Scope R_scope.

Section C73.
  Context {P X K : Type} (split : K -> nat -> nat -> K).
  Variables (g : motion) (e : penv (S := XR) P X K).

  (** Reset, with the states of the sim agents. *)
  Theorem C73_reset (ok : traj (S := XR) -> Prop) s s' rng : Forall (frame_free g ok) (pe_agents e) -> moved_state g s s' ->
    alike (moved_pstate g) (penv_reset split e s rng) (penv_reset split e s' rng).
  Proof. intros HA MS. eapply moved_penv_reset; eauto. Qed.

  (** From any state of an episode on: any number of planner actions, each described in
      its frame, with sim agents that have no preferred frame, keys included. *)
  Theorem C73_episode ok A : planned g (pe_dyn e) A -> Forall (frame_free g ok) (pe_agents e) ->
    c_allow_new_objects (pe_cfg e) = false ->
    forall al al' ps ps', Forall2 (fun x x' => A (fst x) (fst x') /\ snd x' = snd x) al al' ->
      moved_pstate g ps ps' -> on_record (ps_state ps) -> ok (s_log (ps_state ps)) ->
      markers_alike (ps_state ps) (ps_state ps') ->
      alike (moved_pstate g) (penv_steps split e ps al) (penv_steps split e ps' al').
  Proof. intros HD HA CI al al' ps ps' Hal. now apply moved_penv_steps with (A := A) (ok := ok). Qed.

  (** Whole episodes, from the scenario on. *)
  Theorem C73_run ok A : planned g (pe_dyn e) A -> Forall (frame_free g ok) (pe_agents e) ->
    c_allow_new_objects (pe_cfg e) = false ->
    forall s s' rng al al', moved_state g s s' -> ok (s_log s) -> markers_alike s s' ->
      Forall2 (fun x x' => A (fst x) (fst x') /\ snd x' = snd x) al al' ->
      alike (moved_pstate g) (run_planning split e s rng al) (run_planning split e s' rng al').
  Proof.
    intros HD HA CI s s' rng al al' MS HO MA Hal. unfold run_planning.
    pose proof (C73_reset ok s s' rng HA MS) as RS.
    destruct (penv_reset split e s rng) as [ps|] eqn:E, (penv_reset split e s' rng) as [ps'|] eqn:E'; cbn in RS;
      try contradiction; [|now cbn; subst]. cbn [bind].
    unfold penv_reset in E, E'. apply bind_Ok in E as (s0 & R0 & E). apply bind_Ok in E' as (s0' & R0' & E').
    apply bind_Ok in E as (xs & _ & E). apply bind_Ok in E' as (xs' & _ & E').
    assert (ps_state ps = s0) as Es by (apply Ok_inj in E; now subst). assert (ps_state ps' = s0') as Es' by (apply Ok_inj in E'; now subst).
    destruct (on_record_reset _ _ _ R0) as (OR & EL). destruct (on_record_reset _ _ _ R0') as (_ & EL').
    apply (C73_episode ok A HD HA CI); auto; rewrite Es; [exact OR|now rewrite EL|].
    rewrite Es'. now apply (markers_log s s').
  Qed.

  (** The IDM sim agent of the library, extrapolating at the end of its route (the
      default), has no preferred frame: for every real choice of its parameters. *)
  Theorem C73_idm (none : X) c p v0 s0 th a b delta D : same_objects g c -> idm_real p v0 s0 th a b delta ->
    additional_lookahead_distance p = Fin D -> idm_invalidate_on_end p = false ->
    frame_free g (fun _ => True) (idm_actor (P := P) (K := K) none c p).
  Proof. apply idm_frame_free. Qed.

  (** Nor have the constant speed actor with the state dynamics, at a given speed or at the
      current velocity, and the agent that stays where it is. *)
  Theorem C73_constant_speed (none : X) c sp : same_objects g c -> (sp = None \/ exists v, sp = Some (Fin v)) ->
    frame_free g (fun _ => True) (constant_speed_actor (P := P) (K := K) none StateDynamics c sp).
  Proof. apply constant_speed_frame_free. Qed.
  Theorem C73_frozen (none : X) c : same_objects g c ->
    frame_free g (fun _ => True) (sim_agent (P := P) (K := K) none c frozen_update).
  Proof. apply frozen_frame_free. Qed.

  (** The log player has none if no object enters or leaves during the log. *)
  Theorem C73_expert (none : X) c : same_objects g c ->
    frame_free g no_traffic (expert_actor (P := P) (K := K) none StateDynamics c).
  Proof. apply expert_frame_free. Qed.

  (** The library's own choices of controlled objects do not look at coordinates. *)
  Theorem C73_choices : same_objects g control_non_sdc /\ same_objects g control_sdc.
  Proof. split; intros s s' (_ & _ & _ & E & _); [unfold control_non_sdc|unfold control_sdc]; now rewrite E. Qed.

  (** A planner that looks at the scene in the SDC's own frame and answers with bicycle
      controls or displacements in that frame plans the same episode, whatever the frame
      of the map, and the sim agents react to it in the same way. *)
  Theorem C73_planned ok k topk pl i : planned g (pe_dyn e) same_action -> Forall (frame_free g ok) (pe_agents e) ->
    c_allow_new_objects (pe_cfg e) = false -> own_frame_planner pl ->
    forall keys ps ps', moved_pstate g ps ps' -> on_record (ps_state ps) -> ok (s_log (ps_state ps)) ->
      markers_alike (ps_state ps) (ps_state ps') -> the_sdc (s_meta (ps_state ps)) i ->
      (exists cur c, current_sim (ps_state ps) = Ok cur /\ nth_error cur i = Some c /\ p_valid c = true) ->
      alike (moved_pstate g) (planned_episode split e k topk pl keys ps) (planned_episode split e k topk pl keys ps').
  Proof. intros HD HA CI HP keys ps ps' MP OR HO MA SD HV. eapply moved_planned with (i := i); eauto. split; assumption. Qed.

  (** What the planning environment reports: with any registry of metrics that say the
      same about the SDC in both frames, the same dictionary for the SDC, or the same
      error. *)
  Theorem C73_metrics reg ps ps' i : moved_pstate g ps ps' -> the_sdc (s_meta (ps_state ps)) i ->
    (forall name m, In name (pe_metrics e) -> lookup name reg = Some m ->
       alike (same_for_sdc (s_meta (ps_state ps)) i) (m (ps_state ps)) (m (ps_state ps'))) ->
    alike (same_report (s_meta (ps_state ps)) i) (penv_metrics reg e ps) (penv_metrics reg e ps').
  Proof. intros MP US H. now apply moved_metrics with (g := g). Qed.

  (** The planner's reward, for any weights. *)
  Theorem C73_reward reg ps ps' i : moved_pstate g ps ps' -> the_sdc (s_meta (ps_state ps)) i ->
    c_controlled (pe_cfg e) = SDC ->
    (forall name m, In name (map fst (pe_rewards e)) -> lookup name reg = Some m ->
       alike (same_for_sdc (s_meta (ps_state ps)) i) (m (ps_state ps)) (m (ps_state ps'))) ->
    alike eq (penv_reward reg e ps) (penv_reward reg e ps').
  Proof. intros MP US HC H. now apply moved_reward with (g := g) (i := i) (ms := s_meta (ps_state ps)). Qed.

  (** The metrics the library ships are such metrics while the SDC is in the scene. *)
  Theorem C73_shipped_metrics n T s s' i cur c name m : moved_state g s s' -> wf_state n T s ->
    current_sim s = Ok cur -> nth_error cur i = Some c -> p_valid c = true ->
    lookup name initial_registry = Some m -> comparable name s s' i ->
    alike (same_for_sdc (s_meta s) i) (m s) (m s').
  Proof. apply shipped_report. Qed.
End C73.

(* ---------------- what does not hold ---------------- *)

Lemma shifted y x yaw v : moved_pt (mkmotion 0 0 y) (bpt x 0 yaw v) (bpt x y yaw v).
Proof.
  split; [repeat split|]. split; [do 3 eexists; split; [reflexivity|split; reflexivity]|]. split; [reflexivity|]. intros _.
  exists (mkkin x 0 yaw 0 0), (mkkin x y yaw 0 0). split; [repeat split|]. split; [repeat split|].
  unfold moved_kin, moved_point, moved_vector, move; cbn. rewrite cos_0, sin_0.
  split; [f_equal; ring|]. split; [f_equal; ring|]. exists 0%Z. ring.
Qed.

(** ConstantSpeedPolicy invalidates its object at the end of the route.  The environment
    does not hear of it: the action sends the object to the marker (-1, -1), which is
    another place in every frame. *)
Definition stop (y : R) : state (S := XR) :=
  mkstate [[bpt 0 y 0 true; invalid_pt]] [[bpt 0 y 0 true; bpt 0 y 0 true]] [] [bmeta false] 0 None None.

Lemma stop_moved y : moved_state (mkmotion 0 0 y) (stop 0) (stop y).
Proof.
  unfold moved_state, stop; cbn. split; [|split; [|repeat split]].
  - constructor; [|constructor]. constructor; [apply shifted|constructor; [apply moved_invalid|constructor]].
  - constructor; [|constructor]. constructor; [apply shifted|constructor; [apply shifted|constructor]].
  - constructor.
Qed.
Lemma stop_record y : on_record (stop y).
Proof.
  intros [|[|i]] r l Hr Hl _; cbn in Hr, Hl; try discriminate. apply Some_inj in Hl. subst l.
  exists (bpt 0 y 0 true). split; [now left|reflexivity].
Qed.

Theorem C73_end_of_route_refuted :
  ~ forall g c v, same_objects g c ->
      frame_free g (fun _ => True) (sim_agent (P := unit) (K := unit) tt c (constant_speed_policy (S := XR) (Fin v))).
Proof.
  intros H. set (g := mkmotion 0 0 10).
  destruct (H g control_non_sdc 10 (proj1 (C73_choices g))) as (_ & H1).
  specialize (H1 tt (stop 0) (stop 10) tt None (stop_moved 10) (stop_record 0) I).
  assert (ST : forall y, constant_speed_policy (S := XR) (Fin 10) (stop y) =
    Ok [mkupd (p_x invalid_pt) (p_y invalid_pt) (p_yaw invalid_pt) (p_vx invalid_pt) (p_vy invalid_pt) false]).
  { intros y. set (log := [bpt 0 y 0 true; bpt 0 y 0 true]).
    assert (F : is_frame (bpt 0 y 0 true) (mkrf 0 y 0 0 0 0 4 2)) by (repeat split).
    assert (W : forall j p, nth_error log j = Some p -> p_valid p = true -> exists w, is_way p w).
    { intros [|[|j]] p E _; cbn in E; [| |destruct j; discriminate]; apply Some_inj in E; subst p; exists (mkway 0 y 0); repeat split. }
    destruct (next_real true log (bpt 0 y 0 true) _ 10 0 (bpt 0 y 0 true) eq_refl F W eq_refl eq_refl) as (w & p & N & Ep & _ & _ & _ & D).
    assert (EW : wx w = 0 /\ wy w = y).
    { destruct N as (k & q & Eq & _ & (A & B & _) & _).
      destruct k as [|[|k]]; cbn in Eq; [| |destruct k; discriminate]; apply Some_inj in Eq; subst q; cbn in A, B;
        injection A as A; injection B as B; auto. }
    assert (p = invalid_pt) as ->.
    { apply D; [|reflexivity|lra]. left. exists (mkway 0 y 0). split.
      - exists 1%nat, (bpt 0 y 0 true). split; [reflexivity|]. split; [reflexivity|]. split; [repeat split|].
        intros [|[|j]] p' E _; [lia|lia|destruct j; discriminate].
      - destruct EW as (A & B). unfold dist, wxy; cbn. rewrite A, B.
        replace ((0 - 0) * (0 - 0) + (y - y) * (y - y)) with 0 by ring. rewrite sqrt_0. lra. }
    change (bind (bind (next_by_projection (S := XR) true default_time_delta log (bpt 0 y 0 true) (Fin 10) true)
        (fun p => Ok (mkupd (p_x p) (p_y p) (p_yaw p) (p_vx p) (p_vy p) (p_valid p)))) (fun b => Ok [b])
      = Ok [mkupd (p_x invalid_pt) (p_y invalid_pt) (p_yaw invalid_pt) (p_vx invalid_pt) (p_vy invalid_pt) false]).
    rewrite Ep. reflexivity. }
  cbn [sim_agent ac_select] in H1. rewrite !ST in H1. cbn [bind alike] in H1.
  destruct H1 as (_ & _ & _ & _ & _ & M). cbn [o_controlled o_action map] in M.
  destruct (M [bpt 0 0 0 true] 0%nat (bpt 0 0 0 true) _ _ eq_refl eq_refl eq_refl eq_refl eq_refl eq_refl) as (k & k' & (MK & _) & E & E' & _).
  unfold as_action in E, E'. cbn [a_data u_x u_y u_yaw u_vx u_vy invalid_pt p_x p_y p_yaw p_vx p_vy] in E, E'. rewrite fm1_Fin in E, E'.
  injection E as Ex Ey _ _ _. injection E' as Ex' Ey' _ _ _.
  unfold moved_point, move, g in MK; cbn in MK. rewrite cos_0, sin_0 in MK. injection MK as M1 M2. lra.
Qed.

(** The log player sends an object that leaves the log to its marker. *)
Definition leaver (y : R) : state (S := XR) :=
  mkstate [[bpt 0 y 0 true; invalid_pt]] [[bpt 0 y 0 true; invalid_pt]] [] [bmeta false] 0 None None.

Theorem C73_expert_leaving_refuted :
  ~ forall g c, same_objects g c ->
      frame_free g (fun _ => True) (expert_actor (S := XR) (P := unit) (K := unit) tt StateDynamics c).
Proof.
  intros H. set (g := mkmotion 0 0 10).
  destruct (H g control_non_sdc (proj1 (C73_choices g))) as (_ & H1).
  assert (MS : moved_state g (leaver 0) (leaver 10)).
  { unfold moved_state, leaver; cbn. split; [|split; [|repeat split]].
    - constructor; [|constructor]. constructor; [apply shifted|constructor; [apply moved_invalid|constructor]].
    - constructor; [|constructor]. constructor; [apply shifted|constructor; [apply moved_invalid|constructor]].
    - constructor. }
  assert (OR : on_record (leaver 0)).
  { intros [|[|i]] r l Hr Hl _; cbn in Hr, Hl; try discriminate. apply Some_inj in Hl. subst l.
    exists (bpt 0 0 0 true). split; [now left|reflexivity]. }
  specialize (H1 tt (leaver 0) (leaver 10) tt None MS OR I). cbn [alike expert_actor ac_select] in H1.
  assert (ST : forall y, Expert.infer_expert_action (S := XR) StateDynamics (leaver y) =
    Ok [mkact [p_x invalid_pt; p_y invalid_pt; p_yaw invalid_pt; p_vx invalid_pt; p_vy invalid_pt] false]) by reflexivity.
  rewrite !ST in H1. cbn [bind alike] in H1.
  destruct H1 as (_ & _ & _ & _ & _ & M). cbn [o_controlled o_action map] in M.
  destruct (M [bpt 0 0 0 true] 0%nat (bpt 0 0 0 true) _ _ eq_refl eq_refl eq_refl eq_refl eq_refl eq_refl) as (k & k' & (MK & _) & E & E' & _).
  cbn [a_data invalid_pt p_x p_y p_yaw p_vx p_vy] in E, E'. rewrite fm1_Fin in E, E'.
  injection E as Ex Ey _ _ _. injection E' as Ex' Ey' _ _ _.
  unfold moved_point, move, g in MK; cbn in MK. rewrite cos_0, sin_0 in MK. injection MK as M1 M2. lra.
Qed.

(** An object whose box at the first step of the log overlaps the marker of an absent
    object is not driven by sim agents; in another frame it is. *)
Definition ghost (y : R) : state (S := XR) :=
  mkstate [[bpt 0 y 0 true; invalid_pt]; [bpt 0 0 0 false; invalid_pt]]
    [[bpt 0 y 0 true; bpt 0 y 0 true]; [bpt 0 0 0 false; bpt 0 0 0 false]] [] [bmeta false; bmeta true] 0 None None.
Definition ghost_env : penv (S := XR) unit unit unit :=
  mkpenv StateDynamics (mkcfg 2 1 SDC false) [] [] false
    [constant_speed_actor tt StateDynamics control_non_sdc (Some (Fin 10))] [tt].

Lemma ghost_overlap y : initialized_overlap (s_log (ghost y)) =
  Ok [has_overlap (fbox (mkrbox 0 y 4 2 0)) (fbox (mkrbox 0 0 4 2 0)); has_overlap (fbox (mkrbox 0 0 4 2 0)) (fbox (mkrbox 0 y 4 2 0))].
Proof.
  unfold initialized_overlap. change (dynamic_index (s_log (ghost y)) 0) with (@Ok (list (pt (S := XR))) [bpt 0 y 0 true; bpt 0 0 0 false]).
  cbn [bind]. unfold compute_pairwise_overlaps, mapi. cbn [map length mapi_from Nat.eqb existsb].
  rewrite ?orb_false_r, ?orb_false_l. reflexivity.
Qed.

Theorem C73_marker_refuted :
  ~ forall g (e : penv (S := XR) unit unit unit) A, planned g (pe_dyn e) A ->
      Forall (frame_free g (fun _ => True)) (pe_agents e) -> c_allow_new_objects (pe_cfg e) = false ->
      forall al al' ps ps', Forall2 (fun x x' => A (fst x) (fst x') /\ snd x' = snd x) al al' ->
        moved_pstate g ps ps' -> on_record (ps_state ps) ->
        alike (moved_pstate g) (penv_steps (fun k _ _ => k) e ps al) (penv_steps (fun k _ _ => k) e ps' al').
Proof.
  intros H. set (g := mkmotion 0 0 100). set (a := mkact (S := XR) [Fin 0; Fin 0; Fin 0; Fin 0; Fin 0] true).
  set (a' := mkact (S := XR) [Fin 0; Fin 100; Fin 0; Fin 0; Fin 0] true).
  assert (MS : moved_state g (ghost 0) (ghost 100)).
  { assert (AB : moved_pt g (bpt 0 0 0 false) (bpt 0 0 0 false)).
    { split; [repeat split|]. split; [do 3 eexists; split; [reflexivity|split; reflexivity]|]. split; [reflexivity|discriminate]. }
    unfold moved_state, ghost; cbn. split; [|split; [|repeat split]].
    - constructor; [|constructor; [|constructor]]; (constructor; [first [apply shifted|exact AB]|constructor; [apply moved_invalid|constructor]]).
    - constructor; [|constructor; [|constructor]].
      + constructor; [apply shifted|constructor; [apply shifted|constructor]].
      + constructor; [exact AB|constructor; [exact AB|constructor]].
    - constructor. }
  assert (OR : on_record (ghost 0)).
  { intros [|[|[|i]]] r l Hr Hl (p & Hp & V); cbn in Hr, Hl; try discriminate; apply Some_inj in Hl, Hr; subst l r.
    - exists (bpt 0 0 0 true). split; [now left|reflexivity].
    - destruct Hp as [<-|[<-|[]]]; discriminate. }
  assert (MA : moved_action g a a').
  { exists (mkkin 0 0 0 0 0), (mkkin 0 100 0 0 0). split; [|repeat split].
    unfold moved_kin, moved_point, moved_vector, move, g; cbn. rewrite cos_0, sin_0.
    split; [f_equal; ring|]. split; [f_equal; ring|]. exists 0%Z. ring. }
  specialize (H g ghost_env _ (PlannedState g)).
  specialize (H (Forall_cons _ (C73_constant_speed g tt _ _ (proj1 (C73_choices g)) (or_intror (ex_intro _ 10 eq_refl))) (Forall_nil _)) eq_refl
    [(a, None)] [(a', None)] (mkps (ghost 0) [tt]) (mkps (ghost 100) [tt])).
  specialize (H ltac:(constructor; [split; [exact MA|reflexivity]|constructor]) (conj MS eq_refl) OR).
  assert (O0 : forall b b', initialized_overlap (s_log (ghost 0)) = Ok [b; b'] -> b = true).
  { intros b b' E. rewrite ghost_overlap in E. injection E as <- _. apply overlap_exact.
    exists (0, 0). split; exists 0, 0; cbn; rewrite Rabs_R0, !Rabs_pos_eq by lra;
      (split; [lra|]; split; [lra|]; unfold rpoint; cbn; rewrite cos_0, sin_0; f_equal; ring). }
  assert (O1 : forall b b', initialized_overlap (s_log (ghost 100)) = Ok [b; b'] -> b = false).
  { intros b b' E. rewrite ghost_overlap in E. injection E as <- _. apply not_true_is_false. intros O.
    apply overlap_exact in O as ((px & py) & (u & v & Hu & Hv & E1) & (u' & v' & Hu' & Hv' & E2)).
    cbn in Hu, Hv, Hu', Hv'. rewrite (Rabs_pos_eq 4), ?(Rabs_pos_eq 2) in * by lra. unfold rpoint in E1, E2; cbn in E1, E2. rewrite cos_0, sin_0 in E1, E2.
    injection E1 as E1 E1'. injection E2 as E2 E2'. apply Rabs_def2 in Hv, Hv'. lra. }
  cbn [penv_steps] in H.
  assert (ST : forall y b b' ac, a_data ac = [Fin 0; Fin y; Fin 0; Fin 0; Fin 0] -> initialized_overlap (s_log (ghost y)) = Ok [b; b'] ->
     exists q ps1, penv_step (fun k _ _ => k) ghost_env (mkps (ghost y) [tt]) ac None = Ok ps1 /\
     at2 (s_sim (ps_state ps1)) 0 1 = Some q /\ p_valid q = true /\ p_x q = if b then Fin 0 else Fin 1).
  { intros y b b' [d v] Ed E. cbn in Ed. subst d. unfold penv_step. cbn [ps_state ps_actors ghost_env pe_dyn pe_agents pe_params pe_cfg].
    change (current_sim (ghost y)) with (@Ok (list (pt (S := XR))) [bpt 0 y 0 true; bpt 0 0 0 false]). cbn [bind].
    rewrite E. destruct b; (eexists; eexists; split; [reflexivity|]; split; [reflexivity|]; split; [reflexivity|]).
    - reflexivity.
    - cbn [next_pt p_x u_x m_is_sdc bmeta negb andb orb]. unfold constant_speed_next. cbn [p_x bpt p_yaw]. rewrite time_interval_Fin.
      xr. f_equal. rewrite cos_0. lra. }
  destruct (ST 0 _ _ a eq_refl (ghost_overlap 0)) as (q & ps1 & E & I1 & V & X).
  destruct (ST 100 _ _ a' eq_refl (ghost_overlap 100)) as (q' & ps1' & E' & I1' & V' & X').
  rewrite (O0 _ _ (ghost_overlap 0)) in X. rewrite (O1 _ _ (ghost_overlap 100)) in X'. rewrite E, E' in H. cbn [bind alike] in H.
  destruct H as ((H & _) & _).
  assert (M : moved_pt g q q').
  { unfold at2 in I1, I1'. destruct (nth_error (s_sim (ps_state ps1)) 0) as [r|] eqn:Er; [|discriminate].
    destruct (nth_error (s_sim (ps_state ps1')) 0) as [r'|] eqn:Er'; [|discriminate].
    destruct (Forall2_nth1 _ _ _ _ _ H Er) as (r2 & E2 & HR). assert (r2 = r') as -> by congruence.
    destruct (Forall2_nth1 _ _ _ _ _ HR I1) as (q2 & E3 & M). congruence. }
  destruct M as (_ & _ & _ & M). destruct (M V) as (k & k' & (K1 & _) & (L1 & _) & (MK & _)).
  rewrite X in K1. rewrite X' in L1. injection K1 as K1. injection L1 as L1.
  unfold moved_point, move, g in MK; cbn in MK. rewrite cos_0, sin_0 in MK. injection MK as M1 M2. lra.
Qed.

(* ---------------- a concrete scene ---------------- *)

(** The two cars of C68: the SDC, planned with bicycle controls from what it sees in its
    own frame, and a car 20 m ahead, driven by the default IDM sim agent. *)
Definition plan_env : penv (S := XR) unit unit unit :=
  mkpenv (InvertibleBicycleModel (bparams (1 / 10) 6 (3 / 10) false)) (mkcfg 2 1 SDC false) [] [] false
    [idm_actor tt control_non_sdc default_idm] [tt].
Definition look (v : list (view (S := XR))) : act (S := XR) :=
  match v with x :: _ => brake x | [] => mkact [Fin 0; Fin 0] true end.

Lemma look_own_frame : own_frame_planner look.
Proof.
  split.
  - intros v v' H. destruct H as [|x x' v v' Hx _]; [reflexivity|]. now apply brake_own_frame.
  - intros [|x v]; cbn; repeat constructor; eexists; reflexivity.
Qed.

Lemma idm_free_of_frames g : Forall (frame_free g (fun _ => True)) (pe_agents plan_env).
Proof.
  constructor; [|constructor].
  exact (C73_idm g tt control_non_sdc default_idm _ _ _ _ _ _ _ (proj1 (C73_choices g)) default_idm_real default_idm_distance eq_refl).
Qed.

Lemma scene_markers g s' : moved_state g scene s' -> markers_alike scene s'.
Proof.
  intros _ f f' i j p q p' q' E _ Hp Hq _ _ V. exfalso.
  change (dynamic_index (s_log scene) 0) with (@Ok (list (pt (S := XR))) [cpt 0 10; cpt 20 10]) in E. apply Ok_inj in E. subst f.
  assert (A : forall k r, nth_error [cpt 0 10; cpt 20 10] k = Some r -> p_valid r = true).
  { intros [|[|k]] r H; [apply Some_inj in H; now subst..|destruct k; discriminate]. }
  rewrite (A _ _ Hp), (A _ _ Hq) in V. discriminate.
Qed.
Lemma scene_record : on_record scene.
Proof.
  intros [|[|[|i]]] r l Hr Hl _; cbn in Hr, Hl; try discriminate; apply Some_inj in Hl; subst l.
  - exists (cpt 0 10). split; [now left|reflexivity].
  - exists (cpt 20 10). split; [now left|reflexivity].
Qed.

Lemma plan_actors s a key ps1 : penv_step (fun k _ _ => k) plan_env (mkps s [tt]) a key = Ok ps1 -> ps_actors ps1 = [tt].
Proof.
  intros H. unfold penv_step in H. cbn [ps_state ps_actors plan_env pe_agents pe_params pe_dyn pe_cfg length] in H.
  apply bind_Ok in H as (cur & _ & H). apply bind_Ok in H as (us & _ & H). apply bind_Ok in H as (ov & _ & H).
  apply bind_Ok in H as (u & _ & H). apply bind_Ok in H as (((ac & ct) & xs) & HM & H). apply bind_Ok in H as (sim & _ & H).
  apply Ok_inj in H. subst ps1. cbn [ps_actors].
  destruct key; cbn [split_keys seq map repeat merge_sim_agents] in HM; apply bind_Ok in HM as (o & _ & HM); apply bind_Ok in HM as (u1 & _ & HM);
    apply bind_Ok in HM as (a1 & _ & HM); cbn [bind] in HM; apply Ok_inj in HM; injection HM as _ _ <-; now destruct (o_state o).
Qed.

Lemma plan_total rg : s_rg scene = Some rg -> forall keys t s, obs_wf 2 0 3 t s -> s_rg s = Some rg -> (t + length keys < 3)%nat ->
  exists r, planned_episode (fun k _ _ => k) plan_env 1 1 look keys (mkps s [tt]) = Ok r /\ s_t (ps_state r) = Z.of_nat (t + length keys).
Proof.
  intros Hrg. induction keys as [|key keys IH]; intros t s W Hr Ht; cbn [length] in Ht.
  { exists (mkps s [tt]). split; [reflexivity|]. cbn [ps_state length]. rewrite Nat.add_0_r. apply W. }
  cbn [planned_episode ps_state].
  destruct (sdc_observation_spec 2 0 3 t s 1 1 FRAME_SDC rg W ltac:(lia) Hr ltac:(cbn in Hrg; injection Hrg as <-; cbn; lia))
    as (win & tlw & isdc & psdc & rgf & _ & _ & _ & _ & _ & _ & _ & _ & Eo).
  rewrite Eo. cbn [bind]. set (a := look _).
  pose proof W as (W0 & Q & Et & _).
  destruct (planning_step_total (fun k _ _ => k) 2 3 plan_env s [tt] a key _ W0 (bicycle_total _)) as (ps1 & E1); try reflexivity.
  { intros ag p x k [<-|[]] _ _. unfold idm_actor. cbn [sim_agent ac_select].
    assert (exists ups, idm_policy default_idm s = Ok ups /\ length ups = 2%nat) as (ups & Hu & Lu).
    { destruct (idm_update_total 2 3 default_idm s W0 (or_introl eq_refl)) as (sv & Hs & Ls). eapply waypoint_total; eauto. }
    rewrite Hu. cbn [bind]. eexists. split; [reflexivity|]. cbn [o_controlled o_action].
    split; [unfold control_non_sdc; rewrite map_length; apply W0|]. split; [now rewrite map_length|].
    apply Forall_forall. intros b Hin. apply in_map_iff in Hin as (u & <- & _). reflexivity. }
  rewrite E1. cbn [bind].
  assert (E1' : penv_steps (fun k _ _ => k) plan_env (mkps s [tt]) [(a, key)] = Ok ps1) by (cbn [penv_steps]; now rewrite E1).
  destruct (steps_basic (fun k _ _ => k) 2 3 plan_env [(a, key)] (mkps s [tt]) ps1 t eq_refl W0 Et ltac:(cbn; lia) E1') as (SC & W1 & T1 & _).
  destruct SC as (_ & S2 & _ & S4 & S5). cbn [ps_state length] in *.
  destruct ps1 as [s1 xs1]. pose proof (plan_actors _ _ _ _ E1) as EX. cbn [ps_actors ps_state] in *. subst xs1.
  destruct (IH (t + 1)%nat s1) as (r & Er & Etr).
  - split; [exact W1|]. split; [congruence|]. split; [exact T1|lia].
  - congruence.
  - lia.
  - exists r. split; [exact Er|]. rewrite Etr. f_equal. lia.
Qed.

(** The planner and the sim agent drive the scene as it is and the scene in the frame
    turned by 1 rad and shifted by (100, -7), and what happens is the same. *)
Example C73_example :
  exists s' r r', moved_state (mkmotion 1 100 (-7)) scene s' /\
    planned_episode (fun k _ _ => k) plan_env 1 1 look [None; None] (mkps scene [tt]) = Ok r /\
    planned_episode (fun k _ _ => k) plan_env 1 1 look [None; None] (mkps s' [tt]) = Ok r' /\
    moved_pstate (mkmotion 1 100 (-7)) r r' /\ s_t (ps_state r') = 2%Z.
Proof.
  set (g := mkmotion 1 100 (-7)).
  destruct (C68_every_scene g scene scene_tame) as (s' & MS).
  destruct (plan_total _ eq_refl [None; None] 0 scene scene_wf eq_refl ltac:(cbn; lia)) as (r & Er & Et).
  assert (HD : planned g (pe_dyn plan_env) same_action) by (apply PlannedBicycle; lra).
  pose proof (C73_planned (fun k _ _ => k) g plan_env (fun _ => True) 1 1 look 0 HD (idm_free_of_frames g) eq_refl look_own_frame
    [None; None] (mkps scene [tt]) (mkps s' [tt]) (conj MS eq_refl) scene_record I (scene_markers g s' MS)) as A.
  specialize (A ltac:(split; [exists (bmeta true); split; reflexivity|intros [|[|[|j]]] m H; cbn in H; try discriminate; try reflexivity; apply Some_inj in H; subst m; discriminate])).
  specialize (A ltac:(eexists; eexists; split; [reflexivity|split; reflexivity])).
  rewrite Er in A. destruct (planned_episode _ _ _ _ _ _ (mkps s' [tt])) as [r'|] eqn:E'; [|contradiction]. cbn [alike] in A.
  exists s', r, r'. split; [exact MS|]. split; [exact Er|]. split; [exact E'|]. split; [exact A|].
  destruct A as ((_ & _ & _ & _ & -> & _) & _). exact Et.
Qed.

(** In this scene the planner's vehicle is asked for its collisions, its
    distance from the road and its feasibility, and rewarded; the other frame agrees. *)
Definition judged_env : penv (S := XR) unit unit unit :=
  mkpenv (pe_dyn plan_env) (pe_cfg plan_env) [("overlap"%string, Fin (-10)); ("offroad"%string, Fin (-1))]
    ["overlap"%string; "offroad"%string; "kinematic_infeasibility"%string] true (pe_agents plan_env) [tt].

Lemma judged_comparable g s s' name m : moved_state g s s' -> s_rg s = s_rg scene -> wf_state 2 3 s -> s_meta s = s_meta scene ->
  (exists cur c, current_sim s = Ok cur /\ nth_error cur 0 = Some c /\ p_valid c = true) ->
  In name ["overlap"%string; "offroad"%string; "kinematic_infeasibility"%string] -> lookup name initial_registry = Some m ->
  alike (same_for_sdc (s_meta s) 0) (m s) (m s').
Proof.
  intros MS Er W Em (cur & c & Ec & Ei & V) Hn Hl. eapply C73_shipped_metrics; eauto.
  destruct Hn as [<-|[<-|[<-|[]]]]; cbn; auto. eexists. split; [exact Er|].
  destruct C68_conditions as ((rg & Hr & CL) & _). injection Hr as <-. exact CL.
Qed.

Example C73_example_report :
  exists s' rep rep' w, moved_state (mkmotion 1 100 (-7)) scene s' /\
    penv_metrics initial_registry judged_env (mkps scene [tt]) = Ok rep /\
    penv_metrics initial_registry judged_env (mkps s' [tt]) = Ok rep' /\
    map fst rep = ["overlap"%string; "offroad"%string; "kinematic_infeasibility"%string] /\
    same_report (s_meta scene) 0 rep rep' /\
    penv_reward initial_registry judged_env (mkps scene [tt]) = Ok w /\
    penv_reward initial_registry judged_env (mkps s' [tt]) = Ok w.
Proof.
  set (g := mkmotion 1 100 (-7)).
  destruct (C68_every_scene g scene scene_tame) as (s' & MS).
  assert (US : the_sdc (s_meta scene) 0).
  { split; [exists (bmeta true); split; reflexivity|]. intros [|[|[|j]]] m H; cbn in H; try discriminate; try reflexivity. apply Some_inj in H. subst m. discriminate. }
  assert (CV : exists cur c, current_sim scene = Ok cur /\ nth_error cur 0 = Some c /\ p_valid c = true)
    by (do 2 eexists; split; [reflexivity|split; reflexivity]).
  pose proof (C73_metrics g judged_env initial_registry (mkps scene [tt]) (mkps s' [tt]) 0 (conj MS eq_refl) US
    (fun name m Hn Hl => judged_comparable g scene s' name m MS eq_refl (proj1 scene_wf) eq_refl CV Hn Hl)) as A.
  pose proof (C73_reward g judged_env initial_registry (mkps scene [tt]) (mkps s' [tt]) 0 (conj MS eq_refl) US eq_refl) as B.
  specialize (B (fun name m Hn Hl => judged_comparable g scene s' name m MS eq_refl (proj1 scene_wf) eq_refl CV
    (match Hn with or_introl h => or_introl h | or_intror (or_introl h) => or_intror (or_introl h) | or_intror (or_intror h) => match h with end end) Hl)).
  assert (ER : exists rep, penv_metrics initial_registry judged_env (mkps scene [tt]) = Ok rep /\
    map fst rep = ["overlap"%string; "offroad"%string; "kinematic_infeasibility"%string]) by (eexists; split; reflexivity).
  assert (EW : exists w, penv_reward initial_registry judged_env (mkps scene [tt]) = Ok w) by (eexists; reflexivity).
  destruct ER as (rep & ER & EN), EW as (w & EW). rewrite ER in A. rewrite EW in B.
  destruct (penv_metrics _ _ (mkps s' [tt])) as [rep'|] eqn:ER'; [|contradiction].
  destruct (penv_reward _ _ (mkps s' [tt])) as [w'|] eqn:EW'; [|contradiction]. cbn [alike] in A, B. subst w'.
  exists s', rep, rep', w. split; [exact MS|]. split; [exact ER|]. split; [exact ER'|]. split; [exact EN|]. split; [exact A|]. split; [exact EW|exact EW'].
Qed.

Print Assumptions C73_reset.
Print Assumptions C73_episode.
Print Assumptions C73_run.
Print Assumptions C73_idm.
Print Assumptions C73_constant_speed.
Print Assumptions C73_frozen.
Print Assumptions C73_expert.
Print Assumptions C73_choices.
Print Assumptions C73_planned.
Print Assumptions C73_end_of_route_refuted.
Print Assumptions C73_expert_leaving_refuted.
Print Assumptions C73_marker_refuted.
Print Assumptions C73_metrics.
Print Assumptions C73_reward.
Print Assumptions C73_shipped_metrics.
