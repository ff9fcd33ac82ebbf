(** C67: the IDM sim agent in the planning environment's closed loop. *)
From Coq Require Import Reals List ZArith Bool Lra Lia.
From Verif.Lib Require Import Base JaxIndex Scalar XR.
From Verif.Model Require Import Operations State Dynamics BaseEnv Dyn_State Geometry Discretizer Comfort Metrics Actor Waypoint PlanningEnv.
From Verif.Props Require Import ExR.
From Verif.Spec Require Import StateSpec GeomSpec DynSpec AgentSpec WaypointSpec DriveSpec TrafficSpec PlanSpec ClosedSpec.
From Verif.Proofs Require Import Core Episode P_Step P_Actions P_Expert P_Plan P_PlanRun P_Pose P_Overlap P_Metrics P_MetricsRun P_IDM P_Lead P_IDMRun P_Waypoint P_Drive P_Traffic P_Closed.
From Verif.Props Require Import ExW C64 C66.
Import ListNotations.
Open Scope R_scope.

Section Closed.
  Context {P X K : Type} (split : K -> nat -> nat -> K).
  Variables (n T : nat) (e : penv (S := XR) P X K) (none : X) (ctrl : state (S := XR) -> list bool)
    (s : state (S := XR)) (rng : option K) (acts : list (act (S := XR) * option K)) (ps' : pstate (S := XR) X) (i : nat)
    (log : list (pt (S := XR))) (p0 : pt (S := XR)) (f0 : rframe).
  Let a := (c_init_steps (pe_cfg e) - 1)%nat.
  Let sim := s_sim (ps_state ps').

  (** Whatever the planner does, whatever dynamics it uses, and whatever the other
      objects do, an object driven by an IDM sim agent stays valid, on its route, keeps
      its size, gains at most one acceleration step of speed per step, and never exceeds
      the larger of its initial and the desired speed. *)
  Theorem C67_idm_sim_agent_episode p v0 s0 th aa b delta :
    length (pe_params e) = length (pe_agents e) ->
    wf_scenario n T s -> (1 <= c_init_steps (pe_cfg e))%nat ->
    (c_init_steps (pe_cfg e) + length acts <= T)%nat ->
    run_planning split e s rng acts = Ok ps' ->
    (i < n)%nat -> drives_object e s i (idm_actor none ctrl p) ->
    nth_error (s_log s) i = Some log -> real_route log ->
    at2 (s_log s) i (c_init_steps (pe_cfg e) - 1) = Some p0 -> p_valid p0 = true -> is_frame p0 f0 ->
    idm_invalidate_on_end p = false -> idm_real p v0 s0 th aa b delta ->
    forall j, (j <= length acts)%nat -> exists q f,
      at2 (s_sim (ps_state ps')) i (c_init_steps (pe_cfg e) - 1 + j) = Some q /\ p_valid q = true /\ is_frame q f /\
      on_route log f /\ fz f = fz f0 /\ flen f = flen f0 /\ fwid f = fwid f0 /\
      rspeed f <= rspeed f0 + INR j * (aa * (1 / 10)) /\
      (aa * delta * (1 / 10) <= v0 -> rspeed f <= Rmax v0 (rspeed f0)).
  Proof.
    intros Lp W HI HL Run Hi Hd Hlog HR H0 V0 F0 Hinv HP.
    pose proof (planning_steered split n T e s rng acts ps' i none ctrl (idm_policy p) Lp W HI HL Run Hi Hd) as St.
    destruct (planning_basic split n T e s rng acts ps' Lp W HI HL Run) as (_ & _ & _ & Wu).
    assert (L0 : nth_error log a = Some p0) by (unfold at2 in H0; now rewrite Hlog in H0).
    assert (S0 : at2 sim i a = Some p0). { unfold sim. rewrite Wu by (unfold a; lia). exact H0. }
    exact (c_episode n T p (s_log s) sim a (length acts) i log p0 f0 St Hi Hlog HR L0 S0 V0 F0 Hinv v0 s0 th aa b delta HP).
  Qed.

  (** Collision avoidance in the closed loop.  The default IDM sim agent drives object i
      along a straight road, at the start at no more than 66 m/s.  Every other object --
      the SDC driven by the planner, objects driven by other sim agents, objects that
      follow the log -- is simulated beside the path, or ahead on the path, moving on at
      every step by at least its own speed times 0.1 s; those ahead do not overtake each
      other.  Then the object never touches any of them, however long the episode. *)
  Theorem C67_idm_sim_agent_never_hits_traffic_ahead :
    length (pe_params e) = length (pe_agents e) ->
    wf_scenario n T s -> (1 <= c_init_steps (pe_cfg e))%nat ->
    (c_init_steps (pe_cfg e) + length acts <= T)%nat ->
    run_planning split e s rng acts = Ok ps' ->
    (i < n)%nat -> drives_object e s i (idm_actor none ctrl default_idm) ->
    nth_error (s_log s) i = Some log -> straight_route log f0 ->
    at2 (s_log s) i (c_init_steps (pe_cfg e) - 1) = Some p0 -> p_valid p0 = true -> is_frame p0 f0 ->
    rspeed f0 <= 66 ->
    simulated_traffic (s_sim (ps_state ps')) i f0 (c_init_steps (pe_cfg e) - 1) (c_init_steps (pe_cfg e) - 1 + length acts) ->
    far_enough log (s_sim (ps_state ps')) i f0 (c_init_steps (pe_cfg e) - 1) (length acts) ->
    forall j, (j <= length acts)%nat -> exists q f t,
      at2 (s_sim (ps_state ps')) i (c_init_steps (pe_cfg e) - 1 + j) = Some q /\ p_valid q = true /\ is_frame q f /\
      moved f0 f t /\ 0 <= t <= 66 / 10 * INR j /\ rspeed f <= 66 /\
      (forall m g al, m <> i ->
         in_front (s_sim (ps_state ps')) f0 (c_init_steps (pe_cfg e) - 1) (c_init_steps (pe_cfg e) - 1 + length acts) m g al ->
         rspeed f / 20 <= al (c_init_steps (pe_cfg e) - 1 + j)%nat - t) /\
      (forall m r, m <> i -> at2 (s_sim (ps_state ps')) m (c_init_steps (pe_cfg e) - 1 + j) = Some r -> p_valid r = true ->
         exists g, is_frame r g /\ ~ touches f g 0).
  Proof.
    intros Lp W HI HL Run Hi Hd Hlog HS H0 V0 F0 HF [Ho Hord] (len & Cov & Far) j Hj.
    pose proof (planning_steered split n T e s rng acts ps' i none ctrl (idm_policy default_idm) Lp W HI HL Run Hi Hd) as St.
    destruct (planning_basic split n T e s rng acts ps' Lp W HI HL Run) as (_ & W1 & _ & Wu).
    assert (L0 : nth_error log a = Some p0) by (unfold at2 in H0; now rewrite Hlog in H0).
    assert (S0 : at2 sim i a = Some p0). { unfold sim. rewrite Wu by (unfold a; lia). exact H0. }
    assert (Rs : length sim = n) by apply W1.
    fold a sim in Ho, Hord, Far |- *. set (k := length acts) in *.
    assert (Others : forall m, m <> i -> beside sim f0 a (a + k) m \/ exists g al, fvehicle sim a k i f0 m g al).
    { intros m Nm. destruct (Ho m Nm) as [A|(g & al & A)]; [auto|]. right. exists g, al. split; auto. }
    assert (Order : forall m g al m' g' al', fvehicle sim a k i f0 m g al -> fvehicle sim a k i f0 m' g' al' -> keep_order al al' a (a + k)).
    { intros m g al m' g' al' [A1 A2] [B1 B2]. destruct (Nat.eq_dec m m') as [<-|Nm]; [|exact (Hord _ _ _ _ _ _ A1 B1 Nm A2 B2)].
      eapply in_front_same; eauto. }
    assert (Far' : 66 / 10 * INR k <= len \/ exists m g al, fvehicle sim a k i f0 m g al /\ al (a + k)%nat <= len).
    { destruct Far as [A|(m & g & al & A & B & D)]; [auto|]. right. exists m, g, al. split; [split; auto|exact D]. }
    destruct (f_episode n T default_idm (s_log s) sim a k i log p0 f0 len default_idm_real eq_refl default_idm_distance eq_refl
      St Rs Hi Hlog HS L0 S0 V0 F0 eq_refl HF Others Order Cov Far' j Hj)
      as (q & f & t & A1 & A2 & A3 & A4 & A5 & A6 & A7).
    exists q, f, t. do 6 (split; [assumption|]). split.
    - intros m g al Nm Hv. specialize (A7 m g al (conj Nm Hv)). lra.
    - intros m r Nm Er Vr.
      eapply (f_all n T default_idm (s_log s) sim a k i log p0 f0 len default_idm_real eq_refl default_idm_distance eq_refl
        St Rs Hi Hlog HS L0 S0 V0 F0 eq_refl HF Others Order Cov Far' j m q r); eauto.
  Qed.

  (** So the overlap metric of the final state is 0 for it. *)
  Theorem C67_idm_sim_agent_overlap_metric_zero ms :
    length (pe_params e) = length (pe_agents e) ->
    wf_scenario n T s -> (1 <= c_init_steps (pe_cfg e))%nat ->
    (c_init_steps (pe_cfg e) + length acts <= T)%nat ->
    run_planning split e s rng acts = Ok ps' ->
    (i < n)%nat -> drives_object e s i (idm_actor none ctrl default_idm) ->
    nth_error (s_log s) i = Some log -> straight_route log f0 ->
    at2 (s_log s) i (c_init_steps (pe_cfg e) - 1) = Some p0 -> p_valid p0 = true -> is_frame p0 f0 ->
    rspeed f0 <= 66 ->
    simulated_traffic (s_sim (ps_state ps')) i f0 (c_init_steps (pe_cfg e) - 1) (c_init_steps (pe_cfg e) - 1 + length acts) ->
    far_enough log (s_sim (ps_state ps')) i f0 (c_init_steps (pe_cfg e) - 1) (length acts) ->
    overlap_compute (ps_state ps') = Ok ms ->
    nth_error ms i = Some (mkmres (Fin 0) true).
  Proof.
    intros Lp W HI HL Run Hi Hd Hlog HS H0 V0 F0 HF Ho Hcov Hms.
    destruct (C67_idm_sim_agent_never_hits_traffic_ahead Lp W HI HL Run Hi Hd Hlog HS H0 V0 F0 HF Ho Hcov _ (le_n _))
      as (q & f & t & A1 & A2 & A3 & _ & _ & _ & _ & A7).
    destruct (planning_basic split n T e s rng acts ps' Lp W HI HL Run) as (_ & W1 & Et & _). rewrite <- A2.
    refine (P_Drive.overlap_zero n T (ps_state ps') (c_init_steps (pe_cfg e) - 1 + length acts) ms i q f W1 _ _ Hms A1 A3 A7); [rewrite Et|]; lia.
  Qed.
End Closed.

(* ---------------- a scenario ---------------- *)

(** Object 1 is the SDC.  It is logged as standing 20 m ahead of object 0, but the planner
    drives it at 5 m/s; object 0, at 10 m/s, is driven by the IDM sim agent. *)
Definition pflow (k : nat) : state (S := XR) :=
  mkstate [] [map (fun x => rpt x 10) (own k); repeat (rpt 20 5) (k + 2)] []
    [mkmeta 1 1 false true true false false; mkmeta 2 1 true true true false false] 0 None None.
Definition pdrive : penv (S := XR) unit unit unit :=
  mkpenv StateDynamics lcfg [] [] false [idm_actor tt control_non_sdc default_idm] [tt].
Definition steer (t : nat) : act (S := XR) * option unit :=
  (mkact [Fin (20 + INR t / 2); Fin 0; Fin 0; Fin 5; Fin 0] true, None).
Definition steers (k : nat) : list (act (S := XR) * option unit) := map (fun j => steer (Datatypes.S j)) (seq 0 k).

Lemma pflow_wf k : wf_scenario 2 (k + 2) (pflow k).
Proof.
  split; [|repeat split; auto with arith; lia]. split; [reflexivity|].
  intros r [<-|[<-|[]]]; [unfold own; now rewrite !map_length, seq_length|apply repeat_length].
Qed.

Lemma pflow_apart k : ~ starts_overlapping (pflow k) 0.
Proof.
  intros (j & p & q & Nj & Ep & Eq & Ov). destruct j as [|[|j]]; [congruence| |destruct j; discriminate].
  assert (E0 : at2 (s_log (pflow k)) 0 0 = Some (rpt 0 10)).
  { unfold at2. change (nth_error (s_log (pflow k)) 0) with (Some (map (fun x => rpt x 10) (own k))). cbv iota.
    etransitivity; [apply nth_error_map|]. rewrite own_at by lia. cbn. do 2 f_equal. ring. }
  assert (E1 : at2 (s_log (pflow k)) 1 0 = Some (rpt 20 5)) by (cbn; rewrite Nat.add_comm; reflexivity).
  assert (p = rpt 0 10) as -> by congruence. assert (q = rpt 20 5) as -> by congruence.
  rewrite (pt_box_has (rpt 0 10) (advanced (wframe 0 10) 0)), (pt_box_has (rpt 20 5) (advanced (wframe 20 5) 0)) in Ov.
  - apply overlap_exact in Ov as (pp & I1 & I2).
    assert (Tc : touches (wframe 0 10) (wframe 20 5) 0) by (exists pp; split; assumption).
    apply flow_touches in Tc. apply Rabs_def2 in Tc. lra.
  - unfold advanced. repeat split; cbn; f_equal; ring.
  - unfold advanced. repeat split; cbn; f_equal; ring.
Qed.

Lemma pflow_drives k : drives_object pdrive (pflow k) 0 (idm_actor tt control_non_sdc default_idm).
Proof.
  split; [apply pflow_apart|]. exists [], []. split; [reflexivity|]. split; [|intros ? ? ? ? ? ? []].
  intros s1 p x q o (_ & _ & Em & _) Hs. unfold idm_actor in Hs. cbn [sim_agent ac_select] in Hs.
  apply bind_Ok in Hs as (us & _ & Hs). assert (o = mkout tt (map as_action us) (control_non_sdc s1)) as -> by congruence.
  unfold claims. cbn [o_controlled]. unfold control_non_sdc. rewrite Em. reflexivity.
Qed.

Lemma pflow_runs k : exists ps', run_planning (fun q _ _ => q) pdrive (pflow k) None (steers k) = Ok ps'.
Proof.
  eapply (planning_runs (fun q _ _ => q) 2 (k + 2) pdrive (pflow k) None (steers k)); [reflexivity|apply pflow_wf|reflexivity|apply le_n|..].

  - unfold steers. rewrite map_length, seq_length. cbn. lia.
  - exact state_total.
  - apply Forall_forall. intros ak Hin. apply in_map_iff in Hin as (j & <- & _). simpl. lia.
  - intros ag q s1 [<-|[]] _. exists tt. reflexivity.
  - intros ag p x q s1 [<-|[]] W1 _. unfold idm_actor. cbn [sim_agent ac_select].
    assert (exists ups, idm_policy default_idm s1 = Ok ups /\ length ups = 2%nat) as (ups & Hu & Lu).
    { destruct (idm_update_total 2 (k + 2) default_idm s1 W1 (or_introl eq_refl)) as (sv & Hs & Ls).
      eapply waypoint_total; eauto. }
    rewrite Hu. cbn [bind]. eexists. split; [reflexivity|]. cbn [o_controlled o_action].
    split; [unfold control_non_sdc; rewrite map_length; apply W1|]. split; [now rewrite map_length|].
    apply Forall_forall. intros a Hin. apply in_map_iff in Hin as (u & <- & _). reflexivity.
Qed.

(** The planner's actions are carried out. *)
Lemma pflow_sdc k ps' : run_planning (fun q _ _ => q) pdrive (pflow k) None (steers k) = Ok ps' ->
  follows (s_sim (ps_state ps')) 1 (fun t => wframe (20 + INR t / 2) 5) 0 (0 + k).
Proof.
  intros Run. assert (Ls : length (steers k) = k) by (unfold steers; now rewrite map_length, seq_length).
  assert (HL : (1 + length (steers k) <= k + 2)%nat) by lia.
  destruct (planning_basic (fun q _ _ => q) 2 (k + 2) pdrive (pflow k) None (steers k) ps' eq_refl (pflow_wf k) (le_n 1) HL Run) as (_ & _ & _ & Wu).
  intros t Ht. assert (Ht' : (t <= k)%nat) by lia. clear Ht. induction t as [|t IH].
  - exists (rpt 20 5). rewrite Wu by (cbn; lia). split; [cbn; rewrite Nat.add_comm; reflexivity|]. split; [reflexivity|].
    replace (20 + INR 0 / 2) with 20 by (simpl; lra). apply rpt_frame.
  - destruct (IH ltac:(lia)) as (c & Ec & Vc & Gc).
    destruct (plan_frames (fun q _ _ => q) 2 (k + 2) pdrive (pflow k) None (steers k) ps' eq_refl (pflow_wf k) (le_n 1) HL Run t ltac:(lia))
      as (ps1 & ac & key & outs & cur & us & W1 & SC & Ea & Ho & Hc & Lc & Hu & Ecur & Fr).
    destruct (Fr 1%nat ltac:(lia)) as (p & c1 & l & A1 & A2 & A3 & _ & A5 & _ & A7 & _ & Z1 & Z2 & Z3).
    cbn [pdrive pe_cfg lcfg c_init_steps Nat.sub Nat.add] in *.
    assert (c1 = c) as ->. { pose proof (eq_trans (eq_sym (Ecur 1%nat ltac:(lia))) A2). congruence. }
    assert (Nd : ~ driven (pflow k) outs 1).
    { intros ((o & Hin & Cl) & _). destruct Ho as (Lo & Ho). cbn in Lo. destruct outs as [|o1 [|? ?]]; try discriminate.
      destruct Hin as [<-|[]]. destruct (Ho 0%nat _ eq_refl) as (x & pp & o2 & _ & _ & Eo & Hs). cbn in Eo. injection Eo as <-.
      unfold idm_actor in Hs. cbn [sim_agent ac_select] in Hs. apply bind_Ok in Hs as (ups & _ & Hs).
      assert (o1 = mkout tt (map as_action ups) (control_non_sdc (ps_state ps1))) as -> by congruence.
      unfold claims in Cl. cbn [o_controlled] in Cl. unfold control_non_sdc in Cl.
      destruct SC as (_ & _ & Em & _). rewrite Em in Cl. discriminate. }
    assert (Sd : is_sdc (pflow k) 1) by (eexists; split; reflexivity).
    destruct (A5 Nd Sd) as (u & Eu & Pu).
    assert (ac = fst (steer (Datatypes.S t))) as ->.
    { unfold steers in Ea. rewrite nth_error_map, seq_at in Ea by lia. cbn [option_map] in Ea. apply Some_inj in Ea. now rewrite Ea. }
    destruct cur as [|c0 [|c1 [|? ?]]]; try discriminate. cbn in A2. apply Some_inj in A2. subst c1.
    cbn -[INR] in Hu. injection Hu as <-. cbn -[INR] in Eu. apply Some_inj in Eu. subst u.
    destruct Pu as (P1 & P2 & P3 & P4 & P5). cbn -[INR] in P1, P2, P3, P4, P5.
    exists p. split; [exact A1|]. split; [rewrite (A7 (or_intror Sd)), Vc; reflexivity|].
    destruct Gc as (G1 & G2 & G3 & G4 & G5 & G6 & G7 & G8). cbn in G3, G7, G8.
    repeat split; cbn [wframe fx fy fz fvx fvy fyaw flen fwid]; first [exact P1|exact P2|exact P3|exact P4|exact P5|etransitivity; [eassumption|assumption]].
Qed.

Example C67_example (k : nat) :
  exists ps' ms, run_planning (fun q _ _ => q) pdrive (pflow k) None (steers k) = Ok ps' /\
    overlap_compute (ps_state ps') = Ok ms /\ nth_error ms 0 = Some (mkmres (Fin 0) true).
Proof.
  destruct (pflow_runs k) as [ps' Run]. assert (Ls : length (steers k) = k) by (unfold steers; now rewrite map_length, seq_length).
  assert (HL : (1 + length (steers k) <= k + 2)%nat) by lia.
  destruct (planning_basic (fun q _ _ => q) 2 (k + 2) pdrive (pflow k) None (steers k) ps' eq_refl (pflow_wf k) (le_n 1) HL Run) as (_ & W1 & _ & _).
  destruct (overlap_total 2 (k + 2) _ W1) as [ms Hms]. exists ps', ms. split; [exact Run|]. split; [exact Hms|].
  pose proof (wframe_speed 0 10 ltac:(lra)) as Hsp.
  assert (P0 : at2 (s_log (pflow k)) 0 0 = Some (rpt 0 10)).
  { unfold at2. change (nth_error (s_log (pflow k)) 0) with (Some (map (fun x => rpt x 10) (own k))). cbv iota.
    etransitivity; [apply nth_error_map|]. rewrite own_at by lia. cbn. do 2 f_equal. ring. }
  eapply (C67_idm_sim_agent_overlap_metric_zero (fun q _ _ => q) 2 (k + 2) pdrive tt control_non_sdc (pflow k) None (steers k) ps' 0
    (map (fun x => rpt x 10) (own k)) (rpt 0 10) (wframe 0 10) ms eq_refl (pflow_wf k) (le_n 1) HL Run); auto.
  - apply pflow_drives.
  - apply lane_straight.
  - apply rpt_frame.
  - lra.
  - cbn [pdrive pe_cfg lcfg c_init_steps Nat.sub]. rewrite Ls. split.
    + intros m Nm. destruct m as [|[|m]]; [congruence| |].
      * right. exists (fun t => wframe (20 + INR t / 2) 5), (fun t => 20 + INR t / 2 - 4).
        split; [now apply pflow_sdc|]. split; [|simpl INR; lra]. split.
        -- intros t _. apply flow_contact. pose proof (pos_INR t). lra.
        -- intros t _. rewrite (wframe_speed _ 5) by lra. rewrite S_INR. lra.
      * left. intros t q _ Eq _. exfalso. unfold at2 in Eq. destruct W1 as ((L & _) & _).
        destruct (nth_error (s_sim (ps_state ps')) (Datatypes.S (Datatypes.S m))) eqn:E; [|discriminate].
        apply nth_error_Some_lt in E. lia.
    + intros m g al m' g' al' N1 N2 N3 (A & _) (B & _). exfalso. destruct W1 as ((L & _) & _).
      destruct (A 0%nat ltac:(lia)) as (q & Eq & _). destruct (B 0%nat ltac:(lia)) as (q' & Eq' & _). unfold at2 in Eq, Eq'.
      destruct (nth_error (s_sim (ps_state ps')) m) eqn:E; [|discriminate]. apply nth_error_Some_lt in E.
      destruct (nth_error (s_sim (ps_state ps')) m') eqn:E'; [|discriminate]. apply nth_error_Some_lt in E'. lia.
  - exists (66 / 10 * INR k). split; [apply own_covers|]. left. rewrite Ls. lra.
Qed.

Print Assumptions C67_idm_sim_agent_episode.
Print Assumptions C67_idm_sim_agent_never_hits_traffic_ahead.
Print Assumptions C67_idm_sim_agent_overlap_metric_zero.
