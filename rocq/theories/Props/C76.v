(** C76: the IDM agent in float32.  [F32 lm] is IEEE binary32; of the maths library
    [lm] sine, cosine and arctangent are assumed accurate ([accurate32]) and powers of
    non-negative numbers not NaN, not negative, and at least 1 if the base is
    ([pow32]). *)
From Coq Require Import List ZArith Reals Lra Lia Bool.
From Flocq Require Import IEEE754.BinarySingleNaN.
From Verif.Lib Require Import Base JaxIndex Scalar F32.
From Verif.Model Require Import Operations State Dynamics BaseEnv Dyn_State Geometry Discretizer Comfort Metrics Actor Waypoint PlanningEnv.
From Verif.Spec Require Import StateSpec GeomSpec DynSpec AgentSpec PlanSpec ClosedSpec F32Spec F32EpisodeSpec F32GeomSpec F32DriveSpec.
From Verif.Proofs Require Import Core P_F32 P_F32Wrap P_F32Bicycle P_Metrics P_Actions P_Waypoint P_Plan P_PlanRun P_Drive P_Closed P_F32Kim P_F32Overlap P_F32Idm P_F32Drive P_Libm.
Import ListNotations.
Open Scope R_scope.

(** The speed the agent asks for, in any scene: the other objects may be anywhere,
    and their positions and velocities may be infinite or NaN.  It is a finite number,
    not negative, at most one acceleration step above the present speed (up to
    rounding), and not above it if the present speed is the desired one or more. *)
Theorem C76_idm_speed lm n T (p : idm_params (S := F32 lm)) v0 s0 th a b delta s t sv i me vx vy :
  pow32 lm -> idm32 p v0 s0 th a b delta ->
  wf_state n T s -> s_t s = Z.of_nat t -> (t < T)%nat -> idm_update_speed p s = Ok sv ->
  at2 (s_sim s) i t = Some me -> p_valid me = true -> fin (p_vx me) vx -> fin (p_vy me) vy ->
  forall C, 1 <= C <= 2 ^ 49 -> sqrt (vx * vx + vy * vy) <= C ->
  exists x r, nth_error sv i = Some (x, true) /\ fin x r /\ 0 <= r /\
    r <= sqrt (vx * vx + vy * vy) + a / 10 + (C + a) / 2 ^ 21 /\
    (v0 + C / 2 ^ 21 <= sqrt (vx * vx + vy * vy) -> r <= sqrt (vx * vx + vy * vy) + C / 2 ^ 21).
Proof.
  intros PW HP W Et Ht Hsv Hme V Fx Fy C HC HS. fold (len vx vy) in *.
  destruct (vel_norm_fin lm _ _ vx vy C Fx Fy ltac:(lra) HS) as (v & Fv & Pv & Ev).
  unfold u32 in Ev. apply Flocq.Core.Raux.Rabs_le_inv in Ev.
  assert (Fs : fin (obj_speed me) v) by (unfold obj_speed; rewrite V; exact Fv).
  pose proof (len_pos vx vy) as LP.
  destruct W as (R1 & R2 & R3 & Hn & HT).
  destruct (dynamic_index_total n T _ (s_t s) R1 HT) as [cur Hc]. pose proof Hc as Hc'. rewrite Et in Hc'.
  destruct (dynamic_index_at n T _ _ _ R1 Ht Hc') as [Lc Hcur].
  destruct (at2_Some_lt _ _ _ _ _ _ R1 Hme) as [Hi _].
  assert (Hm : nth_error cur i = Some me) by (rewrite Hcur; [exact Hme | exact Hi]).
  assert (Hl : exists log, nth_error (s_log s) i = Some log).
  { apply nth_error_lt_Some. destruct R2 as [R2 _]. rewrite R2. exact Hi. }
  destruct Hl as [log Hl].
  destruct (idm_entry_any p s cur sv i log me Hc Hsv Hl Hm) as (u & d & Lu & Ld & E).
  destruct (next_speed32 lm PW p v0 s0 th a b delta HP (obj_speed me) u d v Fs) as (r & Fr & R0 & B & Cap).
  - lra.
  - destruct Lu as [->|L]; [apply fm1_finite | exact L].
  - destruct Ld as [->|L]; [apply fm1_finite | exact L].
  - destruct HP as (_ & _ & _ & _ & _ & _ & _ & _ & _ & Ba & _).
    eexists. exists r. split; [exact E|]. split; [exact Fr|]. split; [exact R0|]. split.
    + lra.
    + intros L. assert (Q : v0 <= v) by lra. specialize (Cap Q). lra.
Qed.

(** Episodes.  Object [i] is driven by the agent from a valid logged frame; the other
    objects may be anything.  [X] bounds the coordinates of its route, [C] its speeds
    and [P] all coordinates it reaches.  In every frame it is valid and has a finite
    position within [P / 2^17] of the line through one of its logged positions along
    the logged heading, has exactly that heading, has gone at most [C / 10 + P / 2^15]
    per step from that logged position, and its speed stays below the larger of the
    speed at the start and one acceleration step above the desired speed, up to
    [C / 2^18] per step. *)
Theorem C76_idm_episode lm {PP XX KK} n T c (none : XX) ctrl (p : idm_params (S := F32 lm)) (pp : PP) (x : XX) (key : option KK)
    s s' k i log p0 v0 s0 th a b delta X P C vx0 vy0 :
  accurate32 lm -> pow32 lm -> wf_scenario n T s ->
  run_policy StateDynamics c (actor_policy (idm_actor none ctrl p) pp x key) s k = Ok s' ->
  (1 <= c_init_steps c)%nat -> (c_init_steps c + k <= T)%nat ->
  (i < n)%nat -> in_control c s i -> nth_error (s_log s) i = Some log -> route32 X log ->
  at2 (s_log s) i (c_init_steps c - 1) = Some p0 -> p_valid p0 = true -> fin (p_vx p0) vx0 -> fin (p_vy p0) vy0 ->
  idm_invalidate_on_end p = false -> idm32 p v0 s0 th a b delta ->
  X + INR k * (C / 10 + P / 2 ^ 15) <= P <= 2 ^ 45 -> 1 <= C <= P ->
  Rmax (sqrt (vx0 * vx0 + vy0 * vy0)) (v0 + a / 10) + INR k * (C / 2 ^ 18) <= C ->
  forall j, (j <= k)%nat -> exists q vx vy,
    at2 (s_sim s') i (c_init_steps c - 1 + j) = Some q /\ p_valid q = true /\
    on_route32 log (P / 2 ^ 17) (INR j * (C / 10 + P / 2 ^ 15)) q /\
    fin (p_vx q) vx /\ fin (p_vy q) vy /\
    sqrt (vx * vx + vy * vy) <= Rmax (sqrt (vx0 * vx0 + vy0 * vy0)) (v0 + a / 10) + INR j * (C / 2 ^ 18).
Proof.
  intros AC PW W Run HI HL Hi Hc Hlog HR H0 V0 Fx Fy Hinv HP HPb HC1 HCb j Hj.
  pose proof (base_steered n T c none ctrl (idm_policy p) pp x key s s' k i W Run HI HL Hi Hc) as St.
  assert (L0 : nth_error log (c_init_steps c - 1) = Some p0) by (unfold at2 in H0; now rewrite Hlog in H0).
  assert (S0 : at2 (s_sim s') i (c_init_steps c - 1) = Some p0) by (rewrite (sim_start n T _ _ _ _ _ _ W Run HI HL i Hi); exact H0).
  destruct (idm_episode32 lm AC PW n T p _ _ _ k i log p0 v0 s0 th a b delta X P C vx0 vy0
    St Hi Hlog HR L0 S0 V0 (conj Fx Fy) Hinv HP HPb HC1 HCb j Hj)
    as (q & x1 & y1 & h1 & vx & vy & Eq & V & _ & _ & _ & Fvx & Fvy & _ & _ & _ & On & B).
  exists q, vx, vy. auto 10.
Qed.

(** The same for an IDM sim agent in the planning environment, whatever the planner
    does: its actions may be infinite or NaN. *)
Theorem C76_idm_sim_agent_episode lm {PP XX KK} split n T (e : penv (S := F32 lm) PP XX KK) (none : XX) ctrl (p : idm_params (S := F32 lm))
    s rng acts ps' i log p0 v0 s0 th a b delta X P C vx0 vy0 :
  accurate32 lm -> pow32 lm -> length (pe_params e) = length (pe_agents e) -> wf_scenario n T s ->
  run_planning split e s rng acts = Ok ps' ->
  (1 <= c_init_steps (pe_cfg e))%nat -> (c_init_steps (pe_cfg e) + length acts <= T)%nat ->
  (i < n)%nat -> drives_object e s i (idm_actor none ctrl p) -> nth_error (s_log s) i = Some log -> route32 X log ->
  at2 (s_log s) i (c_init_steps (pe_cfg e) - 1) = Some p0 -> p_valid p0 = true -> fin (p_vx p0) vx0 -> fin (p_vy p0) vy0 ->
  idm_invalidate_on_end p = false -> idm32 p v0 s0 th a b delta ->
  X + INR (length acts) * (C / 10 + P / 2 ^ 15) <= P <= 2 ^ 45 -> 1 <= C <= P ->
  Rmax (sqrt (vx0 * vx0 + vy0 * vy0)) (v0 + a / 10) + INR (length acts) * (C / 2 ^ 18) <= C ->
  forall j, (j <= length acts)%nat -> exists q vx vy,
    at2 (s_sim (ps_state ps')) i (c_init_steps (pe_cfg e) - 1 + j) = Some q /\ p_valid q = true /\
    on_route32 log (P / 2 ^ 17) (INR j * (C / 10 + P / 2 ^ 15)) q /\
    fin (p_vx q) vx /\ fin (p_vy q) vy /\
    sqrt (vx * vx + vy * vy) <= Rmax (sqrt (vx0 * vx0 + vy0 * vy0)) (v0 + a / 10) + INR j * (C / 2 ^ 18).
Proof.
  intros AC PW Lp W Run HI HL Hi Hd Hlog HR H0 V0 Fx Fy Hinv HP HPb HC1 HCb j Hj.
  pose proof (planning_steered split n T e s rng acts ps' i none ctrl (idm_policy p) Lp W HI HL Run Hi Hd) as St.
  destruct (planning_basic split n T e s rng acts ps' Lp W HI HL Run) as (_ & _ & _ & Wu).
  assert (L0 : nth_error log (c_init_steps (pe_cfg e) - 1) = Some p0) by (unfold at2 in H0; now rewrite Hlog in H0).
  assert (S0 : at2 (s_sim (ps_state ps')) i (c_init_steps (pe_cfg e) - 1) = Some p0) by (rewrite Wu by lia; exact H0).
  destruct (idm_episode32 lm AC PW n T p _ _ _ (length acts) i log p0 v0 s0 th a b delta X P C vx0 vy0
    St Hi Hlog HR L0 S0 V0 (conj Fx Fy) Hinv HP HPb HC1 HCb j Hj)
    as (q & x1 & y1 & h1 & vx & vy & Eq & V & _ & _ & _ & Fvx & Fvy & _ & _ & _ & On & B).
  exists q, vx, vy. auto 10.
Qed.

(** The episode runs: no float32 computation stops it, whatever the scene. *)
Theorem C76_idm_runs lm {PP XX KK} n T c (none : XX) ctrl (p : idm_params (S := F32 lm)) (pp : PP) (x : XX) (key : option KK) s k :
  wf_scenario n T s -> c_max_num_objects c = n -> c_controlled c <> NON_SDC ->
  (1 <= c_init_steps c)%nat -> (c_init_steps c + k <= T)%nat ->
  (lookahead_from_current_position p = true \/ (max_lookahead p <= T)%nat) ->
  exists s', run_policy StateDynamics c (actor_policy (idm_actor none ctrl p) pp x key) s k = Ok s'.
Proof. exact (idm_runs_any n T c none ctrl p pp x key s k). Qed.

(* ---------------- a case that meets the hypotheses ---------------- *)

Example C76_ex_library : accurate32 ideal_libm /\ pow32 ideal_libm.
Proof. exact (conj ideal_accurate ideal_pow). Qed.

(** The agent's default parameters. *)
Example C76_ex_default lm : idm32 (default_idm (S := F32 lm)) 30 2 2 2 4 4.
Proof.
  assert (L : forall z, (Z.abs z <= 2 ^ 24)%Z -> fin (flit (Scalar := F32 lm) z 1) (IZR z)) by (intros z; apply lit_int).
  split; [exact (L 30%Z ltac:(simpl; lia))|]. split; [exact (L 2%Z ltac:(simpl; lia))|]. split; [exact (L 2%Z ltac:(simpl; lia))|].
  split; [exact (L 2%Z ltac:(simpl; lia))|]. split; [exact (L 4%Z ltac:(simpl; lia))|]. split; [exact (L 4%Z ltac:(simpl; lia))|].
  lra.
Qed.

Section Ex.
  Variable lm : libm.

  (** A vehicle logged at x = 100, 110, ..., 150 with speed 11, driven by the default
      agent, and a second valid object whose position and velocity are NaN. *)
  Definition jpt (x : Z) : pt (S := F32 lm) :=
    mkpt (S := F32 lm) (f32_ofZ x) (f32_ofZ 50) (f32_ofZ 0) (f32_ofZ 11) (f32_ofZ 0) (f32_ofZ 0) true 0%Z (f32_ofZ 4) (f32_ofZ 2) (f32_ofZ 1).
  Definition jnan : pt (S := F32 lm) :=
    mkpt (S := F32 lm) B754_nan B754_nan (f32_ofZ 0) B754_nan B754_nan B754_nan true 0%Z (f32_ofZ 4) (f32_ofZ 2) (f32_ofZ 1).
  Definition jscn : state (S := F32 lm) :=
    mkstate (S := F32 lm) [] [map jpt [100; 110; 120; 130; 140; 150]%Z; repeat jnan 6] []
      [mkmeta 1 1 true true true false false; mkmeta 2 1 false false true false false] 5 None None.
  Definition jcfg : envcfg := mkcfg 2 1 SDC false.

  Lemma jscn_wf : wf_scenario 2 6 jscn.
  Proof.
    split; [|repeat split; auto with arith].
    split; [reflexivity|]. intros r [<-|[<-|[]]]; reflexivity.
  Qed.

  Lemma jroute : route32 150 (map jpt [100; 110; 120; 130; 140; 150]%Z).
  Proof.
    intros k w Hk _. apply nth_error_In, in_map_iff in Hk as (x & <- & Hx).
    assert (B : (100 <= x <= 150)%Z) by (simpl in Hx; lia).
    exists (IZR x), 50, 0. split; [apply ofZ_fin; lia|]. split; [apply (ofZ_fin 50); simpl; lia|].
    split; [apply (ofZ_fin 0); simpl; lia|].
    split; [rewrite <- abs_IZR; apply IZR_le; lia|]. split; [rewrite Rabs_pos_eq; lra | rewrite Rabs_R0; lra].
  Qed.

  Lemma jctrl : in_control jcfg jscn 0.
  Proof. simpl. eexists. split; reflexivity. Qed.
End Ex.

(** Five steps: never faster than 31 m/s, never further than 16 m from a logged
    position, within 2 mm of the road. *)
Example C76_ex_episode : exists s' q vx vy,
  run_policy StateDynamics jcfg (actor_policy (P := unit) (K := unit) (idm_actor tt (fun _ => [true; false]) default_idm) tt tt None)
    (jscn ideal_libm) 5 = Ok s' /\
  at2 (s_sim s') 0 5 = Some q /\ p_valid q = true /\
  on_route32 (map (jpt ideal_libm) [100; 110; 120; 130; 140; 150]%Z) (2 / 1000) 16 q /\
  fin (p_vx q) vx /\ fin (p_vy q) vy /\ sqrt (vx * vx + vy * vy) <= 31.
Proof.
  destruct (C76_idm_runs ideal_libm 2 6 jcfg tt (fun _ => [true; false]) default_idm tt tt (@None unit) (jscn ideal_libm) 5
    (jscn_wf _) eq_refl ltac:(discriminate) ltac:(simpl; lia) ltac:(simpl; lia) (or_introl eq_refl)) as [s' Run].
  assert (Sq : sqrt (11 * 11 + 0 * 0) <= 11).
  { replace (11 * 11 + 0 * 0) with (11 * 11) by ring. rewrite sqrt_square; lra. }
  assert (M : Rmax (sqrt (11 * 11 + 0 * 0)) (30 + 2 / 10) <= 30 + 2 / 10) by (apply Rmax_lub; lra).
  assert (I5 : INR 5 = 5) by (simpl; lra).
  assert (F11 : fin (f32_ofZ 11) 11) by (apply (ofZ_fin 11); simpl; lia).
  assert (F00 : fin (f32_ofZ 0) 0) by (apply (ofZ_fin 0); simpl; lia).
  destruct (C76_idm_episode ideal_libm 2 6 jcfg tt (fun _ => [true; false]) default_idm tt tt (@None unit) (jscn ideal_libm) s' 5 0
    _ (jpt ideal_libm 100) 30 2 2 2 4 4 150 256 31 11 0 ideal_accurate ideal_pow (jscn_wf _) Run ltac:(simpl; lia) ltac:(simpl; lia)
    ltac:(lia) (jctrl _) eq_refl (jroute _) eq_refl eq_refl F11 F00 eq_refl (C76_ex_default _)
    ltac:(rewrite I5; lra) ltac:(lra) ltac:(rewrite I5; lra) 5%nat ltac:(lia)) as (q & vx & vy & Eq & V & On & Fx & Fy & B).
  exists s', q, vx, vy. split; [exact Run|]. split; [exact Eq|]. split; [exact V|]. split; [|split; [exact Fx|]; split; [exact Fy|]; rewrite I5 in B; lra].
  destruct On as (k & w & wx & wy & h & x & y & t & H1 & H2 & H3 & H4 & H5 & H6 & H7 & H8 & D1 & D2).
  exists k, w, wx, wy, h, x, y, t. rewrite I5 in D2. repeat (split; [assumption|]). lra.
Qed.

(** Planning: the SDC, object 1, is logged standing 100 m ahead, the planner's actions
    are all NaN, and object 0 is an IDM sim agent. *)
Section PlanEx.
  Variable lm : libm.

  Definition kscn : state (S := F32 lm) :=
    mkstate (S := F32 lm) [] [map (jpt lm) [100; 110; 120; 130; 140; 150]%Z; repeat (jpt lm 200) 6] []
      [mkmeta 1 1 false true true false false; mkmeta 2 1 true true true false false] 5 None None.
  Definition kdrive : penv (S := F32 lm) unit unit unit :=
    mkpenv StateDynamics jcfg [] [] false [idm_actor tt control_non_sdc default_idm] [tt].
  Definition knan : act (S := F32 lm) * option unit := (mkact (S := F32 lm) (repeat B754_nan 5) true, None).

  Lemma kscn_wf : wf_scenario 2 6 kscn.
  Proof.
    split; [|repeat split; auto with arith].
    split; [reflexivity|]. intros r [<-|[<-|[]]]; reflexivity.
  Qed.

  Lemma kbox x : (100 <= x <= 200)%Z -> box32 256 (pt_box (jpt lm x)) (mkrbox (IZR x) 50 4 2 0).
  Proof.
    intros B. split; [apply ofZ_fin; lia|]. split; [apply (ofZ_fin 50); simpl; lia|]. split; [apply (ofZ_fin 4); simpl; lia|].
    split; [apply (ofZ_fin 2); simpl; lia|]. split; [apply (ofZ_fin 0); simpl; lia|]. cbn [rx ry rlen rwid ryaw].
    split; [rewrite <- abs_IZR; apply IZR_le; lia|]. split; [rewrite Rabs_pos_eq; lra|]. split; [lra|]. split; [lra|].
    rewrite Rabs_R0; lra.
  Qed.

  Lemma kscn_apart : accurate32 lm -> ~ starts_overlapping kscn 0.
  Proof.
    intros AC (j & p & q & Nj & Ep & Eq & Ov). destruct j as [|[|j]]; [congruence| |destruct j; discriminate].
    assert (p = jpt lm 100) as -> by (symmetry; exact (f_equal (fun o => match o with Some z => z | None => p end) Ep)).
    assert (q = jpt lm 200) as -> by (symmetry; exact (f_equal (fun o => match o with Some z => z | None => q end) Eq)).
    destruct (overlap_test32 lm AC 256 ltac:(lra) _ _ _ _ (kbox 100 ltac:(lia)) (kbox 200 ltac:(lia))) as [H _].
    destruct (H Ov) as (pp & (u & v & U & V & E1) & (u' & v' & U' & V' & E2)). rewrite E1 in E2.
    unfold rpoint, grown in *. cbn [rx ry rlen rwid ryaw] in *. rewrite cos_0, sin_0 in E2.
    rewrite (Rabs_pos_eq (4 + _)) in U by lra. rewrite (Rabs_pos_eq (4 + _)) in U' by lra.
    apply (f_equal fst) in E2. cbn [fst] in E2. apply Rabs_def2 in U. apply Rabs_def2 in U'. lra.
  Qed.

  Lemma kscn_drives : accurate32 lm -> drives_object kdrive kscn 0 (idm_actor tt control_non_sdc default_idm).
  Proof.
    intros AC. split; [exact (kscn_apart AC)|]. exists [], []. split; [reflexivity|]. split; [|intros ? ? ? ? ? ? []].
    intros s1 p x q o (_ & _ & Em & _) Hs. unfold idm_actor in Hs. cbn [sim_agent ac_select] in Hs.
    apply bind_Ok in Hs as (us & _ & Hs). assert (o = mkout tt (map as_action us) (control_non_sdc s1)) as -> by congruence.
    unfold claims. cbn [o_controlled]. unfold control_non_sdc. rewrite Em. reflexivity.
  Qed.

  Lemma kscn_runs : exists ps', run_planning (fun q _ _ => q) kdrive kscn None (repeat knan 5) = Ok ps'.
  Proof.
    eapply (planning_runs (fun q _ _ => q) 2 6 kdrive kscn None (repeat knan 5)); [reflexivity|apply kscn_wf|reflexivity|apply le_n|..].
    - apply le_n.
    - exact state_total.
    - apply Forall_forall. intros ak Hin. apply repeat_spec in Hin. subst ak. reflexivity.
    - intros ag q s1 [<-|[]] _. exists tt. reflexivity.
    - intros ag p x q s1 [<-|[]] W1 _. unfold idm_actor. cbn [sim_agent ac_select].
      assert (exists ups, idm_policy default_idm s1 = Ok ups /\ length ups = 2%nat) as (ups & Hu & Lu).
      { destruct (idm_update_any 2 6 default_idm s1 W1 (or_introl eq_refl)) as (sv & Hs & Ls).
        eapply waypoint_total; eauto. }
      rewrite Hu. cbn [bind]. eexists. split; [reflexivity|]. cbn [o_controlled o_action].
      split; [unfold control_non_sdc; rewrite map_length; apply W1|]. split; [now rewrite map_length|].
      apply Forall_forall. intros a Hin. apply in_map_iff in Hin as (u & <- & _). reflexivity.
  Qed.
End PlanEx.

Example C76_ex_sim_agent : exists ps' q vx vy,
  run_planning (fun q _ _ => q) (kdrive ideal_libm) (kscn ideal_libm) None (repeat (knan ideal_libm) 5) = Ok ps' /\
  at2 (s_sim (ps_state ps')) 0 5 = Some q /\ p_valid q = true /\
  on_route32 (map (jpt ideal_libm) [100; 110; 120; 130; 140; 150]%Z) (2 / 1000) 16 q /\
  fin (p_vx q) vx /\ fin (p_vy q) vy /\ sqrt (vx * vx + vy * vy) <= 31.
Proof.
  destruct (kscn_runs ideal_libm) as [ps' Run].
  assert (Sq : sqrt (11 * 11 + 0 * 0) <= 11).
  { replace (11 * 11 + 0 * 0) with (11 * 11) by ring. rewrite sqrt_square; lra. }
  assert (M : Rmax (sqrt (11 * 11 + 0 * 0)) (30 + 2 / 10) <= 30 + 2 / 10) by (apply Rmax_lub; lra).
  assert (I5 : INR (length (repeat (knan ideal_libm) 5)) = 5) by (rewrite repeat_length; simpl; lra).
  assert (I5' : INR 5 = 5) by (simpl; lra).
  assert (F11 : fin (f32_ofZ 11) 11) by (apply (ofZ_fin 11); simpl; lia).
  assert (F00 : fin (f32_ofZ 0) 0) by (apply (ofZ_fin 0); simpl; lia).
  destruct (C76_idm_sim_agent_episode ideal_libm (fun q _ _ => q) 2 6 (kdrive ideal_libm) tt control_non_sdc default_idm
    (kscn ideal_libm) None (repeat (knan ideal_libm) 5) ps' 0
    _ (jpt ideal_libm 100) 30 2 2 2 4 4 150 256 31 11 0 ideal_accurate ideal_pow eq_refl (kscn_wf _) Run (le_n 1) (le_n 6)
    ltac:(lia) (kscn_drives _ ideal_accurate) eq_refl (jroute _) eq_refl eq_refl F11 F00 eq_refl (C76_ex_default _)
    ltac:(rewrite I5; lra) ltac:(lra) ltac:(rewrite I5; lra) 5%nat (le_n 5)) as (q & vx & vy & Eq & V & On & Fx & Fy & B).
  exists ps', q, vx, vy. split; [exact Run|]. split; [exact Eq|]. split; [exact V|]. split; [|split; [exact Fx|]; split; [exact Fy|]; rewrite I5' in B; lra].
  destruct On as (k & w & wx & wy & h & x & y & t & H1 & H2 & H3 & H4 & H5 & H6 & H7 & H8 & D1 & D2).
  exists k, w, wx, wy, h, x, y, t. rewrite I5' in D2. repeat (split; [assumption|]). lra.
Qed.

(** The desired speed must not be 0: with a library whose powers of NaN are NaN, an
    object at rest then gets a NaN speed, because its speed is divided by the desired
    one. *)
Theorem C76_zero_desired_speed_refuted lm : (forall y, lm_pow lm B754_nan y = B754_nan) ->
  exists (p : idm_params (S := F32 lm)) n T s sv x, wf_state n T s /\ fin (desired_vel p) 0 /\
    idm_update_speed p s = Ok sv /\ nth_error sv 0 = Some (x, true) /\ is_nan x = true.
Proof.
  intros HN.
  set (q := mkpt (S := F32 lm) (f32_ofZ 100) (f32_ofZ 50) (f32_ofZ 0) (f32_ofZ 0) (f32_ofZ 0) (f32_ofZ 0) true 0%Z (f32_ofZ 4) (f32_ofZ 2) (f32_ofZ 1)).
  set (s := mkstate (S := F32 lm) [[q]] [[q]] [] [mkmeta 1 1 true true true false false] 0 None None).
  set (p := mkidm (S := F32 lm) (flit (Scalar := F32 lm) 0 1) (flit (Scalar := F32 lm) 2 1) (flit (Scalar := F32 lm) 2 1)
              (flit (Scalar := F32 lm) 2 1) (flit (Scalar := F32 lm) 4 1) (flit (Scalar := F32 lm) 4 1) 10 true 10 (flit (Scalar := F32 lm) 10 1) false).
  assert (R : rect 1 1 [[q]]) by (split; [reflexivity|]; intros r [<-|[]]; reflexivity).
  assert (W : wf_state 1 1 s) by (split; [exact R|]; split; [exact R|]; split; [reflexivity | lia]).
  destruct (idm_update_any 1 1 p s W (or_introl eq_refl)) as (sv & Hsv & _).
  destruct (idm_entry_any p s [q] sv 0 [q] q eq_refl Hsv eq_refl eq_refl) as (u & d & _ & _ & E).
  exists p, 1%nat, 1%nat, s, sv. eexists. split; [exact W|]. split; [exact (lit_int lm 0 ltac:(simpl; lia))|].
  split; [exact Hsv|]. split; [exact E|].
  unfold next_speed, idm_accel. cbv zeta.
  assert (Z : fdiv (Scalar := F32 lm) (obj_speed q) (desired_vel p) = B754_nan) by (vm_compute; reflexivity).
  rewrite Z. change (fpow (Scalar := F32 lm) B754_nan (idm_delta p)) with (lm_pow lm B754_nan (idm_delta p)). rewrite HN.
  generalize (fmul (Scalar := F32 lm)
     (fdiv (Scalar := F32 lm) (if feqb (Scalar := F32 lm) d default_lead_distance || feqb (Scalar := F32 lm) u default_lead_velocity then f0 else desired_gap p (obj_speed q) u)
        (if feqb (Scalar := F32 lm) d f0 then minimum_lead_distance else d))
     (fdiv (Scalar := F32 lm) (if feqb (Scalar := F32 lm) d default_lead_distance || feqb (Scalar := F32 lm) u default_lead_velocity then f0 else desired_gap p (obj_speed q) u)
        (if feqb (Scalar := F32 lm) d f0 then minimum_lead_distance else d))).
  intros z. clear. vm_compute. reflexivity.
Qed.

Print Assumptions C76_idm_speed.
Print Assumptions C76_idm_episode.
Print Assumptions C76_idm_sim_agent_episode.
Print Assumptions C76_idm_runs.
Print Assumptions C76_zero_desired_speed_refuted.
