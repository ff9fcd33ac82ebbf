(** C64: whole episodes driven by the route-following agents. *)
From Coq Require Import Reals List ZArith Bool Lra Lia.
From Verif.Lib Require Import Base JaxIndex Scalar XR.
From Verif.Model Require Import Operations State Dynamics BaseEnv Dyn_State Geometry Discretizer Comfort Metrics Actor Waypoint.
From Verif.Props Require Import ExR.
From Verif.Spec Require Import StateSpec GeomSpec DynSpec AgentSpec WaypointSpec DriveSpec.
From Verif.Proofs Require Import Core P_Expert P_Metrics P_IDM P_Lead P_IDMRun P_Waypoint P_Drive.
From Verif.Props Require Import ExW.
Import ListNotations.
Open Scope R_scope.

(** Episodes driven by the IDM agent, and by the constant-speed route agent, run to the
    end of the log. *)
Theorem C64_idm_runs {P X K} n T c none ctrl (p : idm_params (S := XR)) (pp : P) (x : X) (key : option K) s k :
  wf_scenario n T s -> c_max_num_objects c = n -> c_controlled c <> NON_SDC ->
  (1 <= c_init_steps c)%nat -> (c_init_steps c + k <= T)%nat ->
  (lookahead_from_current_position p = true \/ (max_lookahead p <= T)%nat) ->
  exists s', run_policy (S := XR) StateDynamics c (actor_policy (idm_actor none ctrl p) pp x key) s k = Ok s'.
Proof. exact (idm_runs n T c none ctrl p pp x key s k). Qed.
Theorem C64_constant_speed_runs {P X K} n T c none ctrl v (pp : P) (x : X) (key : option K) s k :
  wf_scenario n T s -> c_max_num_objects c = n -> c_controlled c <> NON_SDC ->
  (1 <= c_init_steps c)%nat -> (c_init_steps c + k <= T)%nat ->
  exists s', run_policy (S := XR) StateDynamics c
    (actor_policy (sim_agent none ctrl (constant_speed_policy v)) pp x key) s k = Ok s'.
Proof. exact (constant_runs n T c none ctrl v pp x key s k). Qed.

Section Episodes.
  Context {P X K : Type}.
  Variables (n T : nat) (c : envcfg) (none : X) (ctrl : state (S := XR) -> list bool)
    (p : idm_params (S := XR)) (pp : P) (x : X) (key : option K) (s s' : state (S := XR)) (k i : nat)
    (log : list (pt (S := XR))) (p0 : pt (S := XR)) (f0 : rframe).

  (** At any step of any such episode, whatever the other objects do: a controlled
      object that starts valid stays valid, keeps its size and height, lies on one of
      the lines through its logged positions along the logged headings, and its speed
      has grown by at most max_accel * 0.1 s per step.  If the time step is short
      enough it does not exceed the larger of the desired and the initial speed. *)
  Theorem C64_idm_episode v0 s0 th a b delta :
    wf_scenario n T s ->
    run_policy (S := XR) StateDynamics c (actor_policy (idm_actor none ctrl p) pp x key) s k = Ok s' ->
    (1 <= c_init_steps c)%nat -> (c_init_steps c + k <= T)%nat ->
    (i < n)%nat -> in_control c s i -> nth_error (s_log s) i = Some log -> real_route log ->
    at2 (s_log s) i (c_init_steps c - 1) = Some p0 -> p_valid p0 = true -> is_frame p0 f0 ->
    idm_invalidate_on_end p = false -> idm_real p v0 s0 th a b delta ->
    forall j, (j <= k)%nat -> exists q f,
      at2 (s_sim s') i (c_init_steps c - 1 + j) = Some q /\ p_valid q = true /\ is_frame q f /\
      on_route log f /\ fz f = fz f0 /\ flen f = flen f0 /\ fwid f = fwid f0 /\
      rspeed f <= rspeed f0 + INR j * (a * (1 / 10)) /\
      (a * delta * (1 / 10) <= v0 -> rspeed f <= Rmax v0 (rspeed f0)).
  Proof.
    intros W Run HI HL Hi Hc Hlog HR H0 V0 F0 Hinv HP.
    exact (idm_episode n T c none ctrl p pp x key s s' k i log p0 f0 W Run HI HL Hi Hc Hlog HR H0 V0 F0 Hinv v0 s0 th a b delta HP).
  Qed.

  (** On a straight road it only ever moves forward along the road, by at most the
      distance of the old speed plus one acceleration step. *)
  Theorem C64_idm_straight_road v0 s0 th a b delta :
    wf_scenario n T s ->
    run_policy (S := XR) StateDynamics c (actor_policy (idm_actor none ctrl p) pp x key) s k = Ok s' ->
    (1 <= c_init_steps c)%nat -> (c_init_steps c + k <= T)%nat ->
    (i < n)%nat -> in_control c s i -> nth_error (s_log s) i = Some log -> straight_route log f0 ->
    at2 (s_log s) i (c_init_steps c - 1) = Some p0 -> p_valid p0 = true -> is_frame p0 f0 ->
    idm_invalidate_on_end p = false -> idm_real p v0 s0 th a b delta ->
    exists t : nat -> R, t 0%nat = 0 /\
    (forall j, (j <= k)%nat -> exists q f, at2 (s_sim s') i (c_init_steps c - 1 + j) = Some q /\
       p_valid q = true /\ is_frame q f /\ moved f0 f (t j)) /\
    (forall j q f, (j < k)%nat -> at2 (s_sim s') i (c_init_steps c - 1 + j) = Some q -> is_frame q f ->
       0 <= t (Datatypes.S j) - t j <= rspeed f / 10 + a / 200).
  Proof.
    intros W Run HI HL Hi Hc Hlog HS H0 V0 F0 Hinv HP.
    exact (straight_episode n T c none ctrl p pp x key s s' k i log p0 f0 W Run HI HL Hi Hc Hlog HS H0 V0 F0 Hinv v0 s0 th a b delta HP).
  Qed.

  (** Collision avoidance.  The default agent drives object i along a straight road;
      all other objects are absent or parked.  Each parked object is either off the
      path or first touched after al metres, at least 1/20 s of travel away, and blocks
      the path for at least a metre.  The speed at the start is at most 66 m/s and the
      route goes on past one of the obstacles.  Then the object never touches any of
      them, however long the episode, and does not pass any point of contact. *)
  Theorem C64_idm_never_hits_parked_objects :
    wf_scenario n T s ->
    run_policy (S := XR) StateDynamics c (actor_policy (idm_actor none ctrl default_idm) pp x key) s k = Ok s' ->
    (1 <= c_init_steps c)%nat -> (c_init_steps c + k <= T)%nat ->
    (i < n)%nat -> in_control c s i -> nth_error (s_log s) i = Some log -> straight_route log f0 ->
    at2 (s_log s) i (c_init_steps c - 1) = Some p0 -> p_valid p0 = true -> is_frame p0 f0 ->
    rspeed f0 <= 66 ->
    (forall m lm, m <> i -> nth_error (s_log s) m = Some lm ->
       ~ in_control c s m /\
       (absent lm \/ exists g, parked lm g /\
          (never_touches f0 g \/ exists al, contact_after f0 g al /\ rspeed f0 / 20 <= al))) ->
    (exists m lm g al, m <> i /\ nth_error (s_log s) m = Some lm /\ parked lm g /\
       contact_after f0 g al /\ rspeed f0 / 20 <= al /\ covers log f0 al) ->
    forall j, (j <= k)%nat -> exists q f t,
      at2 (s_sim s') i (c_init_steps c - 1 + j) = Some q /\ p_valid q = true /\ is_frame q f /\
      moved f0 f t /\ 0 <= t /\
      (forall m lm g al, m <> i -> nth_error (s_log s) m = Some lm -> parked lm g ->
         contact_after f0 g al -> rspeed f0 / 20 <= al -> rspeed f / 20 <= al - t) /\
      (forall m r, m <> i -> at2 (s_sim s') m (c_init_steps c - 1 + j) = Some r -> p_valid r = true ->
         exists g, is_frame r g /\ ~ touches f g 0).
  Proof.
    intros W Run HI HL Hi Hc Hlog HS H0 V0 F0 HF Ho Hcov.
    assert (Others : forall m lm, m <> i -> nth_error (s_log s) m = Some lm -> ~ in_control c s m /\
      (absent lm \/ exists g, parked lm g /\ (never_touches f0 g \/ exists al, blocks s i f0 m g al))).
    { intros m lm Nm Hlm. destruct (Ho m lm Nm Hlm) as [A [B|(g & Pk & [D|(al & C1 & C2)])]]; split; auto.
      - right. eauto.
      - right. exists g. split; [exact Pk|]. right. exists al. repeat split; eauto; apply C1. }
    assert (Cov : exists m g al, blocks s i f0 m g al /\ covers log f0 al).
    { destruct Hcov as (m & lm & g & al & A & B & C & D & E & G). exists m, g, al. split; [|exact G]. repeat split; eauto; apply D. }
    intros j Hj.
    destruct (safe_episode n T c none ctrl default_idm pp x key s s' k i log p0 f0 default_idm_real eq_refl
      default_idm_distance eq_refl W Run HI HL Hi Hc Hlog HS H0 V0 F0 eq_refl HF Others Cov j Hj)
      as (q & f & t & A1 & A2 & A3 & A4 & A5 & A6 & A7).
    exists q, f, t. do 5 (split; [assumption|]). split.
    - intros m lm g al Nm Hlm Pk Hct Hs. assert (HB : blocks s i f0 m g al) by (repeat split; eauto; apply Hct).
      specialize (A7 _ _ _ HB). lra.
    - intros m r Nm Er Vr.
      assert (Hm : (m < n)%nat).
      { destruct (run_policy_t n T _ _ _ _ _ _ W Run HI HL) as (((L & _) & _) & _).
        unfold at2 in Er. destruct (nth_error (s_sim s') m) eqn:E; [|discriminate]. apply nth_error_Some_lt in E. lia. }
      destruct (other_frames n T c none ctrl default_idm pp x key s s' k i f0 eq_refl W Run HI HL Hi Others m j r Nm Hm Hj Er Vr)
        as (lm & g & _ & _ & G & _).
      exists g. split; [exact G|].
      eapply (safe_all n T c none ctrl default_idm pp x key s s' k i log p0 f0 default_idm_real eq_refl
        default_idm_distance eq_refl W Run HI HL Hi Hc Hlog HS H0 V0 F0 eq_refl HF Others Cov j m q r); eauto.
  Qed.

  (** So the overlap metric reports 0 for it after every step. *)
  Theorem C64_idm_overlap_metric_zero ms :
    wf_scenario n T s ->
    run_policy (S := XR) StateDynamics c (actor_policy (idm_actor none ctrl default_idm) pp x key) s k = Ok s' ->
    (1 <= c_init_steps c)%nat -> (c_init_steps c + k <= T)%nat ->
    (i < n)%nat -> in_control c s i -> nth_error (s_log s) i = Some log -> straight_route log f0 ->
    at2 (s_log s) i (c_init_steps c - 1) = Some p0 -> p_valid p0 = true -> is_frame p0 f0 ->
    rspeed f0 <= 66 ->
    (forall m lm, m <> i -> nth_error (s_log s) m = Some lm ->
       ~ in_control c s m /\
       (absent lm \/ exists g, parked lm g /\
          (never_touches f0 g \/ exists al, contact_after f0 g al /\ rspeed f0 / 20 <= al))) ->
    (exists m lm g al, m <> i /\ nth_error (s_log s) m = Some lm /\ parked lm g /\
       contact_after f0 g al /\ rspeed f0 / 20 <= al /\ covers log f0 al) ->
    overlap_compute s' = Ok ms ->
    nth_error ms i = Some (mkmres (Fin 0) true).
  Proof.
    intros W Run HI HL Hi Hc Hlog HS H0 V0 F0 HF Ho Hcov Hms.
    destruct (C64_idm_never_hits_parked_objects W Run HI HL Hi Hc Hlog HS H0 V0 F0 HF Ho Hcov k (le_n k))
      as (q & f & t & A1 & A2 & A3 & _ & _ & _ & A7).
    destruct (run_policy_t n T _ _ _ _ _ _ W Run HI HL) as (W1 & Et). rewrite <- A2.
    refine (overlap_zero n T s' _ ms i q f W1 Et _ Hms A1 A3 A7). lia.
  Qed.

  (** The constant-speed route agent (and any route agent told to invalidate objects at
      the end of their route) does not remove a controlled object there: at more than
      1 m/s the object is put at (-1, -1) and stays valid. *)
  Theorem C64_end_of_route_teleports v k0 pk j q f w :
    wf_scenario n T s ->
    run_policy (S := XR) StateDynamics c
      (actor_policy (sim_agent none ctrl (constant_speed_policy (Fin v))) pp x key) s k = Ok s' ->
    (1 <= c_init_steps c)%nat -> (c_init_steps c + k <= T)%nat -> (j < k)%nat -> (i < n)%nat -> in_control c s i ->
    nth_error (s_log s) i = Some log -> real_route log -> nth_error log k0 = Some pk -> p_valid pk = true ->
    at2 (s_sim s') i (c_init_steps c - 1 + j) = Some q -> p_valid q = true -> is_frame q f ->
    1 < v -> nearest_waypoint log (straight f v) w -> route_end log (straight f v) w ->
    exists q', at2 (s_sim s') i (c_init_steps c - 1 + Datatypes.S j) = Some q' /\
      p_valid q' = true /\ p_x q' = Fin (-1) /\ p_y q' = Fin (-1).
  Proof.
    intros W Run HI HL Hj Hi Hc Hlog HR Hk Vk Eq V Fq Hv Nw Re.
    refine (end_of_route n T c none ctrl _ pp x key s s' k j i log k0 pk q f v w W Run HI HL Hj Hi Hc Hlog HR Hk Vk Eq V Fq _ Hv Nw Re).
    intros s1 sv El H. injection H as <-. rewrite nth_error_map, El, Hlog. reflexivity.
  Qed.
End Episodes.

(* ---------------- scenarios ---------------- *)

(** The controlled car, whose log is a list of positions on the x axis, and a parked
    car at [y]. *)
Definition lane (xs : list R) (y : R) : state (S := XR) :=
  mkstate [] [map (fun x => rpt x 10) xs; map (fun _ => rpt y 0) xs] []
    [mkmeta 1 1 true true true false false; mkmeta 2 1 false true true false false] 0 None None.
Definition lcfg : envcfg := mkcfg 2 1 SDC false.

Lemma lane_wf xs y : xs <> [] -> wf_scenario 2 (length xs) (lane xs y).
Proof.
  intros H. split; [|repeat split; auto with arith; destruct xs; [congruence|simpl; lia]].
  split; [reflexivity|]. intros r [<-|[<-|[]]]; now rewrite map_length.
Qed.
Lemma lane_control xs y : in_control lcfg (lane xs y) 0.
Proof. cbn. eexists. split; reflexivity. Qed.
Lemma lane_other xs y m : m <> 0%nat -> ~ in_control lcfg (lane xs y) m.
Proof.
  intros Nm (r & E & Hs). destruct m as [|[|m]]; [congruence| |destruct m; discriminate].
  cbn in E. injection E as <-. discriminate.
Qed.
Lemma lane_parked xs y : parked (map (fun _ : R => rpt y 0) xs) (wframe y 0).
Proof.
  split; [apply wframe_speed; lra|]. intros k p H. rewrite nth_error_map in H.
  destruct (nth_error xs k); [|discriminate]. apply Some_inj in H. subst p. split; [reflexivity|apply rpt_frame].
Qed.
Lemma lane_straight xs : straight_route (map (fun x => rpt x 10) xs) (wframe 0 10).
Proof.
  intros k p H _. rewrite nth_error_map in H. destruct (nth_error xs k) as [r|]; [|discriminate].
  apply Some_inj in H. subst p. exists r. unfold ahead, is_way, rpt, wframe. cbn. rewrite cos_0, sin_0.
  repeat split; f_equal; ring.
Qed.
Lemma lane_touches y d : touches (wframe 0 10) (wframe y 0) d <-> Rabs (d - y) < 4.
Proof. unfold touches. rewrite (ahead_overlap 0 10 y 0 d). now rewrite Rplus_0_l. Qed.
Lemma lane_contact y : 4 <= y -> contact_after (wframe 0 10) (wframe y 0) (y - 4).
Proof.
  intros Hy. split; intros d Hd; rewrite lane_touches.
  - intros H. apply Rabs_def2 in H. lra.
  - apply Rabs_def1; lra.
Qed.
Lemma ahead_x d : ahead (wframe 0 10) d = (d, 0).
Proof. unfold ahead, wframe. cbn. rewrite cos_0, sin_0. f_equal; ring. Qed.
Lemma dist_x a b : dist (a, 0) (b, 0) = Rabs (a - b).
Proof. pose proof (dist_ahead (wframe 0 10) a b) as H. now rewrite !ahead_x in H. Qed.

(** The log covers 24 m in steps of 8 m and then stands still for any number [r] of
    further steps; a parked car 20 m ahead (contact after 16 m). *)
Definition road (r : nat) : list R := [0; 8; 16; 24] ++ repeat 24 r.
Lemma road_covers r : covers (map (fun x => rpt x 10) (road r)) (wframe 0 10) 16.
Proof.
  split.
  - intros d Hd. assert (K : exists k q, nth_error (road r) k = Some q /\ Rabs (d - q) <= 5).
    { destruct (Rle_dec d 5); [exists 0%nat, 0; split; [reflexivity|apply Rabs_le; lra]|].
      destruct (Rle_dec d 12); [exists 1%nat, 8; split; [reflexivity|apply Rabs_le; lra]|].
      exists 2%nat, 16; split; [reflexivity|apply Rabs_le; lra]. }
    destruct K as (k & q & Ek & Hq). exists k, (rpt q 10), (mkway q 0 0).
    split; [now rewrite nth_error_map, Ek|]. split; [reflexivity|]. split; [repeat split|].
    rewrite ahead_x. unfold wxy. cbn [wx wy]. now rewrite dist_x.
  - exists (mkway 24 0 0), 24. split; [|rewrite ahead_x; split; [reflexivity|lra]].
    exists (3 + r)%nat, (rpt 24 10). split.
    { rewrite nth_error_map. unfold road. destruct r as [|r]; [reflexivity|].
      rewrite nth_error_app2 by (simpl; lia). simpl length. replace (3 + Datatypes.S r - 4)%nat with r by lia.
      rewrite nth_error_repeat by lia. reflexivity. }
    split; [reflexivity|]. split; [repeat split|]. intros j q Hj _. apply nth_error_Some_lt in Hj.
    rewrite map_length in Hj. unfold road in Hj. rewrite app_length, repeat_length in Hj. simpl in Hj. lia.
Qed.

(** However long the log goes on, the episode runs to its end and the overlap metric
    stays 0. *)
Example C64_example (r k : nat) : (1 + k <= 4 + r)%nat ->
  exists s' ms, run_policy (S := XR) StateDynamics lcfg
      (actor_policy (idm_actor tt (fun _ => []) default_idm) tt tt (@None unit)) (lane (road r) 20) k = Ok s' /\
    overlap_compute s' = Ok ms /\ nth_error ms 0 = Some (mkmres (Fin 0) true).
Proof.
  intros Hk.
  assert (L : length (road r) = (4 + r)%nat) by (unfold road; rewrite app_length, repeat_length; reflexivity).
  assert (W : wf_scenario 2 (4 + r) (lane (road r) 20)) by (rewrite <- L; apply lane_wf; discriminate).
  destruct (C64_idm_runs 2 (4 + r) lcfg tt (fun _ => []) default_idm tt tt (@None unit) (lane (road r) 20) k)
    as (s' & Run); auto; [discriminate|].
  destruct (run_policy_t 2 (4 + r) _ _ _ _ _ _ W Run (le_n 1) Hk) as (W1 & _).
  destruct (overlap_total 2 (4 + r) s' W1) as [ms Hms]. exists s', ms. split; [exact Run|]. split; [exact Hms|].
  pose proof (wframe_speed 0 10 ltac:(lra)) as Hsp.
  eapply (C64_idm_overlap_metric_zero 2 (4 + r) lcfg tt (fun _ => []) tt tt (@None unit) (lane (road r) 20) s' k 0
    (map (fun x => rpt x 10) (road r)) (rpt 0 10) (wframe 0 10) ms W Run (le_n 1) Hk); auto.
  - apply lane_control.
  - apply lane_straight.
  - apply rpt_frame.
  - lra.
  - intros m lm Nm Hlm. split; [now apply lane_other|]. destruct m as [|[|m]]; [congruence| |destruct m; discriminate].
    change (Some (map (fun _ : R => rpt 20 0) (road r)) = Some lm) in Hlm. apply Some_inj in Hlm. subst lm.
    right. exists (wframe 20 0). split; [apply lane_parked|]. right. exists (20 - 4).
    split; [apply lane_contact; lra|lra].
  - exists 1%nat, (map (fun _ => rpt 20 0) (road r)), (wframe 20 0), (20 - 4).
    split; [discriminate|]. split; [reflexivity|]. split; [apply lane_parked|]. split; [apply lane_contact; lra|].
    split; [lra|]. replace (20 - 4) with 16 by ring. apply road_covers.
Qed.

(** Without the condition on the route the agent does hit a parked object: past the end
    of its route it keeps reporting its old velocity, so braking has no lasting effect
    and it keeps moving at half its speed at least.  Here the logged route is a single
    point; the parked car is met after 0.6 m. *)
Theorem C64_idm_avoids_collisions_past_route_end_refuted : exists (s s' : state (S := XR)) q r f g,
  wf_scenario 2 3 s /\
  run_policy (S := XR) StateDynamics lcfg
    (actor_policy (idm_actor tt (fun _ => []) default_idm) tt tt (@None unit)) s 2 = Ok s' /\
  (exists log lm, nth_error (s_log s) 0 = Some log /\ nth_error (s_log s) 1 = Some lm /\
     straight_route log (wframe 0 10) /\ parked lm (wframe (46 / 10) 0) /\
     contact_after (wframe 0 10) (wframe (46 / 10) 0) (6 / 10) /\ rspeed (wframe 0 10) / 20 <= 6 / 10) /\
  at2 (s_sim s') 0 2 = Some q /\ at2 (s_sim s') 1 2 = Some r /\ p_valid q = true /\ p_valid r = true /\
  is_frame q f /\ is_frame r g /\ touches f g 0 /\ rspeed f = 10.
Proof.
  set (xs := [0; 0; 0]). set (s := lane xs (46 / 10)). exists s.
  assert (W : wf_scenario 2 3 s) by (apply (lane_wf xs); discriminate).
  destruct (C64_idm_runs 2 3 lcfg tt (fun _ => []) default_idm tt tt (@None unit) s 2) as (s' & Run); auto; [discriminate|].
  exists s'.
  assert (End : forall d w, nearest_waypoint (map (fun x => rpt x 10) xs) (ahead (wframe 0 10) d) w ->
            route_end (map (fun x => rpt x 10) xs) (ahead (wframe 0 10) d) w).
  { intros d w (kk & pw & A & _ & B & _). left. exists (mkway 0 0 0). split.
    - exists 2%nat, (rpt 0 10). split; [reflexivity|]. split; [reflexivity|]. split; [repeat split|].
      intros j p' Hj _. apply nth_error_Some_lt in Hj. simpl in Hj. lia.
    - assert (pw = rpt 0 10). { destruct kk as [|[|[|kk]]]; cbn in A; try congruence. destruct kk; discriminate. }
      subst pw. assert (Bw : is_way (rpt 0 10) (mkway 0 0 0)) by repeat split.
      rewrite (is_way_inj _ _ _ B Bw). rewrite (proj2 (dist_zero _ _) eq_refl). lra. }
  pose proof (wframe_speed 0 10 ltac:(lra)) as Sp.
  assert (St := fun j q f t => straight_step 2 3 lcfg tt (fun _ => []) default_idm tt tt (@None unit) s s' 2 0 _ (rpt 0 10) (wframe 0 10)
    W Run (le_n 1) (le_n 3) ltac:(lia) (lane_control xs _) eq_refl (lane_straight xs) eq_refl eq_refl eq_refl 30 2 2 2 4 4 j q f t default_idm_real).
  assert (M0 : moved (wframe 0 10) (wframe 0 10) 0) by (repeat split; rewrite ahead_x; reflexivity).
  destruct (St 0%nat (rpt 0 10) (wframe 0 10) 0 ltac:(lia)) as (_ & _ & _ & v1 & w1 & q1 & f1 & _ & _ & _ & _ & _ & _ & _ & B1 & _ & N1 & E1 & V1 & F1 & M1 & _ & R1);
    auto using rpt_frame.
  { rewrite Nat.add_0_r. etransitivity; [exact (sim_start 2 3 _ _ _ _ _ _ W Run (le_n 1) (le_n 3) 0%nat ltac:(lia))|reflexivity]. }
  specialize (R1 (End _ _ N1)).
  destruct (St 1%nat q1 f1 _ ltac:(lia) E1 V1 F1 M1) as (_ & _ & _ & v2 & w2 & q2 & f2 & _ & _ & _ & _ & _ & _ & _ & B2 & _ & N2 & E2 & V2 & F2 & M2 & _ & R2).
  specialize (R2 (End _ _ N2)).
  destruct (parked_frames 2 3 lcfg tt (fun _ => []) (idm_policy default_idm) tt tt (@None unit) s s' 2 1 _ W Run (le_n 1) (le_n 3) ltac:(lia)
    (lane_other xs _ 1%nat ltac:(discriminate)) eq_refl _ (lane_parked xs (46 / 10)) 2%nat (le_n 2)) as (r & Er & Vr & Gr).
  exists q2, r, f2, (wframe (46 / 10) 0). split; [exact W|]. split; [exact Run|]. split.
  { do 2 eexists. split; [reflexivity|]. split; [reflexivity|]. split; [apply lane_straight|]. split; [apply lane_parked|].
    split; [|lra]. replace (6 / 10) with (46 / 10 - 4) by field. apply lane_contact. lra. }
  split; [exact E2|]. split; [exact Er|]. do 4 (split; [assumption|]). split; [|lra].
  apply (touches_moved _ _ _ _ 0 M2). apply lane_touches. rewrite R1, Sp in *. apply Rabs_def1; lra.
Qed.

(** Non-vacuity of the end-of-route theorem: from the last logged position. *)
Example C64_end_of_route_example : exists s' q,
  run_policy (S := XR) StateDynamics lcfg
    (actor_policy (sim_agent tt (fun _ => []) (constant_speed_policy (Fin 10))) tt tt (@None unit)) (lane [0; 0] 50) 1 = Ok s' /\
  at2 (s_sim s') 0 1 = Some q /\ p_valid q = true /\ p_x q = Fin (-1) /\ p_y q = Fin (-1).
Proof.
  assert (W : wf_scenario 2 2 (lane [0; 0] 50)) by (apply (lane_wf [0; 0]); discriminate).
  destruct (C64_constant_speed_runs 2 2 lcfg tt (fun _ => []) (Fin 10) tt tt (@None unit) (lane [0; 0] 50) 1) as (s' & Run); auto; [discriminate|].
  assert (St : straight (wframe 0 10) 10 = (1, 0)).
  { unfold straight. rewrite (wframe_speed 0 10) by lra. cbn. rewrite cos_0, sin_0. f_equal; field. }
  destruct (C64_end_of_route_teleports 2 2 lcfg tt (fun _ => []) tt tt (@None unit) (lane [0; 0] 50) s' 1 0 (map (fun x => rpt x 10) [0; 0])
    10 0 (rpt 0 10) 0 (rpt 0 10) (wframe 0 10) (mkway 0 0 0) W Run) as (q & A & B & C & D); auto using rpt_frame; try lra.
  - apply lane_control.
  - intros j q Hj V. destruct (lane_straight [0; 0] j q Hj V) as (d & Hd). eauto.
  - etransitivity; [exact (sim_start 2 2 _ _ _ _ _ _ W Run (le_n 1) (le_n 2) 0%nat ltac:(lia))|reflexivity].
  - rewrite St. exists 0%nat, (rpt 0 10). split; [reflexivity|]. split; [reflexivity|]. split; [repeat split|].
    intros j p' w' Hj _ Hw. split; [|lia]. right. f_equal. f_equal.
    destruct j as [|[|j]]; cbn in Hj; [| |destruct j; discriminate]; apply Some_inj in Hj; subst p';
      apply (is_way_inj (rpt 0 10)); auto; repeat split.
  - rewrite St. left. exists (mkway 0 0 0). split.
    + exists 1%nat, (rpt 0 10). split; [reflexivity|]. split; [reflexivity|]. split; [repeat split|].
      intros j p' Hj _. apply nth_error_Some_lt in Hj. simpl in Hj. lia.
    + rewrite (proj2 (dist_zero _ _) eq_refl). lra.
  - exists s', q. auto.
Qed.

Print Assumptions C64_idm_runs.
Print Assumptions C64_constant_speed_runs.
Print Assumptions C64_idm_episode.
Print Assumptions C64_idm_straight_road.
Print Assumptions C64_idm_never_hits_parked_objects.
Print Assumptions C64_idm_overlap_metric_zero.
Print Assumptions C64_end_of_route_teleports.
Print Assumptions C64_idm_avoids_collisions_past_route_end_refuted.
