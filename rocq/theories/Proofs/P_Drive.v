(** Whole episodes driven by the waypoint-following agents (C64). *)
From Coq Require Import Reals List ZArith Bool Lra Lia Psatz.
From Verif.Lib Require Import Base JaxIndex Scalar XR.
From Verif.Model Require Import Operations State Dynamics BaseEnv Dyn_State Geometry Discretizer Comfort Metrics Actor Waypoint.
From Verif.Spec Require Import StateSpec GeomSpec DynSpec AgentSpec WaypointSpec DriveSpec.
From Verif.Proofs Require Import Core Episode P_Step P_Actions P_Expert P_Plan P_Pose P_Overlap P_Metrics P_MetricsRun P_IDM P_Lead P_IDMRun P_Waypoint.
Import ListNotations.

Section Frames.
  Context {S : Scalar} {P X K : Type}.
  Open Scope nat_scope.

  (** What a step of an episode driven by a sim agent does to each object. *)
  Lemma sim_frames n T c none ctrl upd (p : P) (x : X) (key : option K) s s' k :
    wf_scenario n T s ->
    run_policy StateDynamics c (actor_policy (sim_agent none ctrl upd) p x key) s k = Ok s' ->
    1 <= c_init_steps c -> c_init_steps c + k <= T ->
    forall j, j < k ->
    exists s1 ups cur,
      wf_state n T s1 /\ s_log s1 = s_log s /\ upd s1 = Ok ups /\ current_sim s1 = Ok cur /\
      length cur = n /\
      forall i, i < n -> exists q u nxt p',
        nth_error cur i = Some q /\ at2 (s_sim s') i (c_init_steps c - 1 + j) = Some q /\
        nth_error ups i = Some u /\ at2 (s_log s) i (c_init_steps c - 1 + Datatypes.S j) = Some nxt /\
        at2 (s_sim s') i (c_init_steps c - 1 + Datatypes.S j) = Some p' /\
        p_z p' = p_z q /\ p_len p' = p_len q /\ p_wid p' = p_wid q /\
        (in_control c s i -> p_x p' = u_x u /\ p_y p' = u_y u /\ p_yaw p' = u_yaw u /\
           p_vx p' = u_vx u /\ p_vy p' = u_vy u /\ (p_valid q = true -> p_valid p' = true)) /\
        (~ in_control c s i -> p_x p' = p_x nxt /\ p_y p' = p_y nxt /\ p_yaw p' = p_yaw nxt /\
           p_vx p' = p_vx nxt /\ p_vy p' = p_vy nxt /\
           p_valid p' = p_valid nxt && (c_allow_new_objects c || p_valid q)).
  Proof.
    intros W H HI HL j Hj.
    destruct (policy_frames n T _ _ _ _ _ _ W H HI HL j Hj)
      as (s1 & a & cur & us & R1 & W1 & SC & Et & Ha & La & Lc & Lu & Hu & Fr).
    unfold actor_policy in Ha. cbn [sim_agent ac_select] in Ha.
    apply bind_Ok in Ha as (o & Ho & Ha). apply bind_Ok in Ho as (ups & Hups & Ho).
    assert (o = mkout none (map as_action ups) (ctrl s1)) as -> by congruence. cbn [o_action] in Ha.
    assert (a = map as_action ups) as -> by congruence. clear Ha Ho.
    assert (Lup : length ups = n) by (rewrite map_length in La; exact La).
    pose proof W1 as (Rs & _ & _ & _ & HT).
    destruct (dynamic_index_total n T (s_sim s1) (s_t s1) Rs HT) as [cur' Hc'].
    destruct (dynamic_index_Ok _ _ _ _ _ Rs Hc') as [Lc' Hcc].
    assert (cur' = cur) as ->.
    { apply nth_error_ext_eq. intros i. destruct (Nat.lt_ge_cases i n) as [Li|Li].
      - destruct (Fr i Li) as (E & _). rewrite E, Hcc by auto. rewrite Et, norm_nat by lia. reflexivity.
      - rewrite !(proj2 (nth_error_None _ i)) by lia. auto. }
    exists s1, ups, cur. split; [exact W1|]. split; [unfold same_scenario in SC; intuition congruence|]. split; [exact Hups|].
    split; [exact Hc'|]. split; [exact Lc|].
    intros i Hi. destruct (Fr i Hi) as (Ecur & Past & u & q & nxt & ctl & Eu & Eq & En & Ic & Enew).
    destruct (per_object_Ok _ _ _ _ Hu) as (_ & _ & PO).
    destruct (nth_error_lt_Some ups i) as [up Eup]; [lia|].
    destruct (PO i (as_action up) q) as (u' & Eu' & Eun); auto. { now rewrite nth_error_map, Eup. }
    assert (u' = u) as -> by congruence.
    exists q, up, nxt. eexists. split; [exact Eq|].
    split. { rewrite Past by lia. rewrite <- Eq, Ecur. f_equal. lia. }
    split; [exact Eup|].
    replace (c_init_steps c - 1 + Datatypes.S j) with (c_init_steps c + j) by lia.
    split; [exact En|]. split; [exact Enew|].
    unfold next_pt. cbn [p_x p_y p_z p_yaw p_vx p_vy p_valid p_len p_wid].
    split; [reflexivity|]. split; [reflexivity|]. split; [reflexivity|].
    unfold state_update, as_action in Eu'. cbn [a_data a_valid] in Eu'. injection Eu' as <-.
    cbn [u_x u_y u_yaw u_vx u_vy]. split.
    - intros C. assert (ctl = true) as -> by now apply Ic. repeat (split; [reflexivity|]).
      intros V. unfold next_valid. rewrite V. cbn. destruct (c_allow_new_objects c); reflexivity.
    - intros C. assert (ctl = false) as ->. { destruct ctl; auto. destruct (C (proj1 Ic eq_refl)). }
      repeat (split; [reflexivity|]). unfold next_valid. cbn.
      destruct (c_allow_new_objects c), (p_valid q), (p_valid nxt); reflexivity.
  Qed.

  (** The frame at the end of warm-up is the logged one. *)
  Lemma sim_start n T d c pol s s' k :
    wf_scenario n T s -> run_policy d c pol s k = Ok s' ->
    1 <= c_init_steps c -> c_init_steps c + k <= T ->
    forall i, i < n -> at2 (s_sim s') i (c_init_steps c - 1) = at2 (s_log s) i (c_init_steps c - 1).
  Proof.
    intros W H HI HL i Hi. destruct (run_policy_episode _ _ _ _ _ _ H) as (acts & La & HE).
    destruct (episode_basic _ _ _ _ _ _ _ W HE ltac:(lia)) as (_ & _ & _ & _ & F & _). apply F; auto. lia.
  Qed.
End Frames.

Open Scope R_scope.

(** With or without a leader, the next speed does not exceed the larger of the desired
    and the present one. *)
Lemma idm_cap p v0 s0 th a b delta v u d :
  idm_real p v0 s0 th a b delta -> 0 <= v -> a * delta * (1 / 10) <= v0 ->
  idm_next v0 s0 th a b delta v u d <= Rmax v0 v.
Proof.
  intros H Hv Hs.
  destruct (idm_free p v0 s0 th a b delta v (-1) (-1) H Hv (or_introl eq_refl) Hs) as (r & Er & Hr & _).
  rewrite (idm_next_real _ _ _ _ _ _ _ _ _ _ H Hv) in Er. injection Er as <-.
  refine (Rle_trans _ _ _ _ Hr). unfold idm_next.
  replace (interaction s0 th a b v (-1) (-1)) with 0
    by (unfold interaction; destruct (Req_EM_T (-1) (-1)); lra).
  set (z := interaction s0 th a b v u d). assert (0 <= z * z) by nra.
  destruct H as [_ _ _ _ _ _ P1 P2 P3 P4 P5 P6].
  apply Rle_max_compat_l. nra.
Qed.

Lemma idm_speed p v0 s0 th a b delta s cur sv i me f :
  idm_real p v0 s0 th a b delta ->
  idm_update_speed (S := XR) p s = Ok sv -> current_sim s = Ok cur -> nth_error cur i = Some me ->
  p_valid me = true -> is_frame me f ->
  exists r, nth_error sv i = Some (Fin r, true) /\ 0 <= r <= rspeed f + a * (1 / 10) /\
    (a * delta * (1 / 10) <= v0 -> r <= Rmax v0 (rspeed f)).
Proof.
  intros HI H Hc Hm V Fm. destruct (idm_update_len _ _ _ H) as (cur' & Hc' & L1 & L2).
  rewrite Hc in Hc'. apply Ok_inj in Hc'. subst cur'.
  destruct (nth_error_lt_Some sv i) as [[x ok] Hx].
  { apply nth_error_Some_lt in Hm. change (@F XR) with xr in *. unfold F, XR in *. lia. }
  destruct (idm_entry _ _ _ _ _ _ _ _ H Hc Hx Hm) as (-> & log & tr & Hl & Ht & ->).
  unfold object_accel in *. destruct (@lead_finite i tr cur me) as (u & d & E). rewrite E in *.
  rewrite (obj_speed_frame me f Fm V) in *.
  destruct (idm_bounds p v0 s0 th a b delta (rspeed f) u d HI (rspeed_nonneg f)) as (r & Er & B).
  exists r. rewrite Er in Hx. split; [exact Hx|]. split; [exact B|]. intros Hs.
  rewrite (idm_next_real _ _ _ _ _ _ _ _ _ _ HI (rspeed_nonneg f)) in Er. injection Er as <-.
  eapply idm_cap; eauto. apply rspeed_nonneg.
Qed.

Lemma rspeed_polar f v th : fvx f = v * cos th -> fvy f = v * sin th -> 0 <= v -> rspeed f = v.
Proof.
  intros A B Hv. unfold rspeed. rewrite A, B.
  replace (v * cos th * (v * cos th) + v * sin th * (v * sin th)) with (v * v * (Rsqr (sin th) + Rsqr (cos th)))
    by (unfold Rsqr; ring).
  rewrite sin2_cos2, Rmult_1_r. now apply sqrt_square.
Qed.

(** One step of a valid object that is not invalidated at the end of its route. *)
Lemma idm_move p s ups sv cur i log me f v' k0 p0 :
  idm_invalidate_on_end p = false ->
  idm_policy (S := XR) p s = Ok ups -> idm_update_speed p s = Ok sv -> current_sim s = Ok cur ->
  nth_error (s_log s) i = Some log -> nth_error cur i = Some me -> nth_error sv i = Some (Fin v', true) ->
  0 <= v' -> p_valid me = true -> is_frame me f -> real_route log ->
  nth_error log k0 = Some p0 -> p_valid p0 = true ->
  exists w u x y vx vy, nearest_waypoint log (straight f v') w /\ nth_error ups i = Some u /\
    nearest_on_line (wx w) (wy w) (wyaw w) (straight f v') (x, y) /\
    u = mkupd (Fin x) (Fin y) (Fin (wyaw w)) (Fin vx) (Fin vy) true /\
    (~ route_end log (straight f v') w -> vx = v' * cos (fyaw f) /\ vy = v' * sin (fyaw f)) /\
    (route_end log (straight f v') w -> vx = fvx f /\ vy = fvy f).
Proof.
  intros Hinv Hp Hs Hc Hl Hm Hv P V HF HR Hk Vk. unfold idm_policy in Hp. rewrite Hinv in Hp.
  destruct (waypoint_policy _ _ _ _ _ _ _ _ _ _ _ _ _ Hp Hs Hc Hl Hm Hv V HF HR Hk Vk)
    as (w & u & Nw & Eu & A & B & _).
  destruct (Classical_Prop.classic (route_end log (straight f v') w)) as [E|N].
  - destruct (B E eq_refl) as (x & y & On & ->). exists w. do 5 eexists. split; [exact Nw|].
    split; [exact Eu|]. split; [exact On|]. split; [reflexivity|]. split; [contradiction|auto].
  - destruct (A N) as (x & y & On & ->). exists w. do 5 eexists. split; [exact Nw|].
    split; [exact Eu|]. split; [exact On|]. split; [reflexivity|]. split; [auto|contradiction].
Qed.

Section Idm.
  Context {P X K : Type}.
  Variables (n T : nat) (c : envcfg) (none : X) (ctrl : state (S := XR) -> list bool)
    (p : idm_params (S := XR)) (pp : P) (x : X) (key : option K) (s s' : state (S := XR)) (k i : nat)
    (log : list (pt (S := XR))) (p0 : pt (S := XR)) (f0 : rframe).
  Hypothesis W : wf_scenario n T s.
  Hypothesis Run : run_policy (S := XR) StateDynamics c (actor_policy (idm_actor none ctrl p) pp x key) s k = Ok s'.
  Hypothesis HI : (1 <= c_init_steps c)%nat.
  Hypothesis HL : (c_init_steps c + k <= T)%nat.
  Hypothesis Hi : (i < n)%nat.
  Hypothesis Hc : in_control c s i.
  Hypothesis Hlog : nth_error (s_log s) i = Some log.
  Hypothesis HR : real_route log.
  Hypothesis H0 : at2 (s_log s) i (c_init_steps c - 1) = Some p0.
  Hypothesis V0 : p_valid p0 = true.
  Hypothesis F0 : is_frame p0 f0.
  Hypothesis Hinv : idm_invalidate_on_end p = false.

  Lemma log_p0 : nth_error log (c_init_steps c - 1) = Some p0.
  Proof. unfold at2 in H0. now rewrite Hlog in H0. Qed.

  Lemma route_p0 : on_route log f0.
  Proof.
    destruct F0 as (A & B & _ & _ & _ & C & _).
    exists (c_init_steps c - 1)%nat, p0, (mkway (fx f0) (fy f0) (fyaw f0)).
    split; [apply log_p0|]. split; [exact V0|]. split; [repeat split; assumption|]. cbn [wx wy wyaw].
    split; [|reflexivity]. exists 0. f_equal; lra.
  Qed.

  (** The next frame. *)
  Lemma idm_next_frame v0 s0 th a b delta j q f :
    idm_real p v0 s0 th a b delta -> (j < k)%nat ->
    at2 (s_sim s') i (c_init_steps c - 1 + j) = Some q -> p_valid q = true -> is_frame q f ->
    exists s1 cur sv v' w q' f',
      wf_state n T s1 /\ s_log s1 = s_log s /\ current_sim s1 = Ok cur /\ length cur = n /\
      (forall m, (m < n)%nat -> nth_error cur m = at2 (s_sim s') m (c_init_steps c - 1 + j)) /\
      idm_update_speed p s1 = Ok sv /\ nth_error sv i = Some (Fin v', true) /\
      0 <= v' <= rspeed f + a * (1 / 10) /\ (a * delta * (1 / 10) <= v0 -> v' <= Rmax v0 (rspeed f)) /\
      nearest_waypoint log (straight f v') w /\
      at2 (s_sim s') i (c_init_steps c - 1 + Datatypes.S j) = Some q' /\ p_valid q' = true /\ is_frame q' f' /\
      nearest_on_line (wx w) (wy w) (wyaw w) (straight f v') (fx f', fy f') /\ fyaw f' = wyaw w /\
      fz f' = fz f /\ flen f' = flen f /\ fwid f' = fwid f /\
      (~ route_end log (straight f v') w -> rspeed f' = v') /\
      (route_end log (straight f v') w -> rspeed f' = rspeed f).
  Proof.
    intros HP Hj Eq V Fq.
    destruct (sim_frames n T c none ctrl (idm_policy p) pp x key s s' k W Run HI HL j Hj)
      as (s1 & ups & cur & W1 & El & Hups & Hcur & Lc & Fr).
    destruct (Fr i Hi) as (q1 & u & nxt & p' & E1 & E2 & Eu & _ & E3 & Z1 & Z2 & Z3 & Cc & _).
    assert (q1 = q) as -> by congruence.
    assert (exists sv, idm_update_speed p s1 = Ok sv) as [sv Hsv].
    { unfold idm_policy, waypoint_update in Hups. apply bind_Ok in Hups as (sv & Hsv & _). eauto. }
    destruct (idm_speed p v0 s0 th a b delta s1 cur sv i q f HP Hsv Hcur E1 V Fq) as (v' & Hv & B & Cap).
    assert (Hlog1 : nth_error (s_log s1) i = Some log) by now rewrite El.
    destruct (idm_move p s1 ups sv cur i log q f v' _ _ Hinv Hups Hsv Hcur Hlog1 E1 Hv (proj1 B) V Fq HR log_p0 V0)
      as (w & u1 & x1 & y1 & vx & vy & Nw & Eu1 & On & -> & NE & RE).
    assert (u = mkupd (Fin x1) (Fin y1) (Fin (wyaw w)) (Fin vx) (Fin vy) true) as -> by congruence.
    destruct (Cc Hc) as (Q1 & Q2 & Q3 & Q4 & Q5 & Q6). cbn [u_x u_y u_yaw u_vx u_vy] in *.
    destruct Fq as (G1 & G2 & G3 & G4 & G5 & G6 & G7 & G8).
    exists s1, cur, sv, v', w, p', (mkrf x1 y1 (fz f) vx vy (wyaw w) (flen f) (fwid f)).
    split; [exact W1|]. split; [exact El|]. split; [exact Hcur|]. split; [exact Lc|].
    split. { intros m Hm. destruct (Fr m Hm) as (qm & _ & _ & _ & A1 & A2 & _). congruence. }
    split; [exact Hsv|]. split; [exact Hv|]. split; [exact B|]. split; [exact Cap|]. split; [exact Nw|].
    split; [exact E3|]. split; [now apply Q6|].
    split. { repeat split; cbn [fx fy fz fvx fvy fyaw flen fwid]; congruence. }
    cbn [fx fy fz fyaw flen fwid]. split; [exact On|]. repeat (split; [reflexivity|]). split.
    - intros N. destruct (NE N) as [-> ->].
      apply (rspeed_polar (mkrf x1 y1 (fz f) (v' * cos (fyaw f)) (v' * sin (fyaw f)) (wyaw w) (flen f) (fwid f)) v' (fyaw f)); auto. apply B.
    - intros N. destruct (RE N) as [-> ->]. reflexivity.
  Qed.

  Lemma idm_episode v0 s0 th a b delta : idm_real p v0 s0 th a b delta ->
    forall j, (j <= k)%nat -> exists q f,
      at2 (s_sim s') i (c_init_steps c - 1 + j) = Some q /\ p_valid q = true /\ is_frame q f /\
      on_route log f /\ fz f = fz f0 /\ flen f = flen f0 /\ fwid f = fwid f0 /\
      rspeed f <= rspeed f0 + INR j * (a * (1 / 10)) /\
      (a * delta * (1 / 10) <= v0 -> rspeed f <= Rmax v0 (rspeed f0)).
  Proof.
    intros HP. induction j as [|j IH]; intros Hj.
    - exists p0, f0. rewrite Nat.add_0_r, (sim_start n T _ _ _ _ _ _ W Run HI HL i Hi).
      split; [exact H0|]. split; [exact V0|]. split; [exact F0|]. split; [apply route_p0|].
      repeat (split; [reflexivity|]). split; [simpl; lra|]. intros _. apply Rmax_r.
    - destruct IH as (q & f & Eq & V & Fq & _ & Z1 & Z2 & Z3 & B1 & B2); [lia|].
      destruct (idm_next_frame v0 s0 th a b delta j q f HP ltac:(lia) Eq V Fq)
        as (s1 & cur & sv & v' & w & q' & f' & _ & _ & _ & _ & _ & _ & _ & B & Cap & Nw & Eq' & V' & Fq' & On & Ey & Y1 & Y2 & Y3 & NE & RE).
      exists q', f'. split; [exact Eq'|]. split; [exact V'|]. split; [exact Fq'|].
      split. { destruct Nw as (kk & pw & A1 & A2 & A3 & _). exists kk, pw, w. split; [exact A1|]. split; [exact A2|].
               split; [exact A3|]. split; [apply On|exact Ey]. }
      split; [congruence|]. split; [congruence|]. split; [congruence|].
      pose proof (ir_a_pos _ _ _ _ _ _ _ HP).
      rewrite S_INR.
      destruct (Classical_Prop.classic (route_end log (straight f v') w)) as [E|N].
      + rewrite (RE E). split; [lra|exact B2].
      + rewrite (NE N). split; [lra|]. intros Hs. specialize (B2 Hs). specialize (Cap Hs).
        unfold Rmax in *. destruct (Rle_dec v0 (rspeed f)), (Rle_dec v0 (rspeed f0)); lra.
  Qed.
End Idm.

(** Straight roads. *)
Lemma dist_ahead f d e : dist (ahead f d) (ahead f e) = Rabs (d - e).
Proof.
  unfold dist, ahead. cbn [fst snd].
  replace ((fx f + d * cos (fyaw f) - (fx f + e * cos (fyaw f))) * (fx f + d * cos (fyaw f) - (fx f + e * cos (fyaw f))) +
    (fy f + d * sin (fyaw f) - (fy f + e * sin (fyaw f))) * (fy f + d * sin (fyaw f) - (fy f + e * sin (fyaw f))))
    with (Rsqr (d - e) * (Rsqr (sin (fyaw f)) + Rsqr (cos (fyaw f)))) by (unfold Rsqr; ring).
  rewrite sin2_cos2, Rmult_1_r. apply sqrt_Rsqr_abs.
Qed.

Lemma straight_moved f g t v : moved f g t -> straight g v = ahead f (t + (v + rspeed g) / 20).
Proof.
  intros (E & Ey & _). unfold ahead in E. injection E as E1 E2. unfold straight, ahead. cbv zeta.
  rewrite E1, E2, Ey. f_equal; lra.
Qed.

Lemma advanced_moved f g t d : moved f g t -> advanced g d = advanced f (t + d).
Proof.
  intros (E & Ey & El & Ew). unfold ahead in E. injection E as E1 E2. unfold advanced.
  rewrite E1, E2, Ey, El, Ew. f_equal; ring.
Qed.

Lemma touches_moved f g h t d : moved f g t -> touches g h d <-> touches f h (t + d).
Proof. intros M. unfold touches. now rewrite (advanced_moved _ _ _ _ M). Qed.

Lemma is_way_inj p w w' : is_way p w -> is_way p w' -> w = w'.
Proof. destruct w, w'. unfold is_way. cbn. intros (A & B & C) (A' & B' & C'). f_equal; congruence. Qed.

Lemma last_waypoint_inj log w w' : last_waypoint log w -> last_waypoint log w' -> w = w'.
Proof.
  intros (k & p & A & V & B & C) (k' & p' & A' & V' & B' & C').
  assert (k = k') as <-. { specialize (C _ _ A' V'). specialize (C' _ _ A V). lia. }
  assert (p = p') as <- by congruence. eapply is_way_inj; eauto.
Qed.

Lemma dist_tri p q r : dist p r <= dist p q + dist q r.
Proof.
  destruct p as [a b], q as [c d], r as [e f]. unfold dist. cbn [fst snd].
  pose proof (triangle a b e f c d) as T. unfold dist_euc, Rsqr in T. lra.
Qed.

Lemma covered_not_end log f len t w : covers log f len -> 0 <= t <= len ->
  nearest_waypoint log (ahead f t) w -> ~ route_end log (ahead f t) w.
Proof.
  intros (Hc & l & e & Hl & El & He) Ht (k & p & A & V & B & C).
  destruct (Hc t Ht) as (k' & p' & w' & A' & V' & B' & D').
  destruct (C _ _ _ A' V' B') as [D _].
  intros [(l' & Hl' & Dl)|F]; [|lra].
  assert (l' = l) as -> by (eapply last_waypoint_inj; eauto).
  pose proof (dist_tri (ahead f t) (wxy w) (wxy l)) as T. rewrite (dist_sym (wxy w)) in T.
  rewrite El, dist_ahead in T at 1. rewrite Rabs_left1 in T by lra. rewrite El in *. lra.
Qed.

Section Straight.
  Context {P X K : Type}.
  Variables (n T : nat) (c : envcfg) (none : X) (ctrl : state (S := XR) -> list bool)
    (p : idm_params (S := XR)) (pp : P) (x : X) (key : option K) (s s' : state (S := XR)) (k i : nat)
    (log : list (pt (S := XR))) (p0 : pt (S := XR)) (f0 : rframe).
  Hypothesis W : wf_scenario n T s.
  Hypothesis Run : run_policy (S := XR) StateDynamics c (actor_policy (idm_actor none ctrl p) pp x key) s k = Ok s'.
  Hypothesis HI : (1 <= c_init_steps c)%nat.
  Hypothesis HL : (c_init_steps c + k <= T)%nat.
  Hypothesis Hi : (i < n)%nat.
  Hypothesis Hc : in_control c s i.
  Hypothesis Hlog : nth_error (s_log s) i = Some log.
  Hypothesis HS : straight_route log f0.
  Hypothesis H0 : at2 (s_log s) i (c_init_steps c - 1) = Some p0.
  Hypothesis V0 : p_valid p0 = true.
  Hypothesis F0 : is_frame p0 f0.
  Hypothesis Hinv : idm_invalidate_on_end p = false.

  Lemma straight_real : real_route log.
  Proof. intros kk q E V. destruct (HS kk q E V) as (d & B). eauto. Qed.

  Lemma straight_step v0 s0 th a b delta j q f t :
    idm_real p v0 s0 th a b delta -> (j < k)%nat ->
    at2 (s_sim s') i (c_init_steps c - 1 + j) = Some q -> p_valid q = true -> is_frame q f -> moved f0 f t ->
    exists s1 cur sv v' w q' f',
      wf_state n T s1 /\ s_log s1 = s_log s /\ current_sim s1 = Ok cur /\ length cur = n /\
      (forall m, (m < n)%nat -> nth_error cur m = at2 (s_sim s') m (c_init_steps c - 1 + j)) /\
      idm_update_speed p s1 = Ok sv /\ nth_error sv i = Some (Fin v', true) /\
      0 <= v' <= rspeed f + a * (1 / 10) /\ (a * delta * (1 / 10) <= v0 -> v' <= Rmax v0 (rspeed f)) /\
      nearest_waypoint log (ahead f0 (t + (v' + rspeed f) / 20)) w /\
      at2 (s_sim s') i (c_init_steps c - 1 + Datatypes.S j) = Some q' /\ p_valid q' = true /\ is_frame q' f' /\
      moved f0 f' (t + (v' + rspeed f) / 20) /\
      (~ route_end log (ahead f0 (t + (v' + rspeed f) / 20)) w -> rspeed f' = v') /\
      (route_end log (ahead f0 (t + (v' + rspeed f) / 20)) w -> rspeed f' = rspeed f).
  Proof.
    intros HP Hj Eq V Fq M.
    destruct (idm_next_frame n T c none ctrl p pp x key s s' k i log p0 W Run HI HL Hi Hc Hlog straight_real H0 V0 Hinv
      v0 s0 th a b delta j q f HP Hj Eq V Fq)
      as (s1 & cur & sv & v' & w & q' & f' & A1 & A2 & A3 & A4 & A5 & A6 & A7 & B & Cap & Nw & Eq' & V' & Fq' & On & Ey & Y1 & Y2 & Y3 & NE & RE).
    exists s1, cur, sv, v', w, q', f'. rewrite (straight_moved _ _ _ v' M) in *.
    do 9 (split; [assumption|]). split; [exact Nw|]. do 3 (split; [assumption|]). split; [|split; assumption].
    destruct Nw as (kk & pw & E1 & E2 & E3 & _). destruct (HS kk pw E1 E2) as (e & E4).
    pose proof (is_way_inj _ _ _ E3 E4) as ->. cbn [wx wy wyaw] in *.
    destruct M as (_ & M2 & M3 & M4).
    split; [|split; [exact Ey|]; split; congruence].
    refine (on_line_kept _ _ _ _ _ _ On). exists (t + (v' + rspeed f) / 20 - e). unfold ahead. cbn [fst snd].
    f_equal; ring.
  Qed.

  (** On a straight road the object only ever moves forward. *)
  Lemma straight_episode v0 s0 th a b delta : idm_real p v0 s0 th a b delta ->
    exists t : nat -> R, t 0%nat = 0 /\
    (forall j, (j <= k)%nat -> exists q f, at2 (s_sim s') i (c_init_steps c - 1 + j) = Some q /\
       p_valid q = true /\ is_frame q f /\ moved f0 f (t j)) /\
    (forall j q f, (j < k)%nat -> at2 (s_sim s') i (c_init_steps c - 1 + j) = Some q -> is_frame q f ->
       0 <= t (Datatypes.S j) - t j <= rspeed f / 10 + a / 200).
  Proof.
    intros HP.
    assert (St : forall kk, (kk <= k)%nat -> exists t : nat -> R, t 0%nat = 0 /\
      (forall j, (j <= kk)%nat -> exists q f, at2 (s_sim s') i (c_init_steps c - 1 + j) = Some q /\
         p_valid q = true /\ is_frame q f /\ moved f0 f (t j)) /\
      (forall j q f, (j < kk)%nat -> at2 (s_sim s') i (c_init_steps c - 1 + j) = Some q -> is_frame q f ->
         0 <= t (Datatypes.S j) - t j <= rspeed f / 10 + a / 200)); [|now apply (St k)].
    induction kk as [|kk IH]; intros Hk.
    - exists (fun _ => 0). split; [reflexivity|]. split; [|lia].
      intros j Hj. assert (j = 0)%nat as -> by lia. exists p0, f0.
      rewrite Nat.add_0_r, (sim_start n T _ _ _ _ _ _ W Run HI HL i Hi).
      do 3 (split; [assumption|]). repeat split. unfold ahead. f_equal; ring.
    - destruct (IH ltac:(lia)) as (t & T0 & A & B). destruct (A kk ltac:(lia)) as (q & f & Eq & V & Fq & M).
      destruct (straight_step v0 s0 th a b delta kk q f (t kk) HP ltac:(lia) Eq V Fq M)
        as (s1 & cur & sv & v' & w & q' & f' & _ & _ & _ & _ & _ & _ & _ & Bv & _ & _ & Eq' & V' & Fq' & M' & _).
      exists (fun j => if Nat.eqb j (Datatypes.S kk) then t kk + (v' + rspeed f) / 20 else t j).
      split; [cbn; exact T0|]. split.
      + intros j Hj. destruct (Nat.eqb_spec j (Datatypes.S kk)) as [->|N].
        * exists q', f'. auto.
        * apply A. lia.
      + intros j q1 f1 Hj E1 G1. destruct (Nat.eqb_spec (Datatypes.S j) (Datatypes.S kk)) as [Ej|N].
        * injection Ej as ->. destruct (Nat.eqb_spec kk (Datatypes.S kk)); [lia|].
          assert (q1 = q) as -> by congruence. rewrite (is_frame_inj _ _ _ G1 Fq).
          pose proof (rspeed_nonneg f). lra.
        * destruct (Nat.eqb_spec j (Datatypes.S kk)); [lia|]. eapply B; eauto. lia.
  Qed.
End Straight.

(** Objects that are not controlled and do not move in the log. *)
Section Still.
  Context {P X K : Type}.
  Variables (n T : nat) (c : envcfg) (none : X) (ctrl : state (S := XR) -> list bool)
    (upd : state (S := XR) -> res (list (upd (S := XR)))) (pp : P) (x : X) (key : option K)
    (s s' : state (S := XR)) (k m : nat) (lm : list (pt (S := XR))).
  Hypothesis W : wf_scenario n T s.
  Hypothesis Run : run_policy (S := XR) StateDynamics c (actor_policy (sim_agent none ctrl upd) pp x key) s k = Ok s'.
  Hypothesis HI : (1 <= c_init_steps c)%nat.
  Hypothesis HL : (c_init_steps c + k <= T)%nat.
  Hypothesis Hm : (m < n)%nat.
  Hypothesis Hc : ~ in_control c s m.
  Hypothesis Hlm : nth_error (s_log s) m = Some lm.

  Lemma parked_frames g : parked lm g -> forall j, (j <= k)%nat ->
    exists q, at2 (s_sim s') m (c_init_steps c - 1 + j) = Some q /\ p_valid q = true /\ is_frame q g.
  Proof.
    intros [_ HP]. induction j as [|j IH]; intros Hj.
    - rewrite Nat.add_0_r, (sim_start n T _ _ _ _ _ _ W Run HI HL m Hm). unfold at2. rewrite Hlm.
      destruct (nth_error_lt_Some lm (c_init_steps c - 1)) as [q Eq].
      { destruct W as ((_ & Rl) & _).
        rewrite (Rl lm (nth_error_In _ _ Hlm)). lia. }
      exists q. split; [exact Eq|]. exact (HP _ _ Eq).
    - destruct (IH ltac:(lia)) as (q & Eq & V & G1 & G2 & G3 & G4 & G5 & G6 & G7 & G8).
      destruct (sim_frames n T c none ctrl upd pp x key s s' k W Run HI HL j ltac:(lia))
        as (s1 & ups & cur & _ & _ & _ & _ & _ & Fr).
      destruct (Fr m Hm) as (q1 & u & nxt & p' & _ & E2 & _ & En & E3 & Z1 & Z2 & Z3 & _ & Nc).
      assert (q1 = q) as -> by congruence. unfold at2 in En. rewrite Hlm in En.
      destruct (HP _ _ En) as (Vn & N1 & N2 & N3 & N4 & N5 & N6 & N7 & N8).
      destruct (Nc Hc) as (Q1 & Q2 & Q3 & Q4 & Q5 & Q6).
      exists p'. split; [exact E3|]. split; [rewrite Q6, Vn, V; destruct (c_allow_new_objects c); reflexivity|].
      repeat split; congruence.
  Qed.

  Lemma absent_frames : absent lm -> forall j q, (j <= k)%nat ->
    at2 (s_sim s') m (c_init_steps c - 1 + j) = Some q -> p_valid q = false.
  Proof.
    intros HA [|j] q Hj Eq.
    - rewrite Nat.add_0_r, (sim_start n T _ _ _ _ _ _ W Run HI HL m Hm) in Eq. unfold at2 in Eq. rewrite Hlm in Eq.
      exact (HA _ _ Eq).
    - destruct (sim_frames n T c none ctrl upd pp x key s s' k W Run HI HL j ltac:(lia))
        as (s1 & ups & cur & _ & _ & _ & _ & _ & Fr).
      destruct (Fr m Hm) as (q1 & u & nxt & p' & _ & E2 & _ & En & E3 & _ & _ & _ & _ & Nc).
      unfold at2 in En. rewrite Hlm in En. destruct (Nc Hc) as (_ & _ & _ & _ & _ & Q6).
      assert (p' = q) as -> by congruence. now rewrite Q6, (HA _ _ En).
  Qed.
End Still.

(** The braking inequality behind the safety theorem. *)
Lemma sqrt8 : 0 < sqrt (2 * 4) <= 3.
Proof.
  split; [apply sqrt_lt_R0; lra|]. replace 3 with (sqrt (3 * 3)) by (apply sqrt_square; lra). apply sqrt_le_1; lra.
Qed.

Lemma brake v e A pw : 0 <= v -> 0 < e <= A + 1 -> v <= 20 * A -> 0 <= pw ->
  2 * Rmax 0 (v + (1 / 10) * (2 * (1 - pw - wanted_gap 2 2 2 4 v 0 / e * (wanted_gap 2 2 2 4 v 0 / e)))) + v <= 20 * A.
Proof.
  intros Hv [He HA] HvA Hp. set (w := wanted_gap 2 2 2 4 v 0).
  assert (Hw : 2 + 2 * v + v * v / 6 <= w).
  { unfold w, wanted_gap. pose proof sqrt8 as [S1 S2].
    pose proof (Rmax_r 0 (v * 2 + v * (v - 0) / (2 * sqrt (2 * 4)))).
    assert (v * v / 6 <= v * (v - 0) / (2 * sqrt (2 * 4))); [|lra].
    rewrite Rminus_0_r. unfold Rdiv. apply Rmult_le_compat_l; [nra|]. apply Rinv_le_contravar; lra. }
  destruct (Rle_dec (3 * v + 4 / 10) (20 * A)) as [L|L].
  - unfold Rmax. destruct (Rle_dec 0 _); [|lra].
    assert (0 <= w / e * (w / e)) by nra. lra.
  - assert (E : e <= 15 / 100 * v + 102 / 100) by lra.
    assert (K : (5 * v + 1) * (e * e) <= w * w).
    { apply Rle_trans with ((5 * v + 1) * ((15 / 100 * v + 102 / 100) * (15 / 100 * v + 102 / 100))).
      { apply Rmult_le_compat_l; [lra|]. apply Rmult_le_compat; lra. }
      apply Rle_trans with ((2 + 2 * v + v * v / 6) * (2 + 2 * v + v * v / 6)).
      2:{ assert (0 <= v * v) by nra. apply Rmult_le_compat; lra. }
      assert (0 <= v * v) by nra. assert (0 <= v * v * v) by nra. assert (0 <= v * v * v * v) by nra. nra. }
    assert (Q : 5 * v + 1 <= w / e * (w / e)).
    { apply (Rmult_le_reg_r (e * e)); [nra|].
      replace (w / e * (w / e) * (e * e)) with (w * w) by (field; lra). exact K. }
    rewrite Rmax_left; lra.
Qed.

Section Safe.
  Context {P X K : Type}.
  Variables (n T : nat) (c : envcfg) (none : X) (ctrl : state (S := XR) -> list bool)
    (p : idm_params (S := XR)) (pp : P) (x : X) (key : option K) (s s' : state (S := XR)) (k i : nat)
    (log : list (pt (S := XR))) (p0 : pt (S := XR)) (f0 : rframe).
  Hypothesis HP : idm_real p 30 2 2 2 4 4.
  Hypothesis HP1 : lookahead_from_current_position p = true.
  Hypothesis HP2 : additional_lookahead_distance p = Fin 10.
  Hypothesis HP3 : additional_headway_points p = 10%nat.
  Hypothesis W : wf_scenario n T s.
  Hypothesis Run : run_policy (S := XR) StateDynamics c (actor_policy (idm_actor none ctrl p) pp x key) s k = Ok s'.
  Hypothesis HI : (1 <= c_init_steps c)%nat.
  Hypothesis HL : (c_init_steps c + k <= T)%nat.
  Hypothesis Hi : (i < n)%nat.
  Hypothesis Hc : in_control c s i.
  Hypothesis Hlog : nth_error (s_log s) i = Some log.
  Hypothesis HS : straight_route log f0.
  Hypothesis H0 : at2 (s_log s) i (c_init_steps c - 1) = Some p0.
  Hypothesis V0 : p_valid p0 = true.
  Hypothesis F0 : is_frame p0 f0.
  Hypothesis Hinv : idm_invalidate_on_end p = false.
  Hypothesis Hfast : rspeed f0 <= 66.

  Definition blocks (m : nat) (g : rframe) (al : R) : Prop :=
    m <> i /\ (exists lm, nth_error (s_log s) m = Some lm /\ parked lm g) /\ contact_after f0 g al /\ rspeed f0 / 20 <= al.

  Hypothesis Others : forall m lm, m <> i -> nth_error (s_log s) m = Some lm ->
    ~ in_control c s m /\
    (absent lm \/ exists g, parked lm g /\ (never_touches f0 g \/ exists al, blocks m g al)).
  Hypothesis Cov : exists m g al, blocks m g al /\ covers log f0 al.

  Lemma log_nth m : (m < n)%nat -> exists lm, nth_error (s_log s) m = Some lm.
  Proof. intros Hm. destruct W as ((L & _) & _). apply nth_error_lt_Some. lia. Qed.

  Lemma other_frames m j q : m <> i -> (m < n)%nat -> (j <= k)%nat ->
    at2 (s_sim s') m (c_init_steps c - 1 + j) = Some q -> p_valid q = true ->
    exists lm g, nth_error (s_log s) m = Some lm /\ parked lm g /\ is_frame q g /\
      (never_touches f0 g \/ exists al, blocks m g al).
  Proof.
    intros Nm Hm Hj Eq V. destruct (log_nth m Hm) as [lm Hlm].
    destruct (Others m lm Nm Hlm) as [NC [A|(g & Pk & D)]].
    - rewrite (absent_frames n T c none ctrl (idm_policy p) pp x key s s' k m lm W Run HI HL Hm NC Hlm A j q Hj Eq) in V.
      discriminate.
    - destruct (parked_frames n T c none ctrl (idm_policy p) pp x key s s' k m lm W Run HI HL Hm NC Hlm g Pk j Hj)
        as (q' & Eq' & _ & G). assert (q' = q) as -> by congruence. exists lm, g. auto.
  Qed.

  Lemma parked_present m g lm j : m <> i -> nth_error (s_log s) m = Some lm -> parked lm g -> (j <= k)%nat ->
    (m < n)%nat /\ exists q, at2 (s_sim s') m (c_init_steps c - 1 + j) = Some q /\ p_valid q = true /\ is_frame q g.
  Proof.
    intros Nm Hlm Pk Hj.
    assert (Hm : (m < n)%nat). { destruct W as ((L & _) & _). apply nth_error_Some_lt in Hlm. lia. }
    split; [exact Hm|]. destruct (Others m lm Nm Hlm) as [NC _].
    exact (parked_frames n T c none ctrl (idm_policy p) pp x key s s' k m lm W Run HI HL Hm NC Hlm g Pk j Hj).
  Qed.

  Lemma safe_step j q f t : (j < k)%nat ->
    at2 (s_sim s') i (c_init_steps c - 1 + j) = Some q -> p_valid q = true -> is_frame q f -> moved f0 f t ->
    0 <= t -> rspeed f <= 66 -> (forall m g al, blocks m g al -> rspeed f <= 20 * (al - t)) ->
    exists q' f' t', at2 (s_sim s') i (c_init_steps c - 1 + Datatypes.S j) = Some q' /\ p_valid q' = true /\
      is_frame q' f' /\ moved f0 f' t' /\ t <= t' /\ rspeed f' <= 66 /\
      (forall m g al, blocks m g al -> rspeed f' <= 20 * (al - t')).
  Proof.
    intros Hj Eq V Fq M Ht Hv Inv.
    destruct (straight_step n T c none ctrl p pp x key s s' k i log p0 f0 W Run HI HL Hi Hc Hlog HS H0 V0 Hinv
      30 2 2 2 4 4 j q f t HP Hj Eq V Fq M)
      as (s1 & cur & sv & v' & w & q' & f' & W1 & El & Hcur & Lc & Ecur & Hsv & Ev & B & Cap & Nw & Eq' & V' & Fq' & M' & NE & _).
    set (v := rspeed f) in *. assert (Hv0 : 0 <= v) by apply rspeed_nonneg.
    assert (Hcap : v' <= 66). { specialize (Cap ltac:(lra)). unfold Rmax in Cap. destruct (Rle_dec 30 v); lra. }
    assert (Eme : nth_error cur i = Some q) by now rewrite Ecur.
    assert (Fr : forall m r, nth_error cur m = Some r -> p_valid r = true -> exists g, is_frame r g).
    { intros m r Er Vr. destruct (Nat.eq_dec m i) as [->|Nm].
      - exists f. congruence.
      - assert (Hm : (m < n)%nat) by (apply nth_error_Some_lt in Er; lia).
        rewrite (Ecur m Hm) in Er. destruct (other_frames m j r Nm Hm ltac:(lia) Er Vr) as (_ & g & _ & _ & G & _). eauto. }
    assert (Key : forall m g al, blocks m g al -> 2 * v' + v <= 20 * (al - t)).
    { intros m g al HB. pose proof (Inv m g al HB) as IA. set (A := al - t) in *.
      destruct (Rle_dec 10 A) as [L|L]; [lra|].
      destruct (idm_exact p 30 2 2 2 4 4 10 s1 cur sv i q f HP HP1 HP2 ltac:(lra) Hsv Hcur Fr Eme V Fq) as (u & d & Ld & Ex).
      fold v in Ex. rewrite HP3 in Ld. pose proof (eq_trans (eq_sym Ev) Ex) as Ex'. assert (v' = Rmax 0 (v + 1 / 10 * idm_law 30 2 2 2 4 4 v u d)) as -> by congruence.
      destruct HB as (Nm & (lm & Hlm & Pk) & [C1 C2] & _).
      destruct (parked_present m g lm j Nm Hlm Pk ltac:(lia)) as (Hm & r & Er & Vr & Gr).
      (* the check point just beyond the contact *)
      assert (HA : 0 <= A) by lra.
      destruct (archimed A) as [U1 U2]. set (kz := up A) in *.
      assert (Kz : (0 < kz <= 10)%Z).
      { split; [apply lt_IZR; lra|]. assert (kz < 11)%Z; [|lia]. apply lt_IZR. lra. }
      assert (EK : INR (Z.to_nat kz) = IZR kz) by (rewrite INR_IZR_INZ, Z2Nat.id by lia; reflexivity).
      assert (HW : in_the_way cur 10 10 i m (Z.to_nat kz)).
      { split; [lia|]. split; [exact Nm|]. exists q, r, f, g.
        split; [exact Eme|]. split; [now rewrite Ecur|]. do 4 (split; [assumption|]).
        replace (10 * INR (Z.to_nat kz) / INR 10) with (IZR kz) by (rewrite EK; simpl INR; field).
        apply (touches_moved f0 f g t (IZR kz) M). apply C2. unfold A in *. lra. }
      destruct Ld as [(Hn & _)|(k0 & ((j0 & Hj0) & First) & Ed & ((j1 & Hj1 & (r1 & g1 & Er1 & Gr1 & Eu)) & _))];
        [destruct (Hn m _ HW)|].
      assert (K0 : (k0 <= Z.to_nat kz)%nat).
      { destruct (Nat.le_gt_cases k0 (Z.to_nat kz)); auto. destruct (First (Z.to_nat kz) m); auto. }
      assert (Hd : 0 <= d <= A + 1).
      { assert (d = INR k0) as -> by (rewrite Ed; simpl INR; field). apply le_INR in K0. rewrite EK in K0.
        pose proof (pos_INR k0). lra. }
      assert (u = 0) as ->.
      { destruct Hj1 as (_ & N1 & pi & pj & fi & fj & _ & Epj & _ & Vj & _).
        assert (pj = r1) as -> by congruence.
        assert (Hj1n : (j1 < n)%nat) by (apply nth_error_Some_lt in Er1; lia).
        rewrite (Ecur j1 Hj1n) in Er1.
        destruct (other_frames j1 j r1 N1 Hj1n ltac:(lia) Er1 Vj) as (l1 & g2 & _ & (Z & _) & G2 & _).
        rewrite (is_frame_inj _ _ _ Gr1 G2) in Eu. lra. }
      unfold idm_law. destruct (Req_EM_T d (-1)); [lra|]. cbv zeta.
      apply brake; auto; [|apply rpow_nonneg].
      unfold effective_gap. destruct (Req_EM_T d 0); lra. }
    exists q', f', (t + (v' + v) / 20). do 4 (split; [assumption|]).
    assert (Rf : rspeed f' = v').
    { apply NE. destruct Cov as (m & g & al & HB & HC). specialize (Key m g al HB).
      eapply covered_not_end; eauto. lra. }
    split; [lra|]. rewrite Rf. split; [exact Hcap|]. intros m g al HB. specialize (Key m g al HB). lra.
  Qed.

  Lemma safe_episode j : (j <= k)%nat ->
    exists q f t, at2 (s_sim s') i (c_init_steps c - 1 + j) = Some q /\ p_valid q = true /\
      is_frame q f /\ moved f0 f t /\ 0 <= t /\ rspeed f <= 66 /\
      (forall m g al, blocks m g al -> rspeed f <= 20 * (al - t)).
  Proof.
    induction j as [|j IH]; intros Hj.
    - exists p0, f0, 0. rewrite Nat.add_0_r, (sim_start n T _ _ _ _ _ _ W Run HI HL i Hi).
      do 3 (split; [assumption|]). split. { repeat split. unfold ahead. f_equal; ring. }
      split; [lra|]. split; [exact Hfast|]. intros m g al (_ & _ & _ & HB). lra.
    - destruct (IH ltac:(lia)) as (q & f & t & Eq & V & Fq & M & Ht & Hv & Inv).
      destruct (safe_step j q f t ltac:(lia) Eq V Fq M Ht Hv Inv) as (q' & f' & t' & A1 & A2 & A3 & A4 & A5 & A6 & A7).
      exists q', f', t'. do 4 (split; [assumption|]). split; [lra|]. auto.
  Qed.

  Lemma safe_all j m q r f g : (j <= k)%nat -> m <> i ->
    at2 (s_sim s') i (c_init_steps c - 1 + j) = Some q -> is_frame q f ->
    at2 (s_sim s') m (c_init_steps c - 1 + j) = Some r -> p_valid r = true -> is_frame r g ->
    ~ touches f g 0.
  Proof.
    intros Hj Nm Eq Fq Er Vr Gr.
    destruct (safe_episode j Hj) as (q1 & f1 & t & Eq1 & _ & Fq1 & M & Ht & _ & Inv).
    assert (q1 = q) as -> by congruence. rewrite (is_frame_inj _ _ _ Fq Fq1) in *. clear f Fq.
    assert (Hm : (m < n)%nat).
    { destruct (run_policy_episode _ _ _ _ _ _ Run) as (acts & La & HE).
      destruct (episode_basic _ _ _ _ _ _ _ W HE ltac:(lia)) as (((L & _) & _) & _).
      unfold at2 in Er. destruct (nth_error (s_sim s') m) eqn:E; [|discriminate]. apply nth_error_Some_lt in E. lia. }
    destruct (other_frames m j r Nm Hm Hj Er Vr) as (lm & g1 & Hlm & Pk & G1 & D).
    rewrite (is_frame_inj _ _ _ Gr G1) in *. rewrite (touches_moved f0 f1 g1 t 0 M), Rplus_0_r.
    destruct D as [D|(al & HB)]; [auto|]. pose proof HB as (_ & _ & [C1 _] & _). apply C1.
    specialize (Inv _ _ _ HB). pose proof (rspeed_nonneg f1). lra.
  Qed.
End Safe.

(** Such episodes run to the end of the log. *)
Lemma sim_runs {S : Scalar} {P X K} n T c none ctrl upd (p : P) (x : X) (key : option K) s k :
  (wf_scenario n T s -> c_max_num_objects c = n -> c_controlled c <> NON_SDC ->
  1 <= c_init_steps c -> c_init_steps c + k <= T ->
  (forall s1, wf_state n T s1 -> exists ups, upd s1 = Ok ups /\ length ups = n) ->
  exists s', run_policy (S := S) StateDynamics c (actor_policy (sim_agent none ctrl upd) p x key) s k = Ok s')%nat.
Proof.
  intros W HM HC HI HL HU. induction k as [|k IH].
  - destruct W as (R & Lm & Hn & HT). destruct (env_reset_total n T c s) as [s' H]; auto; [lia|].
    exists s'. now apply run_policy_0.
  - destruct IH as [s1 H1]; [lia|].
    destruct (run_policy_episode _ _ _ _ _ _ H1) as (acts & La & HE).
    destruct (episode_basic _ _ _ _ _ _ _ W HE ltac:(lia)) as (W1 & SC & _ & Et & _).
    destruct (HU s1 W1) as (ups & Hu & Lu).
    assert (Ha : actor_policy (sim_agent none ctrl upd) p x key s1 = Ok (map as_action ups)).
    { unfold actor_policy. cbn [sim_agent ac_select]. rewrite Hu. reflexivity. }
    destruct (env_step_total n T StateDynamics c s1 (map as_action ups) _ W1 HC state_total) as [s' Hs]; auto.
    + rewrite map_length. exact Lu.
    + apply Forall_forall. intros a Hin. apply in_map_iff in Hin as (u & <- & _). simpl. lia.
    + exists s'. apply run_policy_snoc. eauto.
Qed.

Lemma idm_runs {P X K} n T c none ctrl (p : idm_params (S := XR)) (pp : P) (x : X) (key : option K) s k :
  wf_scenario n T s -> c_max_num_objects c = n -> c_controlled c <> NON_SDC ->
  (1 <= c_init_steps c)%nat -> (c_init_steps c + k <= T)%nat ->
  (lookahead_from_current_position p = true \/ (max_lookahead p <= T)%nat) ->
  exists s', run_policy (S := XR) StateDynamics c (actor_policy (idm_actor none ctrl p) pp x key) s k = Ok s'.
Proof.
  intros W HM HC HI HL HP. apply (sim_runs n T); auto. intros s1 W1.
  destruct (idm_update_total n T p s1 W1 HP) as (sv & Hs & Ls). eapply waypoint_total; eauto.
Qed.

Lemma constant_runs {P X K} n T c none ctrl v (pp : P) (x : X) (key : option K) s k :
  wf_scenario n T s -> c_max_num_objects c = n -> c_controlled c <> NON_SDC ->
  (1 <= c_init_steps c)%nat -> (c_init_steps c + k <= T)%nat ->
  exists s', run_policy (S := XR) StateDynamics c (actor_policy (sim_agent none ctrl (constant_speed_policy v)) pp x key) s k = Ok s'.
Proof.
  intros W HM HC HI HL. apply (sim_runs n T); auto. intros s1 W1.
  eapply waypoint_total; eauto; [reflexivity|]. rewrite map_length. apply W1.
Qed.

(** An agent asked to invalidate objects at the end of their route. *)
Lemma end_of_route {P X K} n T c none ctrl upd_speed (pp : P) (x : X) (key : option K) s s' k j i log k0 p0 q f v w :
  wf_scenario n T s ->
  run_policy (S := XR) StateDynamics c
    (actor_policy (sim_agent none ctrl (waypoint_update true upd_speed)) pp x key) s k = Ok s' ->
  (1 <= c_init_steps c)%nat -> (c_init_steps c + k <= T)%nat -> (j < k)%nat -> (i < n)%nat -> in_control c s i ->
  nth_error (s_log s) i = Some log -> real_route log -> nth_error log k0 = Some p0 -> p_valid p0 = true ->
  at2 (s_sim s') i (c_init_steps c - 1 + j) = Some q -> p_valid q = true -> is_frame q f ->
  (forall s1 sv, s_log s1 = s_log s -> upd_speed s1 = Ok sv -> nth_error sv i = Some (Fin v, true)) ->
  1 < v -> nearest_waypoint log (straight f v) w -> route_end log (straight f v) w ->
  exists q', at2 (s_sim s') i (c_init_steps c - 1 + Datatypes.S j) = Some q' /\
    p_valid q' = true /\ p_x q' = Fin (-1) /\ p_y q' = Fin (-1).
Proof.
  intros W Run HI HL Hj Hi Hc Hlog HR Hk Vk Eq V Fq Hsp Hv Nw Re.
  destruct (sim_frames n T c none ctrl (waypoint_update true upd_speed) pp x key s s' k W Run HI HL j Hj)
    as (s1 & ups & cur & W1 & El & Hups & Hcur & Lc & Fr).
  destruct (Fr i Hi) as (q1 & u & nxt & p' & E1 & E2 & Eu & _ & E3 & _ & _ & _ & Cc & _).
  assert (q1 = q) as -> by congruence.
  assert (exists sv, upd_speed s1 = Ok sv) as [sv Hsv].
  { unfold waypoint_update in Hups. apply bind_Ok in Hups as (sv & Hsv & _). eauto. }
  assert (Hlog1 : nth_error (s_log s1) i = Some log) by now rewrite El.
  destruct (waypoint_policy _ _ _ _ _ _ _ _ _ _ _ _ _ Hups Hsv Hcur Hlog1 E1 (Hsp s1 sv El Hsv) V Fq HR Hk Vk)
    as (w' & u' & Nw' & Eu' & _ & _ & _ & D).
  assert (w' = w) as ->.
  { destruct Nw as (a & pa & A1 & A2 & A3 & A4), Nw' as (b & pb & B1 & B2 & B3 & B4).
    destruct (A4 _ _ _ B1 B2 B3) as [C1 C2], (B4 _ _ _ A1 A2 A3) as [C3 C4].
    assert (a = b) as <-. { destruct (Nat.lt_trichotomy a b) as [L|[L|L]]; auto; [specialize (C4 L)|specialize (C2 L)]; lra. }
    assert (pa = pb) as <- by congruence. eapply is_way_inj; eauto. }
  rewrite (D Re eq_refl Hv) in Eu'. assert (u = mkupd (Fin (-1)) (Fin (-1)) (Fin (-1)) (Fin (-1)) (Fin (-1)) false) as -> by congruence.
  destruct (Cc Hc) as (Q1 & Q2 & _ & _ & _ & Q6). exists p'. split; [exact E3|]. split; [auto|]. split; assumption.
Qed.

Lemma overlap_zero n T (s : state (S := XR)) t ms i q f :
  wf_state n T s -> s_t s = Z.of_nat t -> (t < T)%nat -> overlap_compute s = Ok ms ->
  at2 (s_sim s) i t = Some q -> is_frame q f ->
  (forall m r, m <> i -> at2 (s_sim s) m t = Some r -> p_valid r = true ->
     exists g, is_frame r g /\ ~ touches f g 0) ->
  nth_error ms i = Some (mkmres (Fin 0) (p_valid q)).
Proof.
  intros W Et Ht Ho Eq Fq Hno. destruct (overlap_metric n T s t ms i q W Et Ht Ho Eq) as (_ & b & E & B).
  destruct b; [|rewrite E; unfold fbool; now rewrite f0_Fin].
  destruct (proj1 B eq_refl) as (m & r & Nm & Er & Vr & Ov).
  destruct (Hno m r Nm Er Vr) as (g & Gr & N). exfalso. apply N.
  destruct Fq as (A1 & A2 & A3 & A4 & A5 & A6 & A7 & A8), Gr as (B1 & B2 & B3 & B4 & B5 & B6 & B7 & B8).
  rewrite (pt_box_has r (advanced g 0)), (pt_box_has q (advanced f 0)) in Ov.
  - apply overlap_exact in Ov as (pp & I1 & I2). exists pp. split; assumption.
  - unfold advanced. repeat split; cbn [rx ry rlen rwid ryaw]; auto; [rewrite A1|rewrite A2]; f_equal; ring.
  - unfold advanced. repeat split; cbn [rx ry rlen rwid ryaw]; auto; [rewrite B1|rewrite B2]; f_equal; ring.
Qed.

Lemma run_policy_t {S : Scalar} n T d c pol s s' k : wf_scenario n T s -> run_policy (S := S) d c pol s k = Ok s' ->
  (1 <= c_init_steps c)%nat -> (c_init_steps c + k <= T)%nat ->
  wf_state n T s' /\ s_t s' = Z.of_nat (c_init_steps c - 1 + k).
Proof.
  intros W H HI HL. destruct (run_policy_episode _ _ _ _ _ _ H) as (acts & La & HE).
  destruct (episode_basic _ _ _ _ _ _ _ W HE ltac:(lia)) as (W1 & _ & _ & Et & _). split; [exact W1|].
  rewrite Et. lia.
Qed.
