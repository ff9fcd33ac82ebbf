(** C66: the IDM agent behind moving traffic. *)
From Coq Require Import Reals List ZArith Bool Lra Lia.
From Verif.Lib Require Import Base JaxIndex Scalar XR.
From Verif.Model Require Import Operations State Dynamics BaseEnv Dyn_State Geometry Discretizer Comfort Metrics Actor Waypoint.
From Verif.Props Require Import ExR.
From Verif.Spec Require Import StateSpec GeomSpec DynSpec AgentSpec WaypointSpec DriveSpec TrafficSpec.
From Verif.Proofs Require Import Core P_Expert P_Metrics P_IDM P_Lead P_IDMRun P_Waypoint P_Drive P_Traffic.
From Verif.Props Require Import ExW C64.
Import ListNotations.
Open Scope R_scope.

Section Traffic.
  Context {P X K : Type}.
  Variables (n T : nat) (c : envcfg) (none : X) (ctrl : state (S := XR) -> list bool)
    (pp : P) (x : X) (key : option K) (s s' : state (S := XR)) (k i : nat)
    (log : list (pt (S := XR))) (p0 : pt (S := XR)) (f0 : rframe).

  (** Collision avoidance in traffic.  The default agent drives object i along a
      straight road, at the start at no more than 66 m/s.  Every other object follows the
      log: it is absent, stays beside the path, or drives ahead on the path, moving on at
      every step by at least its recorded speed times 0.1 s; those ahead do not
      overtake each other.  Braking, stopping and accelerating are all allowed.  Then
      the object stays on its straight path, never touches any of them, however long
      the episode, and always keeps at least 1/20 s of travel to each vehicle ahead. *)
  Theorem C66_idm_never_hits_traffic_ahead :
    wf_scenario n T s ->
    run_policy (S := XR) StateDynamics c (actor_policy (idm_actor none ctrl default_idm) pp x key) s k = Ok s' ->
    (1 <= c_init_steps c)%nat -> (c_init_steps c + k <= T)%nat ->
    (i < n)%nat -> in_control c s i -> nth_error (s_log s) i = Some log -> straight_route log f0 ->
    at2 (s_log s) i (c_init_steps c - 1) = Some p0 -> p_valid p0 = true -> is_frame p0 f0 ->
    rspeed f0 <= 66 ->
    traffic c s i f0 (c_init_steps c - 1) (c_init_steps c - 1 + k) ->
    long_enough log s i f0 (c_init_steps c - 1) k ->
    forall j, (j <= k)%nat -> exists q f t,
      at2 (s_sim s') i (c_init_steps c - 1 + j) = Some q /\ p_valid q = true /\ is_frame q f /\
      moved f0 f t /\ 0 <= t <= 66 / 10 * INR j /\ rspeed f <= 66 /\
      (forall m g al, m <> i -> vehicle_ahead s f0 (c_init_steps c - 1) (c_init_steps c - 1 + k) m g al ->
         rspeed f / 20 <= al (c_init_steps c - 1 + j)%nat - t) /\
      (forall m r, m <> i -> at2 (s_sim s') m (c_init_steps c - 1 + j) = Some r -> p_valid r = true ->
         exists g, is_frame r g /\ ~ touches f g 0).
  Proof.
    intros W Run HI HL Hi Hc Hlog HS H0 V0 F0 HF [Ho Hord] (len & Cov & Far) j Hj.
    assert (Others : forall m lm, m <> i -> nth_error (s_log s) m = Some lm -> ~ in_control c s m /\
      (absent lm \/ exists g, logged_as lm g /\
        ((forall t, (c_init_steps c - 1 <= t <= c_init_steps c - 1 + k)%nat -> never_touches f0 (g t)) \/
         exists al, vehicle c s k i f0 m g al))).
    { intros m lm Nm Hlm. destruct (Ho m lm Nm Hlm) as [A [B|(g & Pk & [D|(al & D)])]]; split; auto; right; exists g; split; auto.
      right. exists al. split; auto. }
    assert (Order : forall m g al m' g' al', vehicle c s k i f0 m g al -> vehicle c s k i f0 m' g' al' ->
      keep_order al al' (c_init_steps c - 1) (c_init_steps c - 1 + k)).
    { intros m g al m' g' al' [A1 A2] [B1 B2]. destruct (Nat.eq_dec m m') as [<-|Nm]; [|exact (Hord _ _ _ _ _ _ A1 B1 Nm A2 B2)].
      apply (vehicle_same s f0 _ _ m g al g' al' T); auto; [|lia].
      intros lm Hlm. destruct W as ((_ & L) & _). apply L. eapply nth_error_In; eauto. }
    assert (Far' : 66 / 10 * INR k <= len \/ exists m g al, vehicle c s k i f0 m g al /\ al (c_init_steps c - 1 + k)%nat <= len).
    { destruct Far as [A|(m & g & al & A & B & D)]; [auto|]. right. exists m, g, al. split; [split; auto|exact D]. }
    destruct (t_episode n T c none ctrl default_idm pp x key s s' k i log p0 f0 len default_idm_real eq_refl
      default_idm_distance eq_refl W Run HI HL Hi Hc Hlog HS H0 V0 F0 eq_refl HF Others Order Cov Far' j Hj)
      as (q & f & t & A1 & A2 & A3 & A4 & A5 & A6 & A7).
    exists q, f, t. do 6 (split; [assumption|]). split.
    - intros m g al Nm Hv. specialize (A7 m g al (conj Nm Hv)). lra.
    - intros m r Nm Er Vr.
      eapply (t_all n T c none ctrl default_idm pp x key s s' k i log p0 f0 len default_idm_real eq_refl
        default_idm_distance eq_refl W Run HI HL Hi Hc Hlog HS H0 V0 F0 eq_refl HF Others Order Cov Far' j m q r); eauto.
  Qed.

  (** So the overlap metric reports 0 for it after every step. *)
  Theorem C66_idm_overlap_metric_zero ms :
    wf_scenario n T s ->
    run_policy (S := XR) StateDynamics c (actor_policy (idm_actor none ctrl default_idm) pp x key) s k = Ok s' ->
    (1 <= c_init_steps c)%nat -> (c_init_steps c + k <= T)%nat ->
    (i < n)%nat -> in_control c s i -> nth_error (s_log s) i = Some log -> straight_route log f0 ->
    at2 (s_log s) i (c_init_steps c - 1) = Some p0 -> p_valid p0 = true -> is_frame p0 f0 ->
    rspeed f0 <= 66 ->
    traffic c s i f0 (c_init_steps c - 1) (c_init_steps c - 1 + k) ->
    long_enough log s i f0 (c_init_steps c - 1) k ->
    overlap_compute s' = Ok ms ->
    nth_error ms i = Some (mkmres (Fin 0) true).
  Proof.
    intros W Run HI HL Hi Hc Hlog HS H0 V0 F0 HF Ho Hcov Hms.
    destruct (C66_idm_never_hits_traffic_ahead W Run HI HL Hi Hc Hlog HS H0 V0 F0 HF Ho Hcov k (le_n k))
      as (q & f & t & A1 & A2 & A3 & _ & _ & _ & _ & A7).
    destruct (run_policy_t n T _ _ _ _ _ _ W Run HI HL) as (W1 & Et). rewrite <- A2.
    refine (overlap_zero n T s' _ ms i q f W1 Et _ Hms A1 A3 A7). lia.
  Qed.
End Traffic.

(* ---------------- scenarios ---------------- *)

(** The controlled car, logged at the positions [xs] on the x axis, and another one at
    the positions [ys] with the recorded speed [v]. *)
Definition flow (xs ys : list R) (v : R) : state (S := XR) :=
  mkstate [] [map (fun x => rpt x 10) xs; map (fun y => rpt y v) ys] []
    [mkmeta 1 1 true true true false false; mkmeta 2 1 false true true false false] 0 None None.
Lemma flow_wf xs ys v : xs <> [] -> length ys = length xs -> wf_scenario 2 (length xs) (flow xs ys v).
Proof.
  intros H L. split; [|repeat split; auto with arith; destruct xs; [congruence|simpl; lia]].
  split; [reflexivity|]. intros r [<-|[<-|[]]]; now rewrite map_length.
Qed.
Lemma flow_control xs ys v : in_control lcfg (flow xs ys v) 0.
Proof. cbn. eexists. split; reflexivity. Qed.
Lemma flow_other xs ys v m : m <> 0%nat -> ~ in_control lcfg (flow xs ys v) m.
Proof.
  intros Nm (r & E & Hs). destruct m as [|[|m]]; [congruence| |destruct m; discriminate].
  cbn in E. injection E as <-. discriminate.
Qed.
Lemma flow_touches y v d : touches (wframe 0 10) (wframe y v) d <-> Rabs (d - y) < 4.
Proof. unfold touches. rewrite (ahead_overlap 0 10 y v d). now rewrite Rplus_0_l. Qed.
Lemma flow_contact y v : 4 <= y -> contact_after (wframe 0 10) (wframe y v) (y - 4).
Proof.
  intros Hy. split; intros d Hd; rewrite flow_touches.
  - intros H. apply Rabs_def2 in H. lra.
  - apply Rabs_def1; lra.
Qed.

(** The controlled car starts at 10 m/s, 16 m behind a car that drives at 5 m/s for the
    whole episode, of any length. *)
Definition own (k : nat) : list R := map (fun t => 8 * INR t) (seq 0 (k + 2)).
Definition slow (k : nat) : list R := map (fun t => 20 + INR t / 2) (seq 0 (k + 2)).
Lemma seq_at k t : (t < k)%nat -> nth_error (seq 0 k) t = Some t.
Proof. intros H. rewrite (nth_error_nth' _ 0%nat) by (now rewrite seq_length). now rewrite seq_nth. Qed.
Lemma own_at k t : (t < k + 2)%nat -> nth_error (own k) t = Some (8 * INR t).
Proof. intros H. unfold own. now rewrite nth_error_map, seq_at. Qed.
Lemma slow_at k t y : nth_error (slow k) t = Some y -> y = 20 + INR t / 2.
Proof.
  unfold slow. rewrite nth_error_map. intros H. destruct (nth_error (seq 0 (k + 2)) t) as [t'|] eqn:E; [|discriminate].
  assert (Ht : (t < k + 2)%nat) by (apply nth_error_Some_lt in E; now rewrite seq_length in E).
  rewrite seq_at in E by exact Ht. injection E as <-. cbn in H. congruence.
Qed.
Lemma own_covers k : covers (map (fun x => rpt x 10) (own k)) (wframe 0 10) (66 / 10 * INR k).
Proof.
  assert (Lo : length (own k) = (k + 2)%nat) by (unfold own; now rewrite map_length, seq_length).
  split.
  - intros d [D0 D1]. assert (K : exists t, (t < k + 2)%nat /\ Rabs (d - 8 * INR t) <= 5).
    { destruct (archimed (d / 8)) as [U1 U2]. set (z := up (d / 8)) in *.
      assert (Hz : (0 < z)%Z) by (apply lt_IZR; lra).
      assert (EZ : INR (Z.to_nat z) = IZR z) by (rewrite INR_IZR_INZ, Z2Nat.id by lia; reflexivity).
      assert (Zk : (Z.to_nat z < k + 2)%nat).
      { apply INR_lt. rewrite plus_INR, EZ. pose proof (pos_INR k). simpl INR. lra. }
      destruct (Rle_dec d (8 * (IZR z - 1) + 4)) as [L|L].
      - exists (Z.to_nat z - 1)%nat. split; [lia|]. rewrite minus_INR, EZ by lia. simpl INR. apply Rabs_le. lra.
      - exists (Z.to_nat z). split; [lia|]. rewrite EZ. apply Rabs_le. lra. }
    destruct K as (t & Ht & Hd). exists t, (rpt (8 * INR t) 10), (mkway (8 * INR t) 0 0).
    split; [now rewrite nth_error_map, own_at|]. split; [reflexivity|]. split; [repeat split|].
    rewrite ahead_x. unfold wxy. cbn [wx wy]. now rewrite dist_x.
  - exists (mkway (8 * INR (k + 1)) 0 0), (8 * INR (k + 1)). split; [|split; [now rewrite ahead_x|]].
    + exists (k + 1)%nat, (rpt (8 * INR (k + 1)) 10). split; [rewrite nth_error_map, own_at by lia; reflexivity|].
      split; [reflexivity|]. split; [repeat split|]. intros j q Hj _. apply nth_error_Some_lt in Hj.
      rewrite map_length, Lo in Hj. lia.
    + rewrite plus_INR. simpl (INR 1). pose proof (pos_INR k). lra.
Qed.
Lemma slow_logged k : logged_as (map (fun y => rpt y 5) (slow k)) (fun t => wframe (20 + INR t / 2) 5).
Proof.
  split; [|intros t; repeat split]. intros t p H. rewrite nth_error_map in H.
  destruct (nth_error (slow k) t) as [y|] eqn:E; [|discriminate]. apply Some_inj in H. subst p.
  apply slow_at in E as ->. split; [reflexivity|apply rpt_frame].
Qed.

Example C66_example (k : nat) :
  exists s' ms, run_policy (S := XR) StateDynamics lcfg
      (actor_policy (idm_actor tt (fun _ => []) default_idm) tt tt (@None unit)) (flow (own k) (slow k) 5) k = Ok s' /\
    overlap_compute s' = Ok ms /\ nth_error ms 0 = Some (mkmres (Fin 0) true).
Proof.
  assert (L : length (own k) = (k + 2)%nat) by (unfold own; now rewrite map_length, seq_length).
  set (s := flow (own k) (slow k) 5).
  assert (W : wf_scenario 2 (k + 2) s).
  { rewrite <- L. apply flow_wf; [|unfold slow; now rewrite map_length, seq_length, L].
    intros E. rewrite E in L. simpl in L. lia. }
  assert (Hk : (1 + k <= k + 2)%nat) by lia.
  destruct (C64_idm_runs 2 (k + 2) lcfg tt (fun _ => []) default_idm tt tt (@None unit) s k) as (s' & Run); auto; [discriminate|].
  destruct (run_policy_t 2 (k + 2) _ _ _ _ _ _ W Run (le_n 1) Hk) as (W1 & _).
  destruct (overlap_total 2 (k + 2) s' W1) as [ms Hms]. exists s', ms. split; [exact Run|]. split; [exact Hms|].
  pose proof (wframe_speed 0 10 ltac:(lra)) as Hsp.
  assert (P0 : at2 (s_log s) 0 0 = Some (rpt 0 10)).
  { unfold at2. change (nth_error (s_log s) 0) with (Some (map (fun x => rpt x 10) (own k))). cbv iota.
    etransitivity; [apply nth_error_map|]. rewrite own_at by lia. cbn. do 2 f_equal. ring. }
  eapply (C66_idm_overlap_metric_zero 2 (k + 2) lcfg tt (fun _ => []) tt tt (@None unit) s s' k 0
    (map (fun x => rpt x 10) (own k)) (rpt 0 10) (wframe 0 10) ms W Run (le_n 1) Hk); auto.
  - apply flow_control.
  - apply lane_straight.
  - apply rpt_frame.
  - lra.
  - split.
    + intros m lm Nm Hlm. split; [now apply flow_other|]. destruct m as [|[|m]]; [congruence| |destruct m; discriminate].
      change (Some (map (fun y : R => rpt y 5) (slow k)) = Some lm) in Hlm. apply Some_inj in Hlm. subst lm.
      right. eexists. split; [apply slow_logged|]. right. exists (fun t => 20 + INR t / 2 - 4). split; [eexists; split; [reflexivity|apply slow_logged]|].
      split; [|cbn [lcfg c_init_steps]; simpl INR; lra]. split.
      * intros t _. apply flow_contact. pose proof (pos_INR t). lra.
      * intros t _. rewrite (wframe_speed _ 5) by lra. rewrite S_INR. lra.
    + intros m g al m' g' al' N1 N2 N3 ((lm & A & _) & _) ((lm' & B & _) & _).
      destruct m as [|[|m]]; [congruence| |destruct m; discriminate].
      destruct m' as [|[|m']]; [congruence|congruence|destruct m'; discriminate].
  - exists (66 / 10 * INR k). split; [apply own_covers|]. left. lra.
Qed.

(** The recorded speeds matter.  A car that stands still while its recorded speed is 100
    m/s is run into although contact was more than 1/20 s of travel away: the agent trusts
    the speed and hardly brakes. *)
Theorem C66_idm_never_hits_misreported_speed_refuted : exists (s s' : state (S := XR)) q r f g,
  wf_scenario 2 3 s /\
  run_policy (S := XR) StateDynamics lcfg
    (actor_policy (idm_actor tt (fun _ => []) default_idm) tt tt (@None unit)) s 1 = Ok s' /\
  (exists log lm, nth_error (s_log s) 0 = Some log /\ nth_error (s_log s) 1 = Some lm /\
     straight_route log (wframe 0 10) /\ covers log (wframe 0 10) (66 / 10) /\
     logged_as lm (fun _ => wframe (46 / 10) 100) /\
     contact_after (wframe 0 10) (wframe (46 / 10) 100) (6 / 10) /\ rspeed (wframe 0 10) / 20 <= 6 / 10) /\
  at2 (s_sim s') 0 1 = Some q /\ at2 (s_sim s') 1 1 = Some r /\ p_valid q = true /\ p_valid r = true /\
  is_frame q f /\ is_frame r g /\ touches f g 0.
Proof.
  set (s := flow (own 1) [46 / 10; 46 / 10; 46 / 10] 100). exists s.
  assert (W : wf_scenario 2 3 s) by (apply (flow_wf (own 1)); [discriminate|reflexivity]).
  destruct (C64_idm_runs 2 3 lcfg tt (fun _ => []) default_idm tt tt (@None unit) s 1) as (s' & Run); auto; [discriminate|].
  exists s'.
  assert (Lg : logged_as (map (fun y => rpt y 100) [46 / 10; 46 / 10; 46 / 10]) (fun _ => wframe (46 / 10) 100)).
  { split; [|intros t; repeat split]. intros t p H. rewrite nth_error_map in H.
    assert (p = rpt (46 / 10) 100) as ->. { destruct t as [|[|[|t]]]; cbn in H; try congruence. destruct t; discriminate. }
    split; [reflexivity|apply rpt_frame]. }
  assert (P0 : at2 (s_log s) 0 0 = Some (rpt 0 10)).
  { cbn. do 2 f_equal. ring. }
  assert (HL : (1 + 1 <= 3)%nat) by lia.
  assert (M0 : moved (wframe 0 10) (wframe 0 10) 0) by (repeat split; rewrite ahead_x; reflexivity).
  assert (Lf := fun j => logged_frames 2 3 lcfg tt (fun _ => []) (idm_policy default_idm) tt tt (@None unit) s s' 1 1 _ W Run (le_n 1) HL ltac:(lia)
    (flow_other _ _ _ 1%nat ltac:(discriminate)) eq_refl _ Lg j).
  destruct (Lf 0%nat ltac:(lia)) as (r0 & Er0 & Vr0 & Gr0). destruct (Lf 1%nat ltac:(lia)) as (r & Er & Vr & Gr).
  pose proof (wframe_speed 0 10 ltac:(lra)) as Sp. pose proof (wframe_speed (46 / 10) 100 ltac:(lra)) as Sq.
  assert (Q0 : at2 (s_sim s') 0 0 = Some (rpt 0 10)).
  { etransitivity; [exact (sim_start 2 3 _ _ _ _ _ _ W Run (le_n 1) HL 0%nat ltac:(lia))|exact P0]. }
  destruct (straight_step 2 3 lcfg tt (fun _ => []) default_idm tt tt (@None unit) s s' 1 0 _ (rpt 0 10) (wframe 0 10)
    W Run (le_n 1) HL ltac:(lia) (flow_control _ _ _) eq_refl (lane_straight (own 1)) P0 eq_refl eq_refl 30 2 2 2 4 4
    0%nat (rpt 0 10) (wframe 0 10) 0 default_idm_real ltac:(lia) Q0 eq_refl (rpt_frame _ _) M0)
    as (s1 & cur & sv & v' & w & q' & f' & W1 & El & Hcur & Lc & Ecur & Hsv & Ev & B & Cap & Nw & Eq' & V' & Fq' & M' & _).
  assert (E0 : nth_error cur 0 = Some (rpt 0 10)) by (rewrite Ecur by lia; exact Q0).
  assert (E1 : nth_error cur 1 = Some r0) by (rewrite Ecur by lia; exact Er0).
  assert (Fr : forall m y, nth_error cur m = Some y -> p_valid y = true -> exists g, is_frame y g).
  { intros m y Em _. destruct m as [|[|m]].
    - assert (y = rpt 0 10) as -> by congruence. eexists. apply rpt_frame.
    - assert (y = r0) as -> by congruence. eauto.
    - apply nth_error_Some_lt in Em. lia. }
  destruct (idm_exact default_idm 30 2 2 2 4 4 10 s1 cur sv 0 (rpt 0 10) (wframe 0 10) default_idm_real eq_refl
    default_idm_distance ltac:(lra) Hsv Hcur Fr E0 eq_refl (rpt_frame _ _)) as (u & d & Ld & Ex).
  rewrite Sp in *. pose proof (eq_trans (eq_sym Ev) Ex) as Ex'.
  assert (Ev' : v' = Rmax 0 (10 + 1 / 10 * idm_law 30 2 2 2 4 4 10 u d)) by congruence. clear Ex Ex'.
  assert (Pw : 0 <= nonneg_pow (10 / 30) 4 <= 1).
  { unfold nonneg_pow. destruct (Rlt_dec 0 (10 / 30)) as [Hp|]; [|lra]. split; [left; apply exp_pos|].
    replace 4 with (INR 4) by (simpl; ring). rewrite Rpower_pow by exact Hp. simpl. lra. }
  assert (Hlaw : -8 <= idm_law 30 2 2 2 4 4 10 u d).
  { destruct Ld as [(_ & _ & ->)|(k0 & ((j0 & Hj0) & _) & Ed & ((j1 & (Hk1 & N1 & pi & pj & fi & fj & Epi & Epj & _ & _ & Fi & Fj & Tc) & (r1 & g1 & Er1 & Gr1 & Eu)) & _))].
    { unfold idm_law. destruct (Req_EM_T (-1) (-1)); [|lra]. cbv zeta. lra. }
    assert (j1 = 1)%nat as ->.
    { destruct j1 as [|[|j1]]; auto; [lia|]. apply nth_error_Some_lt in Epj. lia. }
    assert (pi = rpt 0 10) as -> by congruence. assert (pj = r0) as -> by congruence. assert (r1 = r0) as -> by congruence.
    rewrite (is_frame_inj _ _ _ Fj Gr0), (is_frame_inj _ _ _ Fi (rpt_frame 0 10)) in Tc.
    rewrite (is_frame_inj _ _ _ Gr1 Gr0), Sq in Eu. subst u.
    apply flow_touches in Tc. replace (10 * INR k0 / INR (additional_headway_points default_idm)) with (INR k0) in Tc by (cbn; field).
    assert (K0 : 1 <= INR k0).
    { destruct k0 as [|k0]; [apply Rabs_def2 in Tc; simpl in Tc; lra|]. rewrite S_INR. pose proof (pos_INR k0). lra. }
    assert (Ed' : d = INR k0) by (rewrite Ed; cbn; field).
    unfold idm_law. destruct (Req_EM_T d (-1)); [lra|]. cbv zeta.
    assert (Ew : wanted_gap 2 2 2 4 10 100 = 2).
    { unfold wanted_gap. rewrite Rmax_left; [ring|].
      assert (S8 : sqrt (2 * 4) <= 3).
      { replace 3 with (sqrt (3 * 3)) by (apply sqrt_square; lra). apply sqrt_le_1; lra. }
      assert (0 < sqrt (2 * 4)) by (apply sqrt_lt_R0; lra). set (z := sqrt (2 * 4)) in *.
      apply (Rmult_le_reg_r (2 * z)); [lra|].
      replace ((10 * 2 + 10 * (10 - 100) / (2 * z)) * (2 * z)) with (40 * z - 900) by (field; lra). lra. }
    assert (Ee : effective_gap d = d) by (unfold effective_gap; destruct (Req_EM_T d 0); lra).
    rewrite Ew, Ee. assert (0 < / d <= 1).
    { split; [apply Rinv_0_lt_compat; lra|]. rewrite <- Rinv_1. apply Rinv_le_contravar; lra. }
    unfold Rdiv. assert (/ d * / d <= 1 * 1) by (apply Rmult_le_compat; lra).
    replace (2 * / d * (2 * / d)) with (4 * (/ d * / d)) by ring. fold (10 / 30) in *. lra. }
  assert (Hv' : 92 / 10 <= v') by (rewrite Ev'; pose proof (Rmax_r 0 (10 + 1 / 10 * idm_law 30 2 2 2 4 4 10 u d)); lra).
  exists q', r, f', (wframe (46 / 10) 100). split; [exact W|]. split; [exact Run|]. split.
  { do 2 eexists. split; [reflexivity|]. split; [reflexivity|]. split; [apply lane_straight|].
    split. { replace (66 / 10) with (66 / 10 * INR 1) by (simpl; ring). apply own_covers. }
    split; [exact Lg|]. split; [|lra]. replace (6 / 10) with (46 / 10 - 4) by field. apply flow_contact. lra. }
  split; [exact Eq'|]. split; [exact Er|]. do 4 (split; [assumption|]).
  apply (touches_moved _ _ _ _ 0 M'). apply flow_touches. apply Rabs_def1; lra.
Qed.

Print Assumptions C66_idm_never_hits_traffic_ahead.
Print Assumptions C66_idm_overlap_metric_zero.
Print Assumptions C66_idm_never_hits_misreported_speed_refuted.
