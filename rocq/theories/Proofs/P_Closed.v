(** A route-following agent driving one object in any closed loop (C67): what one step of
    the agent does to the object is all that is used. *)
From Coq Require Import Reals List ZArith Bool Lra Lia Psatz.
From Verif.Lib Require Import Base JaxIndex Scalar XR.
From Verif.Model Require Import Operations State Dynamics BaseEnv Dyn_State Geometry Discretizer Comfort Metrics Actor Waypoint PlanningEnv.
From Verif.Spec Require Import StateSpec GeomSpec DynSpec AgentSpec WaypointSpec DriveSpec TrafficSpec PlanSpec ClosedSpec.
From Verif.Proofs Require Import Core Episode P_Step P_Actions P_Expert P_Plan P_PlanRun P_Pose P_Overlap P_Metrics P_MetricsRun P_IDM P_Lead P_IDMRun P_Waypoint P_Drive P_Traffic.
Import ListNotations.
Open Scope R_scope.

(** In the trajectory [sim] the updates of [upd] move object [i] at the steps
    [a .. a + k]. *)
Definition steered {S : Scalar} (upd : state (S := S) -> res (list (upd (S := S)))) (n T : nat) (slog sim : traj (S := S)) (a k i : nat) : Prop :=
  forall j, (j < k)%nat -> exists s1 ups cur q u p',
    wf_state n T s1 /\ s_log s1 = slog /\ upd s1 = Ok ups /\ current_sim s1 = Ok cur /\ length cur = n /\
    (forall m, (m < n)%nat -> nth_error cur m = at2 sim m (a + j)) /\
    nth_error cur i = Some q /\ nth_error ups i = Some u /\ at2 sim i (a + Datatypes.S j) = Some p' /\
    p_z p' = p_z q /\ p_len p' = p_len q /\ p_wid p' = p_wid q /\
    p_x p' = u_x u /\ p_y p' = u_y u /\ p_yaw p' = u_yaw u /\ p_vx p' = u_vx u /\ p_vy p' = u_vy u /\
    (p_valid q = true -> p_valid p' = true).

Section Idm.
  Variables (n T : nat) (p : idm_params (S := XR)) (slog sim : traj (S := XR)) (a k i : nat)
    (log : list (pt (S := XR))) (p0 : pt (S := XR)) (f0 : rframe).
  Hypothesis St : steered (idm_policy p) n T slog sim a k i.
  Hypothesis Hi : (i < n)%nat.
  Hypothesis Hlog : nth_error slog i = Some log.
  Hypothesis HR : real_route log.
  Hypothesis H0 : nth_error log a = Some p0.
  Hypothesis H1 : at2 sim i a = Some p0.
  Hypothesis V0 : p_valid p0 = true.
  Hypothesis F0 : is_frame p0 f0.
  Hypothesis Hinv : idm_invalidate_on_end p = false.

  Lemma c_route_p0 : on_route log f0.
  Proof.
    destruct F0 as (A & B & _ & _ & _ & C & _).
    exists a, p0, (mkway (fx f0) (fy f0) (fyaw f0)).
    split; [exact H0|]. split; [exact V0|]. split; [repeat split; assumption|]. cbn [wx wy wyaw].
    split; [|reflexivity]. exists 0. f_equal; lra.
  Qed.

  (** The next frame. *)
  Lemma c_next_frame v0 s0 th aa b delta j q f :
    idm_real p v0 s0 th aa b delta -> (j < k)%nat ->
    at2 sim i (a + j) = Some q -> p_valid q = true -> is_frame q f ->
    exists s1 cur sv v' w q' f',
      wf_state n T s1 /\ s_log s1 = slog /\ current_sim s1 = Ok cur /\ length cur = n /\
      (forall m, (m < n)%nat -> nth_error cur m = at2 sim m (a + j)) /\
      idm_update_speed p s1 = Ok sv /\ nth_error sv i = Some (Fin v', true) /\
      0 <= v' <= rspeed f + aa * (1 / 10) /\ (aa * delta * (1 / 10) <= v0 -> v' <= Rmax v0 (rspeed f)) /\
      nearest_waypoint log (straight f v') w /\
      at2 sim i (a + Datatypes.S j) = Some q' /\ p_valid q' = true /\ is_frame q' f' /\
      nearest_on_line (wx w) (wy w) (wyaw w) (straight f v') (fx f', fy f') /\ fyaw f' = wyaw w /\
      fz f' = fz f /\ flen f' = flen f /\ fwid f' = fwid f /\
      (~ route_end log (straight f v') w -> rspeed f' = v') /\
      (route_end log (straight f v') w -> rspeed f' = rspeed f).
  Proof.
    intros HP Hj Eq V Fq.
    destruct (St j Hj) as (s1 & ups & cur & q1 & u & p' & W1 & El & Hups & Hcur & Lc & Ecur & E1 & Eu & E3 & Z1 & Z2 & Z3 & Q1 & Q2 & Q3 & Q4 & Q5 & Q6).
    pose proof (eq_trans (eq_sym (Ecur i Hi)) E1) as E2.
    assert (q1 = q) as -> by congruence.
    assert (exists sv, idm_update_speed p s1 = Ok sv) as [sv Hsv].
    { unfold idm_policy, waypoint_update in Hups. apply bind_Ok in Hups as (sv & Hsv & _). eauto. }
    destruct (idm_speed p v0 s0 th aa b delta s1 cur sv i q f HP Hsv Hcur E1 V Fq) as (v' & Hv & B & Cap).
    assert (Hlog1 : nth_error (s_log s1) i = Some log) by now rewrite El.
    destruct (idm_move p s1 ups sv cur i log q f v' _ _ Hinv Hups Hsv Hcur Hlog1 E1 Hv (proj1 B) V Fq HR H0 V0)
      as (w & u1 & x1 & y1 & vx & vy & Nw & Eu1 & On & -> & NE & RE).
    assert (u = mkupd (Fin x1) (Fin y1) (Fin (wyaw w)) (Fin vx) (Fin vy) true) as -> by congruence.
    cbn [u_x u_y u_yaw u_vx u_vy] in *.
    destruct Fq as (G1 & G2 & G3 & G4 & G5 & G6 & G7 & G8).
    exists s1, cur, sv, v', w, p', (mkrf x1 y1 (fz f) vx vy (wyaw w) (flen f) (fwid f)).
    split; [exact W1|]. split; [exact El|]. split; [exact Hcur|]. split; [exact Lc|].
    split; [exact Ecur|].
    split; [exact Hsv|]. split; [exact Hv|]. split; [exact B|]. split; [exact Cap|]. split; [exact Nw|].
    split; [exact E3|]. split; [now apply Q6|].
    split. { repeat split; cbn [fx fy fz fvx fvy fyaw flen fwid]; congruence. }
    cbn [fx fy fz fyaw flen fwid]. split; [exact On|]. repeat (split; [reflexivity|]). split.
    - intros N. destruct (NE N) as [-> ->].
      apply (rspeed_polar (mkrf x1 y1 (fz f) (v' * cos (fyaw f)) (v' * sin (fyaw f)) (wyaw w) (flen f) (fwid f)) v' (fyaw f)); auto. apply B.
    - intros N. destruct (RE N) as [-> ->]. reflexivity.
  Qed.

  Lemma c_episode v0 s0 th aa b delta : idm_real p v0 s0 th aa b delta ->
    forall j, (j <= k)%nat -> exists q f,
      at2 sim i (a + j) = Some q /\ p_valid q = true /\ is_frame q f /\
      on_route log f /\ fz f = fz f0 /\ flen f = flen f0 /\ fwid f = fwid f0 /\
      rspeed f <= rspeed f0 + INR j * (aa * (1 / 10)) /\
      (aa * delta * (1 / 10) <= v0 -> rspeed f <= Rmax v0 (rspeed f0)).
  Proof.
    intros HP. induction j as [|j IH]; intros Hj.
    - exists p0, f0. rewrite Nat.add_0_r.
      split; [exact H1|]. split; [exact V0|]. split; [exact F0|]. split; [apply c_route_p0|].
      repeat (split; [reflexivity|]). split; [simpl; lra|]. intros _. apply Rmax_r.
    - destruct IH as (q & f & Eq & V & Fq & _ & Z1 & Z2 & Z3 & B1 & B2); [lia|].
      destruct (c_next_frame v0 s0 th aa b delta j q f HP ltac:(lia) Eq V Fq)
        as (s1 & cur & sv & v' & w & q' & f' & _ & _ & _ & _ & _ & _ & _ & B & Cap & Nw & Eq' & V' & Fq' & On & Ey & Y1 & Y2 & Y3 & NE & RE).
      exists q', f'. split; [exact Eq'|]. split; [exact V'|]. split; [exact Fq'|].
      split. { destruct Nw as (kk & pw & A1 & A2 & A3 & _). exists kk, pw, w. split; [exact A1|]. split; [exact A2|].
               split; [exact A3|]. split; [apply On|exact Ey]. }
      split; [congruence|]. split; [congruence|]. split; [congruence|].
      pose proof (ir_a_pos _ _ _ _ _ _ _ HP).
      rewrite S_INR.
      destruct (Classical_Prop.classic (route_end log (straight f v') w)) as [E|N].
      + rewrite (RE E). split; [lra|exact B2].
      + rewrite (NE N). split; [lra|]. intros Hs. specialize (B2 Hs). specialize (Cap Hs).
        unfold Rmax in *. destruct (Rle_dec v0 (rspeed f)), (Rle_dec v0 (rspeed f0)); lra.
  Qed.
End Idm.

Section Straight.
  Variables (n T : nat) (p : idm_params (S := XR)) (slog sim : traj (S := XR)) (a k i : nat)
    (log : list (pt (S := XR))) (p0 : pt (S := XR)) (f0 : rframe).
  Hypothesis St : steered (idm_policy p) n T slog sim a k i.
  Hypothesis Hi : (i < n)%nat.
  Hypothesis Hlog : nth_error slog i = Some log.
  Hypothesis HS : straight_route log f0.
  Hypothesis H0 : nth_error log a = Some p0.
  Hypothesis H1 : at2 sim i a = Some p0.
  Hypothesis V0 : p_valid p0 = true.
  Hypothesis F0 : is_frame p0 f0.
  Hypothesis Hinv : idm_invalidate_on_end p = false.

  Lemma c_straight_step v0 s0 th aa b delta j q f t :
    idm_real p v0 s0 th aa b delta -> (j < k)%nat ->
    at2 sim i (a + j) = Some q -> p_valid q = true -> is_frame q f -> moved f0 f t ->
    exists s1 cur sv v' w q' f',
      wf_state n T s1 /\ s_log s1 = slog /\ current_sim s1 = Ok cur /\ length cur = n /\
      (forall m, (m < n)%nat -> nth_error cur m = at2 sim m (a + j)) /\
      idm_update_speed p s1 = Ok sv /\ nth_error sv i = Some (Fin v', true) /\
      0 <= v' <= rspeed f + aa * (1 / 10) /\ (aa * delta * (1 / 10) <= v0 -> v' <= Rmax v0 (rspeed f)) /\
      nearest_waypoint log (ahead f0 (t + (v' + rspeed f) / 20)) w /\
      at2 sim i (a + Datatypes.S j) = Some q' /\ p_valid q' = true /\ is_frame q' f' /\
      moved f0 f' (t + (v' + rspeed f) / 20) /\
      (~ route_end log (ahead f0 (t + (v' + rspeed f) / 20)) w -> rspeed f' = v') /\
      (route_end log (ahead f0 (t + (v' + rspeed f) / 20)) w -> rspeed f' = rspeed f).
  Proof.
    intros HP Hj Eq V Fq M.
    destruct (c_next_frame n T p slog sim a k i log p0 St Hi Hlog (straight_real log f0 HS) H0 V0 Hinv
      v0 s0 th aa b delta j q f HP Hj Eq V Fq)
      as (s1 & cur & sv & v' & w & q' & f' & A1 & A2 & A3 & A4 & A5 & A6 & A7 & B & Cap & Nw & Eq' & V' & Fq' & On & Ey & Y1 & Y2 & Y3 & NE & RE).
    exists s1, cur, sv, v', w, q', f'. rewrite (straight_moved _ _ _ v' M) in *.
    do 9 (split; [assumption|]). split; [exact Nw|]. do 3 (split; [assumption|]). split; [|split; assumption].
    destruct Nw as (kk & pw & E1 & E2 & E3 & _). destruct (HS kk pw E1 E2) as (e & E4).
    pose proof (is_way_inj _ _ _ E3 E4) as ->. cbn [wx wy wyaw] in *.
    destruct M as (_ & M2 & M3 & M4).
    split; [|split; [exact Ey|]; split; congruence].
    refine (on_line_kept _ _ _ _ _ _ On). exists (t + (v' + rspeed f) / 20 - e). unfold ahead. cbn [fst snd].
    f_equal; ring.
  Qed.

End Straight.

Section Traffic.
  Variables (n T : nat) (p : idm_params (S := XR)) (slog sim : traj (S := XR)) (a k i : nat)
    (log : list (pt (S := XR))) (p0 : pt (S := XR)) (f0 : rframe) (len : R).
  Hypothesis HP : idm_real p 30 2 2 2 4 4.
  Hypothesis HP1 : lookahead_from_current_position p = true.
  Hypothesis HP2 : additional_lookahead_distance p = Fin 10.
  Hypothesis HP3 : additional_headway_points p = 10%nat.
  Hypothesis St : steered (idm_policy p) n T slog sim a k i.
  Hypothesis Rs : length sim = n.
  Hypothesis Hi : (i < n)%nat.
  Hypothesis Hlog : nth_error slog i = Some log.
  Hypothesis HS : straight_route log f0.
  Hypothesis H0 : nth_error log a = Some p0.
  Hypothesis H1 : at2 sim i a = Some p0.
  Hypothesis V0 : p_valid p0 = true.
  Hypothesis F0 : is_frame p0 f0.
  Hypothesis Hinv : idm_invalidate_on_end p = false.
  Hypothesis Hfast : rspeed f0 <= 66.

  Definition fvehicle (m : nat) (g : nat -> rframe) (al : nat -> R) : Prop :=
    m <> i /\ in_front sim f0 a (a + k) m g al.
  Hypothesis Others : forall m, m <> i -> beside sim f0 a (a + k) m \/ exists g al, fvehicle m g al.
  Hypothesis Order : forall m g al m' g' al', fvehicle m g al -> fvehicle m' g' al' -> keep_order al al' a (a + k).
  Hypothesis Cov : covers log f0 len.
  Hypothesis Far : 66 / 10 * INR k <= len \/ exists m g al, fvehicle m g al /\ al (a + k)%nat <= len.

  Lemma f_other_frames m j q : m <> i -> (m < n)%nat -> (j <= k)%nat ->
    at2 sim m (a + j) = Some q -> p_valid q = true ->
    exists g, is_frame q g /\
      (never_touches f0 g \/ exists g' al, fvehicle m g' al /\ g = g' (a + j)%nat).
  Proof.
    intros Nm Hm Hj Eq V. destruct (Others m Nm) as [B|(g & al & D)].
    - destruct (B (a + j)%nat q ltac:(lia) Eq V) as (g & G & N). eauto.
    - pose proof D as (_ & Fo & _). destruct (Fo (a + j)%nat ltac:(lia)) as (q' & Eq' & _ & G).
      assert (q' = q) as -> by congruence. exists (g (a + j)%nat). split; [exact G|]. right. eauto.
  Qed.

  Lemma f_present m g al j : fvehicle m g al -> (j <= k)%nat ->
    (m < n)%nat /\ exists q, at2 sim m (a + j) = Some q /\ p_valid q = true /\ is_frame q (g (a + j)%nat).
  Proof.
    intros (_ & Fo & _) Hj. destruct (Fo (a + j)%nat ltac:(lia)) as (q & Eq & V & G). split; [|eauto].
    unfold at2 in Eq. destruct (nth_error sim m) eqn:E; [|discriminate]. apply nth_error_Some_lt in E. lia.
  Qed.

  Lemma f_mono m g al j j' : fvehicle m g al -> (j <= j' <= k)%nat -> al (a + j)%nat <= al (a + j')%nat.
  Proof.
    intros (_ & _ & (_ & D) & _) [L1 L2]. induction L1 as [|j' L1 IH]; [lra|].
    pose proof (D (a + j')%nat ltac:(lia)) as E. pose proof (rspeed_nonneg (g (a + j')%nat)).
    specialize (IH ltac:(lia)). rewrite Nat.add_succ_r. lra.
  Qed.

  Lemma f_step j q f t : (j < k)%nat ->
    at2 sim i (a + j) = Some q -> p_valid q = true -> is_frame q f -> moved f0 f t ->
    0 <= t <= 66 / 10 * INR j -> rspeed f <= 66 ->
    (forall m g al, fvehicle m g al -> rspeed f <= 20 * (al (a + j)%nat - t)) ->
    exists q' f' t', at2 sim i (a + Datatypes.S j) = Some q' /\ p_valid q' = true /\
      is_frame q' f' /\ moved f0 f' t' /\ t <= t' <= 66 / 10 * INR (Datatypes.S j) /\ rspeed f' <= 66 /\
      (forall m g al, fvehicle m g al -> rspeed f' <= 20 * (al (a + Datatypes.S j)%nat - t')).
  Proof.
    intros Hj Eq V Fq M Ht Hv Inv.
    destruct (c_straight_step n T p slog sim a k i log p0 f0 St Hi Hlog HS H0 V0 Hinv 30 2 2 2 4 4 j q f t HP Hj Eq V Fq M)
      as (s1 & cur & sv & v' & w & q' & f' & W1 & El & Hcur & Lc & Ecur & Hsv & Ev & B & Cap & Nw & Eq' & V' & Fq' & M' & NE & _).
    set (v := rspeed f) in *. assert (Hv0 : 0 <= v) by apply rspeed_nonneg.
    assert (Hcap : v' <= 66). { specialize (Cap ltac:(lra)). unfold Rmax in Cap. destruct (Rle_dec 30 v); lra. }
    assert (Eme : nth_error cur i = Some q) by now rewrite Ecur.
    assert (Fr : forall m r, nth_error cur m = Some r -> p_valid r = true -> exists g, is_frame r g).
    { intros m r Er Vr. destruct (Nat.eq_dec m i) as [->|Nm].
      - exists f. congruence.
      - assert (Hm : (m < n)%nat) by (apply nth_error_Some_lt in Er; lia).
        rewrite (Ecur m Hm) in Er. destruct (f_other_frames m j r Nm Hm ltac:(lia) Er Vr) as (g & G & _). eauto. }
    destruct (idm_exact p 30 2 2 2 4 4 10 s1 cur sv i q f HP HP1 HP2 ltac:(lra) Hsv Hcur Fr Eme V Fq) as (u & d & Ld & Ex).
    fold v in Ex. rewrite HP3 in Ld. pose proof (eq_trans (eq_sym Ev) Ex) as Ex'.
    assert (Ev' : v' = Rmax 0 (v + 1 / 10 * idm_law 30 2 2 2 4 4 v u d)) by congruence. clear Ex Ex'.
    (* whatever blocks a check point is a fvehicle *)
    assert (Veh : forall m e, in_the_way cur 10 10 i m e -> exists g al, fvehicle m g al /\
              nth_error cur m = at2 sim m (a + j) /\ touches f0 (g (a + j)%nat) (t + INR e)).
    { intros m e (_ & N1 & pi & pj & fi & fj & Epi & Epj & _ & Vj & Fi & Fj & Tc).
      assert (Hm : (m < n)%nat) by (apply nth_error_Some_lt in Epj; lia).
      pose proof Epj as Epj'. rewrite (Ecur m Hm) in Epj'.
      destruct (f_other_frames m j pj N1 Hm ltac:(lia) Epj' Vj) as (g & G & D).
      assert (pi = q) as -> by congruence. rewrite (is_frame_inj _ _ _ Fi Fq) in Tc.
      rewrite (is_frame_inj _ _ _ Fj G) in Tc.
      replace (10 * INR e / INR 10) with (INR e) in Tc by (simpl INR; field).
      change (touches f g (INR e)) in Tc. apply (touches_moved f0 f _ t (INR e) M) in Tc.
      destruct D as [D|(g' & al & D & ->)].
      - destruct (D (t + INR e)); auto. pose proof (pos_INR e). lra.
      - exists g', al. split; [exact D|]. split; [now apply Ecur|exact Tc]. }
    assert (Key : forall m g al, fvehicle m g al -> 2 * v' + v <= 20 * (al (a + Datatypes.S j)%nat - t)).
    { intros m g al HB. pose proof (Inv m g al HB) as IA. pose proof HB as (_ & _ & (Con & Mv) & _).
      pose proof (f_mono m g al j (Datatypes.S j) HB ltac:(lia)) as Mono.
      set (A := al (a + j)%nat - t) in *.
      destruct (Rle_dec 10 A) as [L|L]; [unfold A in L; lra|].
      destruct (f_present m g al j HB ltac:(lia)) as (Hm & r & Er & Vr & Gr).
      assert (HA : 0 <= A) by lra.
      destruct (archimed A) as [U1 U2]. set (kz := up A) in *.
      assert (Kz : (0 < kz <= 10)%Z).
      { split; [apply lt_IZR; lra|]. assert (kz < 11)%Z; [|lia]. apply lt_IZR. lra. }
      assert (EK : INR (Z.to_nat kz) = IZR kz) by (rewrite INR_IZR_INZ, Z2Nat.id by lia; reflexivity).
      assert (HW : in_the_way cur 10 10 i m (Z.to_nat kz)).
      { split; [lia|]. split; [apply HB|]. exists q, r, f, (g (a + j)%nat).
        split; [exact Eme|]. split; [now rewrite Ecur|]. do 4 (split; [assumption|]).
        replace (10 * INR (Z.to_nat kz) / INR 10) with (IZR kz) by (rewrite EK; simpl INR; field).
        apply (touches_moved f0 f (g (a + j)%nat) t (IZR kz) M).
        destruct (Con (a + j)%nat ltac:(lia)) as [_ C2]. apply C2. unfold A in *. lra. }
      destruct Ld as [(Hn & _)|(k0 & ((j0 & Hj0) & First) & Ed & ((j1 & Hj1 & (r1 & g1 & Er1 & Gr1 & Eu)) & Small))];
        [destruct (Hn m _ HW)|].
      assert (K0 : (k0 <= Z.to_nat kz)%nat).
      { destruct (Nat.le_gt_cases k0 (Z.to_nat kz)); auto. destruct (First (Z.to_nat kz) m); auto. }
      assert (Ed' : d = INR k0) by (rewrite Ed; simpl INR; field).
      assert (Hd : 0 <= d <= A + 1).
      { rewrite Ed'. apply le_INR in K0. rewrite EK in K0. pose proof (pos_INR k0). lra. }
      destruct (Rle_dec u (v + 2 / 10)) as [Lu|Lu].
      - (* not much faster than the object: brake *)
        assert (Bk : 2 * v' + v <= 20 * A); [|unfold A in Bk; lra].
        rewrite Ev'. unfold idm_law. destruct (Req_EM_T d (-1)); [lra|]. cbv zeta.
        apply brake_moving; auto; [|lra|apply rpow_nonneg].
        unfold effective_gap. destruct (Req_EM_T d 0); lra.
      - (* faster: it is out of the way in time *)
        assert (Vu : v' <= u) by lra.
        assert (Own : forall m1 g2 al2, fvehicle m1 g2 al2 -> in_the_way cur 10 10 i m1 k0 ->
                  2 * v' + v <= 20 * (al2 (a + Datatypes.S j)%nat - t)).
        { intros m1 g2 al2 HB2 HW2. pose proof HB2 as (_ & _ & (_ & Mv2) & _).
          pose proof (Inv m1 g2 al2 HB2) as IA2.
          destruct (f_present m1 g2 al2 j HB2 ltac:(lia)) as (Hm1 & r2 & Er2 & Vr2 & Gr2).
          assert (u <= rspeed (g2 (a + j)%nat)).
          { apply (Small m1); auto. exists r2, (g2 (a + j)%nat). rewrite (Ecur m1 Hm1). auto. }
          pose proof (Mv2 (a + j)%nat ltac:(lia)) as E2. rewrite Nat.add_succ_r. lra. }
        destruct (Nat.eq_dec k0 (Z.to_nat kz)) as [Ek|Nk]; [rewrite Ek in *; eauto|].
        (* another fvehicle is hit first; it stays in front of this one *)
        destruct (Veh j1 k0 Hj1) as (g2 & al2 & HB2 & _ & Tc).
        pose proof (Own j1 g2 al2 HB2 Hj1) as O2.
        assert (Lt : al2 (a + j)%nat < al (a + j)%nat).
        { pose proof HB2 as (_ & _ & (Con2 & _) & _). destruct (Con2 (a + j)%nat ltac:(lia)) as [C1 _].
          assert (al2 (a + j)%nat < t + INR k0).
          { apply Rnot_le_lt. intros Hle. apply (C1 (t + INR k0)); auto. pose proof (pos_INR k0). lra. }
          assert (Lk : (Datatypes.S k0 <= Z.to_nat kz)%nat) by lia. apply le_INR in Lk. rewrite S_INR, EK in Lk.
          unfold A in *. lra. }
        destruct (Order j1 g2 al2 m g al HB2 HB) as [O|O].
        + pose proof (O (a + Datatypes.S j)%nat ltac:(lia)). lra.
        + pose proof (O (a + j)%nat ltac:(lia)). lra. }
    exists q', f', (t + (v' + v) / 20). do 4 (split; [assumption|]).
    assert (Tt : t + (v' + v) / 20 <= 66 / 10 * INR (Datatypes.S j)) by (rewrite S_INR; lra).
    assert (Rf : rspeed f' = v').
    { apply NE. eapply covered_not_end; eauto. split; [lra|].
      destruct Far as [Fa|(m & g & al & HB & Le)].
      - assert (Lj : (Datatypes.S j <= k)%nat) by lia. apply le_INR in Lj. lra.
      - pose proof (Key m g al HB). pose proof (f_mono m g al (Datatypes.S j) k HB ltac:(lia)). lra. }
    split; [lra|]. rewrite Rf. split; [exact Hcap|]. intros m g al HB. specialize (Key m g al HB). lra.
  Qed.

  Lemma f_episode j : (j <= k)%nat ->
    exists q f t, at2 sim i (a + j) = Some q /\ p_valid q = true /\
      is_frame q f /\ moved f0 f t /\ 0 <= t <= 66 / 10 * INR j /\ rspeed f <= 66 /\
      (forall m g al, fvehicle m g al -> rspeed f <= 20 * (al (a + j)%nat - t)).
  Proof.
    induction j as [|j IH]; intros Hj.
    - exists p0, f0, 0. rewrite Nat.add_0_r. do 3 (split; [assumption|]). split. { repeat split. unfold ahead. f_equal; ring. }
      split; [simpl; lra|]. split; [exact Hfast|]. intros m g al (_ & _ & _ & HB). lra.
    - destruct (IH ltac:(lia)) as (q & f & t & Eq & V & Fq & M & Ht & Hv & Inv).
      destruct (f_step j q f t ltac:(lia) Eq V Fq M Ht Hv Inv) as (q' & f' & t' & A1 & A2 & A3 & A4 & A5 & A6 & A7).
      exists q', f', t'. do 4 (split; [assumption|]). split; [lra|]. auto.
  Qed.

  Lemma f_all j m q r f : (j <= k)%nat -> m <> i ->
    at2 sim i (a + j) = Some q -> is_frame q f ->
    at2 sim m (a + j) = Some r -> p_valid r = true ->
    exists g, is_frame r g /\ ~ touches f g 0.
  Proof.
    intros Hj Nm Eq Fq Er Vr.
    destruct (f_episode j Hj) as (q1 & f1 & t & Eq1 & _ & Fq1 & M & Ht & _ & Inv).
    assert (q1 = q) as -> by congruence. rewrite (is_frame_inj _ _ _ Fq Fq1) in *. clear f Fq.
    assert (Hm : (m < n)%nat).
    { unfold at2 in Er. destruct (nth_error sim m) eqn:E; [|discriminate]. apply nth_error_Some_lt in E. lia. }
    destruct (f_other_frames m j r Nm Hm Hj Er Vr) as (g & G1 & D).
    exists g. split; [exact G1|]. rewrite (touches_moved f0 f1 _ t 0 M), Rplus_0_r.
    destruct D as [D|(g' & al & HB & ->)]; [apply D; lra|]. pose proof HB as (_ & _ & (Con & _) & _).
    apply (Con (a + j)%nat ltac:(lia)).
    specialize (Inv _ _ _ HB). pose proof (rspeed_nonneg f1). lra.
  Qed.
End Traffic.

(** A vehicle has one distance only. *)
Lemma in_front_same sim f a b m g al g' al' :
  in_front sim f a b m g al -> in_front sim f a b m g' al' -> keep_order al al' a b.
Proof.
  intros (Fo & (C & D) & A0) (Fo' & (C' & D') & A0').
  assert (Pos : forall (g0 : nat -> rframe) (al0 : nat -> R), (forall t, (a <= t < b)%nat -> al0 t + rspeed (g0 t) / 10 <= al0 (Datatypes.S t)) ->
    rspeed f / 20 <= al0 a -> forall t, (a <= t <= b)%nat -> 0 <= al0 t).
  { intros g0 al0 D0 B0 t [L1 L2]. pose proof (rspeed_nonneg f). induction L1 as [|t L1 IH]; [lra|].
    pose proof (D0 t ltac:(lia)). pose proof (rspeed_nonneg (g0 t)). specialize (IH ltac:(lia)). lra. }
  left. intros t Ht. right. destruct (Fo t Ht) as (q & E & _ & G), (Fo' t Ht) as (q' & E' & _ & G').
  assert (q' = q) as -> by congruence. pose proof (is_frame_inj _ _ _ G G') as Eg.
  apply (contact_unique f (g t)); [eapply Pos; eauto|eapply Pos; eauto|apply C; exact Ht|]. rewrite Eg. apply C'; exact Ht.
Qed.

Section Plan.
  Context {S : Scalar} {P X K : Type} (split : K -> nat -> nat -> K).
  Open Scope nat_scope.

  (** One step of a planning episode, in terms of its final trajectory. *)
  Lemma plan_frames n T (e : penv P X K) s rng acts ps' :
    length (pe_params e) = length (pe_agents e) ->
    wf_scenario n T s -> 1 <= c_init_steps (pe_cfg e) ->
    c_init_steps (pe_cfg e) + length acts <= T ->
    run_planning split e s rng acts = Ok ps' ->
    forall j, j < length acts -> exists ps1 ac key outs cur us,
      wf_state n T (ps_state ps1) /\ same_scenario s (ps_state ps1) /\
      nth_error acts j = Some (ac, key) /\
      agent_outputs e ps1 (agent_key split key (length (pe_agents e))) outs /\
      current_sim (ps_state ps1) = Ok cur /\ length cur = n /\
      d_update (pe_dyn e) (repeat ac n) cur = Ok us /\
      (forall m, m < n -> nth_error cur m = at2 (s_sim (ps_state ps')) m (c_init_steps (pe_cfg e) - 1 + j)) /\
      forall m, m < n -> exists p c l,
        at2 (s_sim (ps_state ps')) m (c_init_steps (pe_cfg e) - 1 + Datatypes.S j) = Some p /\
        nth_error cur m = Some c /\
        at2 (s_log s) m (c_init_steps (pe_cfg e) - 1 + Datatypes.S j) = Some l /\
        (forall o, last_claim outs m o -> ~ starts_overlapping s m ->
           exists b, nth_error (o_action o) m = Some b /\ pose_of_action b p) /\
        (~ driven s outs m -> is_sdc s m -> exists u, nth_error us m = Some u /\ pose_of_update u p) /\
        (~ driven s outs m -> ~ is_sdc s m -> same_pose p l) /\
        (driven s outs m \/ is_sdc s m ->
           p_valid p = p_valid c || (c_allow_new_objects (pe_cfg e) && p_valid l)) /\
        (~ (driven s outs m \/ is_sdc s m) ->
           p_valid p = p_valid l && (c_allow_new_objects (pe_cfg e) || p_valid c)) /\
        p_z p = p_z c /\ p_len p = p_len c /\ p_wid p = p_wid c.
  Proof.
    intros Lp W HI HL H j Hj.
    destruct (planning_split split n T e s rng acts ps' j Lp W HI HL Hj H)
      as (ps1 & ps2 & ac & key & R1 & Ea & St & R2 & Fr2 & Fr1).
    assert (Lf : length (firstn j acts) = j) by (apply firstn_length_le; lia).
    destruct (planning_basic split n T e s rng _ ps1 Lp W HI ltac:(rewrite Lf; lia) R1) as (SC & W1 & E1 & _).
    rewrite Lf in E1. set (t := c_init_steps (pe_cfg e) - 1 + j).
    destruct (planning_step split n T e ps1 ac key ps2 t Lp W1) as (_ & _ & _ & _ & outs & cur & us & Ho & _ & Lc & _ & Ecur & Hu & Fr); auto.
    { rewrite E1. unfold t. lia. } { unfold t. lia. }
    assert (El : s_log (ps_state ps1) = s_log s) by apply SC.
    pose proof W1 as (Rs & _ & _ & _ & HT).
    destruct (dynamic_index_total n T _ (s_t (ps_state ps1)) Rs HT) as [cur' Hc'].
    destruct (dynamic_index_Ok _ _ _ _ _ Rs Hc') as [Lc' Hcc].
    assert (cur' = cur) as ->.
    { apply nth_error_ext_eq. intros i. destruct (Nat.lt_ge_cases i n) as [Li|Li].
      - rewrite Ecur, Hcc by auto. rewrite E1, <- (Nat2Z.inj_sub _ 1) by lia. rewrite norm_nat by lia. f_equal. unfold t. lia.
      - rewrite !(proj2 (nth_error_None _ i)) by lia. auto. }
    exists ps1, ac, key, outs, cur, us. split; [exact W1|]. split; [exact SC|]. split; [exact Ea|].
    split; [exact Ho|]. split; [exact Hc'|]. split; [exact Lc|]. split; [exact Hu|].
    split. { intros m Hm. rewrite Ecur by auto. symmetry. apply Fr1; auto. lia. }
    intros m Hm. destruct (Fr m Hm) as (p & c & l & A1 & A2 & A3 & A4 & A5 & A6 & A7 & A8 & A9 & A10 & A11 & _).
    assert (Em : s_meta (ps_state ps1) = s_meta s) by apply SC.
    assert (ES : starts_overlapping (ps_state ps1) m = starts_overlapping s m) by (unfold starts_overlapping; now rewrite El).
    assert (EI : is_sdc (ps_state ps1) m = is_sdc s m) by (unfold is_sdc; now rewrite Em).
    assert (ED : driven (ps_state ps1) outs m = driven s outs m) by (unfold driven; now rewrite ES).
    rewrite El in A3. rewrite ES in A4. rewrite EI, ED in *.
    exists p, c, l. split. { rewrite Fr2 by lia. rewrite <- A1. f_equal. unfold t. lia. }
    split; [now rewrite Ecur|]. split. { rewrite <- A3. f_equal. unfold t. lia. }
    repeat (split; [assumption|]). assumption.
  Qed.

  Lemma last_claim_of (e : penv P X K) ps key outs s i ag :
    agent_outputs e ps key outs -> same_scenario s (ps_state ps) -> drives_object e s i ag ->
    exists o p x k, ac_select ag p (ps_state ps) x k = Ok o /\ last_claim outs i o.
  Proof.
    intros (Lo & Ho) SC (_ & before & after & Ea & C1 & C2).
    destruct (Ho (length before) ag) as (x & p & o & _ & _ & Eo & Hs).
    { rewrite Ea, nth_error_app2, Nat.sub_diag by lia. reflexivity. }
    exists o, p, x, (key (length before)). split; [exact Hs|].
    destruct (nth_error_split _ _ Eo) as (l1 & l2 & El & Ll). exists l1, l2. split; [exact El|].
    split; [eapply C1; eauto|]. intros o' Hin. apply In_nth_error in Hin as [q Hq].
    assert (Hlt : q < length after).
    { apply nth_error_Some_lt in Hq. rewrite El, Ea, !app_length in Lo. simpl in Lo. lia. }
    destruct (nth_error_lt_Some after q Hlt) as [ag' Hag].
    destruct (Ho (length before + Datatypes.S q) ag') as (x' & p' & o1 & _ & _ & Eo' & Hs').
    { rewrite Ea, nth_error_app2 by lia. replace (length before + Datatypes.S q - length before) with (Datatypes.S q) by lia. exact Hag. }
    assert (o1 = o') as ->.
    { rewrite El, nth_error_app2 in Eo' by lia.
      replace (length before + Datatypes.S q - length l1) with (Datatypes.S q) in Eo' by lia. cbn in Eo'. congruence. }
    eapply (C2 ag' (ps_state ps) p' x'); [eapply nth_error_In; eauto|exact SC|exact Hs'].
  Qed.

  (** A sim agent with the last word on an object steers it. *)
  Lemma planning_steered n T (e : penv P X K) s rng acts ps' i none ctrl upd :
    length (pe_params e) = length (pe_agents e) ->
    wf_scenario n T s -> 1 <= c_init_steps (pe_cfg e) ->
    c_init_steps (pe_cfg e) + length acts <= T ->
    run_planning split e s rng acts = Ok ps' -> i < n ->
    drives_object e s i (sim_agent none ctrl upd) ->
    steered upd n T (s_log s) (s_sim (ps_state ps')) (c_init_steps (pe_cfg e) - 1) (length acts) i.
  Proof.
    intros Lp W HI HL H Hi D j Hj.
    destruct (plan_frames n T e s rng acts ps' Lp W HI HL H j Hj)
      as (ps1 & ac & key & outs & cur & us & W1 & SC & Ea & Ho & Hc & Lc & Hu & Ecur & Fr).
    destruct (last_claim_of e ps1 _ outs s i _ Ho SC D) as (o & p & x & k & Hs & Hl).
    cbn [sim_agent ac_select] in Hs. apply bind_Ok in Hs as (ups & Hups & Hs).
    assert (o = mkout none (map as_action ups) (ctrl (ps_state ps1))) as -> by congruence. clear Hs.
    destruct (Fr i Hi) as (p' & c & l & A1 & A2 & A3 & A4 & A5 & A6 & A7 & A8 & A9 & A10 & A11).
    destruct (A4 _ Hl) as (b & Eb & Pb); [apply D|]. cbn [o_action] in Eb. rewrite nth_error_map in Eb.
    destruct (nth_error ups i) as [u|] eqn:Eu; [|discriminate]. cbn in Eb. injection Eb as <-.
    assert (Dr : driven s outs i).
    { split; [|apply D]. destruct Hl as (l1 & l2 & -> & Cl & _). eexists. split; [|exact Cl]. apply in_elt. }
    exists (ps_state ps1), ups, cur, c, u, p'.
    split; [exact W1|]. split; [apply SC|]. split; [exact Hups|]. split; [exact Hc|]. split; [exact Lc|].
    split; [exact Ecur|]. split; [exact A2|]. split; [exact Eu|]. split; [exact A1|].
    do 3 (split; [assumption|]). destruct Pb as (rest & Pb). unfold as_action in Pb. cbn in Pb.
    injection Pb as -> -> -> -> -> _. repeat (split; [reflexivity|]).
    intros V. rewrite (A7 (or_introl Dr)), V. reflexivity.
  Qed.

  (** Planning episodes run to the end of the log when the dynamics accept the planner's
      actions and the agents answer. *)
  Lemma planning_runs n T (e : penv P X K) s rng acts ok :
    length (pe_params e) = length (pe_agents e) ->
    wf_scenario n T s -> c_max_num_objects (pe_cfg e) = n -> 1 <= c_init_steps (pe_cfg e) ->
    c_init_steps (pe_cfg e) + length acts <= T ->
    dyn_total (pe_dyn e) ok -> Forall (fun ak => ok (fst ak)) acts ->
    (forall ag k s1, In ag (pe_agents e) -> wf_state n T s1 -> exists x, ac_init ag k s1 = Ok x) ->
    (forall ag p x k s1, In ag (pe_agents e) -> wf_state n T s1 -> same_scenario s s1 ->
       exists o, ac_select ag p s1 x k = Ok o /\ length (o_controlled o) = n /\
         length (o_action o) = n /\ Forall (fun b => length (a_data b) = 5) (o_action o)) ->
    exists ps', run_planning split e s rng acts = Ok ps'.
  Proof.
    intros Lp W HM HI HL D Fa Hin Hag. induction acts as [|[a k] acts IH] using rev_ind.
    - destruct W as (R & Lm & Hn & HT). destruct (env_reset_total n T (pe_cfg e) s) as [s0 H0]; auto; [lia|].
      pose proof (env_reset_wf _ _ _ _ _ R Lm Hn HT H0) as W0.
      assert (exists xs, mapM (fun ka => ac_init (snd ka) (fst ka) s0)
                 (combine (split_keys split rng (length (pe_agents e))) (pe_agents e)) = Ok xs) as [xs Hxs].
      { apply mapM_total. intros [kk ag] Hc. apply in_combine_r in Hc. cbn [fst snd]. eauto. }
      exists (mkps s0 xs). unfold run_planning, penv_reset. rewrite H0. cbn [bind]. rewrite Hxs. reflexivity.
    - rewrite app_length in HL. simpl in HL. apply Forall_app in Fa as [Fa Fk].
      destruct (IH ltac:(lia) Fa) as [[s1 xs] H1].
      destruct (planning_basic split n T e s rng acts _ Lp W HI ltac:(lia) H1) as (SC & W1 & _). cbn [ps_state] in *.
      assert (Lx : length xs = length (pe_agents e)).
      { clear IH. destruct acts as [|b acts' _] using rev_ind.
        - unfold run_planning in H1. apply bind_Ok in H1 as (p0 & H0 & H1). injection H1 as ->.
          apply planning_reset in H0. apply H0.
        - destruct (planning_split split n T e s rng (acts' ++ [b]) _ (length acts') Lp W HI ltac:(lia) ltac:(rewrite app_length; simpl; lia) H1)
            as (q1 & q2 & ac & key & R1 & _ & St & R2 & _).
          rewrite firstn_all2 in R2 by (rewrite app_length; simpl; lia).
          rewrite app_length in HL. simpl in HL.
          assert (q2 = mkps s1 xs) as -> by congruence.
          assert (Lf : length (firstn (length acts') (acts' ++ [b])) = length acts') by (apply firstn_length_le; rewrite app_length; simpl; lia).
          destruct (planning_basic split n T e s rng _ q1 Lp W HI ltac:(rewrite Lf; lia) R1) as (_ & Wq & Eq & _).
          rewrite Lf in Eq.
          destruct (planning_step split n T e q1 ac key _ (c_init_steps (pe_cfg e) - 1 + length acts') Lp Wq ltac:(rewrite Eq; lia) ltac:(lia) St)
            as (_ & _ & _ & _ & outs & _ & _ & [Lo _] & Eo & _).
          cbn [ps_actors] in Eo. rewrite Eo, map_length. exact Lo. }
      destruct (planning_step_total split n T e s1 xs a k ok W1 D) as [ps' Hs]; auto.
      { inversion Fk; auto. }
      exists ps'. unfold run_planning in *. apply bind_Ok in H1 as (p0 & H0 & H1). rewrite H0. cbn [bind].
      rewrite penv_steps_app, H1. cbn [bind penv_steps]. rewrite Hs. reflexivity.
  Qed.
End Plan.
