(** The IDM agent behind moving traffic (C66). *)
From Coq Require Import Reals List ZArith Bool Lra Lia Psatz.
From Verif.Lib Require Import Base JaxIndex Scalar XR.
From Verif.Model Require Import Operations State Dynamics BaseEnv Dyn_State Geometry Discretizer Comfort Metrics Actor Waypoint.
From Verif.Spec Require Import StateSpec GeomSpec DynSpec AgentSpec WaypointSpec DriveSpec TrafficSpec.
From Verif.Proofs Require Import Core Episode P_Step P_Actions P_Expert P_Plan P_Pose P_Overlap P_Metrics P_MetricsRun P_IDM P_Lead P_IDMRun P_Waypoint P_Drive.
Import ListNotations.
Open Scope R_scope.

(** Uncontrolled objects of constant size are where the log has them. *)
Section Logged.
  Context {P X K : Type}.
  Variables (n T : nat) (c : envcfg) (none : X) (ctrl : state (S := XR) -> list bool)
    (upd : state (S := XR) -> res (list (upd (S := XR)))) (pp : P) (x : X) (key : option K)
    (s s' : state (S := XR)) (k m : nat) (lm : list (pt (S := XR))).
  Hypothesis W : wf_scenario n T s.
  Hypothesis Run : run_policy (S := XR) StateDynamics c (actor_policy (sim_agent none ctrl upd) pp x key) s k = Ok s'.
  Hypothesis HI : (1 <= c_init_steps c)%nat.
  Hypothesis HL : (c_init_steps c + k <= T)%nat.
  Hypothesis Hm : (m < n)%nat.
  Hypothesis Hc : ~ in_control c s m.
  Hypothesis Hlm : nth_error (s_log s) m = Some lm.

  Lemma logged_frames g : logged_as lm g -> forall j, (j <= k)%nat ->
    exists q, at2 (s_sim s') m (c_init_steps c - 1 + j) = Some q /\ p_valid q = true /\
      is_frame q (g (c_init_steps c - 1 + j)%nat).
  Proof.
    intros [HP Hsz]. induction j as [|j IH]; intros Hj.
    - rewrite Nat.add_0_r, (sim_start n T _ _ _ _ _ _ W Run HI HL m Hm). unfold at2. rewrite Hlm.
      destruct (nth_error_lt_Some lm (c_init_steps c - 1)) as [q Eq].
      { destruct W as ((_ & Rl) & _).
        rewrite (Rl lm (nth_error_In _ _ Hlm)). lia. }
      exists q. split; [exact Eq|]. exact (HP _ _ Eq).
    - destruct (IH ltac:(lia)) as (q & Eq & V & G1 & G2 & G3 & G4 & G5 & G6 & G7 & G8).
      destruct (sim_frames n T c none ctrl upd pp x key s s' k W Run HI HL j ltac:(lia))
        as (s1 & ups & cur & _ & _ & _ & _ & _ & Fr).
      destruct (Fr m Hm) as (q1 & u & nxt & p' & _ & E2 & _ & En & E3 & Z1 & Z2 & Z3 & _ & Nc).
      assert (q1 = q) as -> by congruence. unfold at2 in En. rewrite Hlm in En.
      destruct (HP _ _ En) as (Vn & N1 & N2 & N3 & N4 & N5 & N6 & N7 & N8).
      destruct (Nc Hc) as (Q1 & Q2 & Q3 & Q4 & Q5 & Q6).
      exists p'. split; [exact E3|]. split; [rewrite Q6, Vn, V; destruct (c_allow_new_objects c); reflexivity|].
      destruct (Hsz (c_init_steps c - 1 + j)%nat) as (A1 & A2 & A3).
      destruct (Hsz (c_init_steps c - 1 + Datatypes.S j)%nat) as (B1 & B2 & B3).
      repeat split; congruence.
  Qed.
End Logged.

(** Braking behind a leader that is not more than 0.2 m/s faster. *)
Lemma brake_moving v u e A pw : 0 <= v -> u <= v + 2 / 10 -> 0 < e <= A + 1 -> 0 <= A <= 10 -> v <= 20 * A -> 0 <= pw ->
  2 * Rmax 0 (v + (1 / 10) * (2 * (1 - pw - wanted_gap 2 2 2 4 v u / e * (wanted_gap 2 2 2 4 v u / e)))) + v <= 20 * A.
Proof.
  intros Hv Hu [He HA] [A0 A1] HvA Hp. set (w := wanted_gap 2 2 2 4 v u).
  assert (Hw : 2 + 196 / 100 * v <= w).
  { unfold w, wanted_gap. assert (S8 : 28 / 10 <= sqrt (2 * 4)).
    { replace (28 / 10) with (sqrt (28 / 10 * (28 / 10))) by (apply sqrt_square; lra). apply sqrt_le_1; lra. }
    pose proof (Rmax_r 0 (v * 2 + v * (v - u) / (2 * sqrt (2 * 4)))).
    assert (- (4 / 100) * v <= v * (v - u) / (2 * sqrt (2 * 4))); [|lra].
    set (z := sqrt (2 * 4)) in *.
    apply (Rmult_le_reg_r (2 * z)); [lra|].
    replace (v * (v - u) / (2 * z) * (2 * z)) with (v * (v - u)) by (field; lra).
    assert (v * (- (2 / 10)) <= v * (v - u)) by (apply Rmult_le_compat_l; lra).
    assert (v * (28 / 10) <= v * z) by (apply Rmult_le_compat_l; lra). nra. }
  unfold Rmax. destruct (Rle_dec 0 _); [|lra].
  set (E := A + 1) in *.
  assert (Q : 384 / 100 * w - 36864 / 10000 * (E * E) <= w / e * (w / e)).
  { apply Rle_trans with (384 / 100 * w / e * e - 36864 / 10000 * (e * e)).
    - replace (384 / 100 * w / e * e) with (384 / 100 * w) by (field; lra).
      assert (e * e <= E * E) by (apply Rmult_le_compat; lra).
      (* monotone on the relevant range *)
      nra.
    - set (y := w / e). replace (384 / 100 * w / e) with (384 / 100 * y) by (unfold y; field; lra).
      pose proof (Rle_0_sqr (y - 192 / 100 * e)) as Sq. unfold Rsqr in Sq. lra. }
  assert (0 <= (E - 1) * (11 - E)) by (apply Rmult_le_pos; unfold E; lra).
  assert (EA : A = E - 1) by (unfold E; ring). assert (1 <= E) by (unfold E; lra).
  generalize dependent (w / e * (w / e)). intros Y _ Q. clearbody E w. rewrite EA. clear EA. lra.
Qed.

(** Where the contact is, is determined by the frames. *)
Lemma contact_unique f g d1 d2 : 0 <= d1 -> 0 <= d2 -> contact_after f g d1 -> contact_after f g d2 -> d1 = d2.
Proof.
  intros N1 N2 [A1 A2] [B1 B2]. destruct (Rtotal_order d1 d2) as [L|[L|L]]; auto; exfalso.
  - pose proof (Rmin_l d2 (d1 + 1)). pose proof (Rmin_r d2 (d1 + 1)).
    assert (d1 < Rmin d2 (d1 + 1)) by (apply Rmin_glb_lt; lra).
    apply (B1 (Rmin d2 (d1 + 1))); [lra|]. apply A2. lra.
  - pose proof (Rmin_l d1 (d2 + 1)). pose proof (Rmin_r d1 (d2 + 1)).
    assert (d2 < Rmin d1 (d2 + 1)) by (apply Rmin_glb_lt; lra).
    apply (A1 (Rmin d1 (d2 + 1))); [lra|]. apply B2. lra.
Qed.

Lemma vehicle_same s f a b m g al g' al' T :
  vehicle_ahead s f a b m g al -> vehicle_ahead s f a b m g' al' ->
  (forall lm, nth_error (s_log s) m = Some lm -> length lm = T) -> (b < T)%nat -> keep_order al al' a b.
Proof.
  intros ((lm & E & [G _]) & (C & D) & A0) ((lm' & E' & [G' _]) & (C' & D') & A0') HT Hb.
  assert (lm' = lm) as -> by congruence.
  assert (Pos : forall (g0 : nat -> rframe) (al0 : nat -> R), (forall t, (a <= t < b)%nat -> al0 t + rspeed (g0 t) / 10 <= al0 (Datatypes.S t)) ->
    rspeed f / 20 <= al0 a -> forall t, (a <= t <= b)%nat -> 0 <= al0 t).
  { intros g0 al0 D0 B0 t [L1 L2]. pose proof (rspeed_nonneg f). induction L1 as [|t L1 IH]; [lra|].
    pose proof (D0 t ltac:(lia)). pose proof (rspeed_nonneg (g0 t)). specialize (IH ltac:(lia)). lra. }
  left. intros t Ht. right. destruct (nth_error_lt_Some lm t) as [p Hp]; [rewrite (HT _ E); lia|].
  destruct (G t p Hp) as [_ F1], (G' t p Hp) as [_ F2]. pose proof (is_frame_inj _ _ _ F1 F2) as Eg.
  apply (contact_unique f (g t)); [eapply Pos; eauto|eapply Pos; eauto|apply C; exact Ht|]. rewrite Eg. apply C'; exact Ht.
Qed.

Section Traffic.
  Context {P X K : Type}.
  Variables (n T : nat) (c : envcfg) (none : X) (ctrl : state (S := XR) -> list bool)
    (p : idm_params (S := XR)) (pp : P) (x : X) (key : option K) (s s' : state (S := XR)) (k i : nat)
    (log : list (pt (S := XR))) (p0 : pt (S := XR)) (f0 : rframe) (len : R).
  Hypothesis HP : idm_real p 30 2 2 2 4 4.
  Hypothesis HP1 : lookahead_from_current_position p = true.
  Hypothesis HP2 : additional_lookahead_distance p = Fin 10.
  Hypothesis HP3 : additional_headway_points p = 10%nat.
  Hypothesis W : wf_scenario n T s.
  Hypothesis Run : run_policy (S := XR) StateDynamics c (actor_policy (idm_actor none ctrl p) pp x key) s k = Ok s'.
  Hypothesis HI : (1 <= c_init_steps c)%nat.
  Hypothesis HL : (c_init_steps c + k <= T)%nat.
  Hypothesis Hi : (i < n)%nat.
  Hypothesis Hc : in_control c s i.
  Hypothesis Hlog : nth_error (s_log s) i = Some log.
  Hypothesis HS : straight_route log f0.
  Hypothesis H0 : at2 (s_log s) i (c_init_steps c - 1) = Some p0.
  Hypothesis V0 : p_valid p0 = true.
  Hypothesis F0 : is_frame p0 f0.
  Hypothesis Hinv : idm_invalidate_on_end p = false.
  Hypothesis Hfast : rspeed f0 <= 66.

  Let a := (c_init_steps c - 1)%nat.

  Definition vehicle (m : nat) (g : nat -> rframe) (al : nat -> R) : Prop :=
    m <> i /\ vehicle_ahead s f0 a (a + k) m g al.

  Hypothesis Others : forall m lm, m <> i -> nth_error (s_log s) m = Some lm ->
    ~ in_control c s m /\
    (absent lm \/ exists g, logged_as lm g /\
       ((forall t, (a <= t <= a + k)%nat -> never_touches f0 (g t)) \/ exists al, vehicle m g al)).
  Hypothesis Order : forall m g al m' g' al', vehicle m g al -> vehicle m' g' al' -> keep_order al al' a (a + k).
  Hypothesis Cov : covers log f0 len.
  Hypothesis Far : 66 / 10 * INR k <= len \/ exists m g al, vehicle m g al /\ al (a + k)%nat <= len.

  Lemma t_log_nth m : (m < n)%nat -> exists lm, nth_error (s_log s) m = Some lm.
  Proof. intros Hm. destruct W as ((L & _) & _). apply nth_error_lt_Some. lia. Qed.

  Lemma t_other_frames m j q : m <> i -> (m < n)%nat -> (j <= k)%nat ->
    at2 (s_sim s') m (a + j) = Some q -> p_valid q = true ->
    exists g, is_frame q (g (a + j)%nat) /\
      (never_touches f0 (g (a + j)%nat) \/ exists al, vehicle m g al).
  Proof.
    intros Nm Hm Hj Eq V. destruct (t_log_nth m Hm) as [lm Hlm].
    destruct (Others m lm Nm Hlm) as [NC [A|(g & Pk & D)]].
    - rewrite (absent_frames n T c none ctrl (idm_policy p) pp x key s s' k m lm W Run HI HL Hm NC Hlm A j q Hj Eq) in V.
      discriminate.
    - destruct (logged_frames n T c none ctrl (idm_policy p) pp x key s s' k m lm W Run HI HL Hm NC Hlm g Pk j Hj)
        as (q' & Eq' & _ & G). assert (q' = q) as -> by (unfold a in *; congruence). exists g. split; [exact G|].
      destruct D as [D|D]; [left; apply D; lia|auto].
  Qed.

  Lemma t_present m g al j : vehicle m g al -> (j <= k)%nat ->
    (m < n)%nat /\ exists q, at2 (s_sim s') m (a + j) = Some q /\ p_valid q = true /\ is_frame q (g (a + j)%nat).
  Proof.
    intros (Nm & (lm & Hlm & Pk) & _) Hj.
    assert (Hm : (m < n)%nat). { destruct W as ((L & _) & _). apply nth_error_Some_lt in Hlm. lia. }
    split; [exact Hm|]. destruct (Others m lm Nm Hlm) as [NC _].
    exact (logged_frames n T c none ctrl (idm_policy p) pp x key s s' k m lm W Run HI HL Hm NC Hlm g Pk j Hj).
  Qed.

  Lemma ahead_mono m g al j j' : vehicle m g al -> (j <= j' <= k)%nat -> al (a + j)%nat <= al (a + j')%nat.
  Proof.
    intros (_ & _ & (_ & D) & _) [L1 L2]. induction L1 as [|j' L1 IH]; [lra|].
    pose proof (D (a + j')%nat ltac:(lia)) as E. pose proof (rspeed_nonneg (g (a + j')%nat)).
    specialize (IH ltac:(lia)). rewrite Nat.add_succ_r. lra.
  Qed.

  Lemma t_step j q f t : (j < k)%nat ->
    at2 (s_sim s') i (a + j) = Some q -> p_valid q = true -> is_frame q f -> moved f0 f t ->
    0 <= t <= 66 / 10 * INR j -> rspeed f <= 66 ->
    (forall m g al, vehicle m g al -> rspeed f <= 20 * (al (a + j)%nat - t)) ->
    exists q' f' t', at2 (s_sim s') i (a + Datatypes.S j) = Some q' /\ p_valid q' = true /\
      is_frame q' f' /\ moved f0 f' t' /\ t <= t' <= 66 / 10 * INR (Datatypes.S j) /\ rspeed f' <= 66 /\
      (forall m g al, vehicle m g al -> rspeed f' <= 20 * (al (a + Datatypes.S j)%nat - t')).
  Proof.
    intros Hj Eq V Fq M Ht Hv Inv.
    destruct (straight_step n T c none ctrl p pp x key s s' k i log p0 f0 W Run HI HL Hi Hc Hlog HS H0 V0 Hinv
      30 2 2 2 4 4 j q f t HP Hj Eq V Fq M)
      as (s1 & cur & sv & v' & w & q' & f' & W1 & El & Hcur & Lc & Ecur & Hsv & Ev & B & Cap & Nw & Eq' & V' & Fq' & M' & NE & _).
    fold a in Ecur, Eq'.
    set (v := rspeed f) in *. assert (Hv0 : 0 <= v) by apply rspeed_nonneg.
    assert (Hcap : v' <= 66). { specialize (Cap ltac:(lra)). unfold Rmax in Cap. destruct (Rle_dec 30 v); lra. }
    assert (Eme : nth_error cur i = Some q) by now rewrite Ecur.
    assert (Fr : forall m r, nth_error cur m = Some r -> p_valid r = true -> exists g, is_frame r g).
    { intros m r Er Vr. destruct (Nat.eq_dec m i) as [->|Nm].
      - exists f. congruence.
      - assert (Hm : (m < n)%nat) by (apply nth_error_Some_lt in Er; lia).
        rewrite (Ecur m Hm) in Er. destruct (t_other_frames m j r Nm Hm ltac:(lia) Er Vr) as (g & G & _). eauto. }
    destruct (idm_exact p 30 2 2 2 4 4 10 s1 cur sv i q f HP HP1 HP2 ltac:(lra) Hsv Hcur Fr Eme V Fq) as (u & d & Ld & Ex).
    fold v in Ex. rewrite HP3 in Ld. pose proof (eq_trans (eq_sym Ev) Ex) as Ex'.
    assert (Ev' : v' = Rmax 0 (v + 1 / 10 * idm_law 30 2 2 2 4 4 v u d)) by congruence. clear Ex Ex'.
    (* whatever blocks a check point is a vehicle *)
    assert (Veh : forall m e, in_the_way cur 10 10 i m e -> exists g al, vehicle m g al /\
              nth_error cur m = at2 (s_sim s') m (a + j) /\ touches f0 (g (a + j)%nat) (t + INR e)).
    { intros m e (_ & N1 & pi & pj & fi & fj & Epi & Epj & _ & Vj & Fi & Fj & Tc).
      assert (Hm : (m < n)%nat) by (apply nth_error_Some_lt in Epj; lia).
      pose proof Epj as Epj'. rewrite (Ecur m Hm) in Epj'.
      destruct (t_other_frames m j pj N1 Hm ltac:(lia) Epj' Vj) as (g & G & D).
      assert (pi = q) as -> by congruence. rewrite (is_frame_inj _ _ _ Fi Fq) in Tc.
      rewrite (is_frame_inj _ _ _ Fj G) in Tc.
      replace (10 * INR e / INR 10) with (INR e) in Tc by (simpl INR; field).
      change (touches f (g (a + j)%nat) (INR e)) in Tc. apply (touches_moved f0 f _ t (INR e) M) in Tc.
      destruct D as [D|(al & D)].
      - destruct (D (t + INR e)); auto. pose proof (pos_INR e). lra.
      - exists g, al. split; [exact D|]. split; [now apply Ecur|exact Tc]. }
    assert (Key : forall m g al, vehicle m g al -> 2 * v' + v <= 20 * (al (a + Datatypes.S j)%nat - t)).
    { intros m g al HB. pose proof (Inv m g al HB) as IA. pose proof HB as (_ & _ & (Con & Mv) & _).
      pose proof (ahead_mono m g al j (Datatypes.S j) HB ltac:(lia)) as Mono.
      set (A := al (a + j)%nat - t) in *.
      destruct (Rle_dec 10 A) as [L|L]; [unfold A in L; lra|].
      destruct (t_present m g al j HB ltac:(lia)) as (Hm & r & Er & Vr & Gr).
      assert (HA : 0 <= A) by lra.
      destruct (archimed A) as [U1 U2]. set (kz := up A) in *.
      assert (Kz : (0 < kz <= 10)%Z).
      { split; [apply lt_IZR; lra|]. assert (kz < 11)%Z; [|lia]. apply lt_IZR. lra. }
      assert (EK : INR (Z.to_nat kz) = IZR kz) by (rewrite INR_IZR_INZ, Z2Nat.id by lia; reflexivity).
      assert (HW : in_the_way cur 10 10 i m (Z.to_nat kz)).
      { split; [lia|]. split; [apply HB|]. exists q, r, f, (g (a + j)%nat).
        split; [exact Eme|]. split; [now rewrite Ecur|]. do 4 (split; [assumption|]).
        replace (10 * INR (Z.to_nat kz) / INR 10) with (IZR kz) by (rewrite EK; simpl INR; field).
        apply (touches_moved f0 f (g (a + j)%nat) t (IZR kz) M).
        destruct (Con (a + j)%nat ltac:(lia)) as [_ C2]. apply C2. unfold A in *. lra. }
      destruct Ld as [(Hn & _)|(k0 & ((j0 & Hj0) & First) & Ed & ((j1 & Hj1 & (r1 & g1 & Er1 & Gr1 & Eu)) & Small))];
        [destruct (Hn m _ HW)|].
      assert (K0 : (k0 <= Z.to_nat kz)%nat).
      { destruct (Nat.le_gt_cases k0 (Z.to_nat kz)); auto. destruct (First (Z.to_nat kz) m); auto. }
      assert (Ed' : d = INR k0) by (rewrite Ed; simpl INR; field).
      assert (Hd : 0 <= d <= A + 1).
      { rewrite Ed'. apply le_INR in K0. rewrite EK in K0. pose proof (pos_INR k0). lra. }
      destruct (Rle_dec u (v + 2 / 10)) as [Lu|Lu].
      - (* not much faster than the object: brake *)
        assert (Bk : 2 * v' + v <= 20 * A); [|unfold A in Bk; lra].
        rewrite Ev'. unfold idm_law. destruct (Req_EM_T d (-1)); [lra|]. cbv zeta.
        apply brake_moving; auto; [|lra|apply rpow_nonneg].
        unfold effective_gap. destruct (Req_EM_T d 0); lra.
      - (* faster: it is out of the way in time *)
        assert (Vu : v' <= u) by lra.
        assert (Own : forall m1 g2 al2, vehicle m1 g2 al2 -> in_the_way cur 10 10 i m1 k0 ->
                  2 * v' + v <= 20 * (al2 (a + Datatypes.S j)%nat - t)).
        { intros m1 g2 al2 HB2 HW2. pose proof HB2 as (_ & _ & (_ & Mv2) & _).
          pose proof (Inv m1 g2 al2 HB2) as IA2.
          destruct (t_present m1 g2 al2 j HB2 ltac:(lia)) as (Hm1 & r2 & Er2 & Vr2 & Gr2).
          assert (u <= rspeed (g2 (a + j)%nat)).
          { apply (Small m1); auto. exists r2, (g2 (a + j)%nat). rewrite (Ecur m1 Hm1). auto. }
          pose proof (Mv2 (a + j)%nat ltac:(lia)) as E2. rewrite Nat.add_succ_r. lra. }
        destruct (Nat.eq_dec k0 (Z.to_nat kz)) as [Ek|Nk]; [rewrite Ek in *; eauto|].
        (* another vehicle is hit first; it stays in front of this one *)
        destruct (Veh j1 k0 Hj1) as (g2 & al2 & HB2 & _ & Tc).
        pose proof (Own j1 g2 al2 HB2 Hj1) as O2.
        assert (Lt : al2 (a + j)%nat < al (a + j)%nat).
        { pose proof HB2 as (_ & _ & (Con2 & _) & _). destruct (Con2 (a + j)%nat ltac:(lia)) as [C1 _].
          assert (al2 (a + j)%nat < t + INR k0).
          { apply Rnot_le_lt. intros Hle. apply (C1 (t + INR k0)); auto. pose proof (pos_INR k0). lra. }
          assert (Lk : (Datatypes.S k0 <= Z.to_nat kz)%nat) by lia. apply le_INR in Lk. rewrite S_INR, EK in Lk.
          unfold A in *. lra. }
        destruct (Order j1 g2 al2 m g al HB2 HB) as [O|O].
        + pose proof (O (a + Datatypes.S j)%nat ltac:(lia)). lra.
        + pose proof (O (a + j)%nat ltac:(lia)). lra. }
    exists q', f', (t + (v' + v) / 20). do 4 (split; [assumption|]).
    assert (Tt : t + (v' + v) / 20 <= 66 / 10 * INR (Datatypes.S j)) by (rewrite S_INR; lra).
    assert (Rf : rspeed f' = v').
    { apply NE. eapply covered_not_end; eauto. split; [lra|].
      destruct Far as [Fa|(m & g & al & HB & Le)].
      - assert (Lj : (Datatypes.S j <= k)%nat) by lia. apply le_INR in Lj. lra.
      - pose proof (Key m g al HB). pose proof (ahead_mono m g al (Datatypes.S j) k HB ltac:(lia)). lra. }
    split; [lra|]. rewrite Rf. split; [exact Hcap|]. intros m g al HB. specialize (Key m g al HB). lra.
  Qed.

  Lemma t_episode j : (j <= k)%nat ->
    exists q f t, at2 (s_sim s') i (a + j) = Some q /\ p_valid q = true /\
      is_frame q f /\ moved f0 f t /\ 0 <= t <= 66 / 10 * INR j /\ rspeed f <= 66 /\
      (forall m g al, vehicle m g al -> rspeed f <= 20 * (al (a + j)%nat - t)).
  Proof.
    induction j as [|j IH]; intros Hj.
    - exists p0, f0, 0. rewrite Nat.add_0_r. unfold a. rewrite (sim_start n T _ _ _ _ _ _ W Run HI HL i Hi).
      do 3 (split; [assumption|]). split. { repeat split. unfold ahead. f_equal; ring. }
      split; [simpl; lra|]. split; [exact Hfast|]. intros m g al (_ & _ & _ & HB). fold a. lra.
    - destruct (IH ltac:(lia)) as (q & f & t & Eq & V & Fq & M & Ht & Hv & Inv).
      destruct (t_step j q f t ltac:(lia) Eq V Fq M Ht Hv Inv) as (q' & f' & t' & A1 & A2 & A3 & A4 & A5 & A6 & A7).
      exists q', f', t'. do 4 (split; [assumption|]). split; [lra|]. auto.
  Qed.

  Lemma t_all j m q r f : (j <= k)%nat -> m <> i ->
    at2 (s_sim s') i (a + j) = Some q -> is_frame q f ->
    at2 (s_sim s') m (a + j) = Some r -> p_valid r = true ->
    exists g, is_frame r g /\ ~ touches f g 0.
  Proof.
    intros Hj Nm Eq Fq Er Vr.
    destruct (t_episode j Hj) as (q1 & f1 & t & Eq1 & _ & Fq1 & M & Ht & _ & Inv).
    assert (q1 = q) as -> by congruence. rewrite (is_frame_inj _ _ _ Fq Fq1) in *. clear f Fq.
    assert (Hm : (m < n)%nat).
    { destruct (run_policy_episode _ _ _ _ _ _ Run) as (acts & La & HE).
      destruct (episode_basic _ _ _ _ _ _ _ W HE ltac:(lia)) as (((L & _) & _) & _).
      unfold at2 in Er. destruct (nth_error (s_sim s') m) eqn:E; [|discriminate]. apply nth_error_Some_lt in E. lia. }
    destruct (t_other_frames m j r Nm Hm Hj Er Vr) as (g & G1 & D).
    exists (g (a + j)%nat). split; [exact G1|]. rewrite (touches_moved f0 f1 _ t 0 M), Rplus_0_r.
    destruct D as [D|(al & HB)]; [apply D; lra|]. pose proof HB as (_ & _ & (Con & _) & _).
    apply (Con (a + j)%nat ltac:(lia)).
    specialize (Inv _ _ _ HB). pose proof (rspeed_nonneg f1). lra.
  Qed.
End Traffic.
