(** Frozen and constant-speed agents (C44); initial overlaps over the reals (C33). *)
From Coq Require Import String.
From Coq Require Import Reals ZArith List Lia Lra Bool.
From Verif.Lib Require Import Base JaxIndex Scalar XR.
From Verif.Model Require Import Operations State Dynamics BaseEnv Dyn_State Geometry
  Discretizer Comfort Metrics Expert Actor PlanningEnv.
From Verif.Spec Require Import StateSpec GeomSpec DynSpec PlanSpec AgentSpec ValidSpec.
From Verif.Proofs Require Import Core Episode P_Step P_Actions P_Expert P_Overlap P_Actor P_Plan P_PlanRun.
Import ListNotations.

Section Frozen.
  Context {S : Scalar} {P X K : Type}.
  Variable split : K -> nat -> nat -> K.
  Open Scope nat_scope.

  (** One frozen agent driving the other objects: every driven object keeps its
      pose and velocity from the end of warm-up on. *)
  Lemma frozen_episode n T (e : penv P X K) s rng acts ps' none i (j : nat) p0 :
    length (pe_params e) = length (pe_agents e) ->
    pe_agents e = [sim_agent none control_non_sdc frozen_update] ->
    wf_scenario n T s -> 1 <= c_init_steps (pe_cfg e) ->
    c_init_steps (pe_cfg e) + length acts <= T -> j < length acts ->
    run_planning split e s rng acts = Ok ps' -> i < n ->
    ~ starts_overlapping s i -> ~ is_sdc s i ->
    at2 (s_log s) i (c_init_steps (pe_cfg e) - 1) = Some p0 ->
    exists p, at2 (s_sim (ps_state ps')) i (c_init_steps (pe_cfg e) + j) = Some p /\
      same_pose p p0.
  Proof.
    intros Lp Ea W Hi Hl Hj H Hin NO NS E0.
    set (h := c_init_steps (pe_cfg e)) in *.
    assert (G : forall k, k <= length acts ->
      forall psk, run_planning split e s rng (firstn k acts) = Ok psk ->
      exists p, at2 (s_sim (ps_state psk)) i (h + k - 1) = Some p /\ same_pose p p0).
    { induction k as [|k IH]; intros Hk psk Hr.
      - destruct (planning_basic split n T e s rng (firstn 0 acts) psk Lp W Hi) as (_ & _ & _ & Fr);
          auto; [simpl; lia|].
        exists p0. rewrite Fr by (fold h; lia). fold h. replace (h + 0 - 1) with (h - 1) by lia.
        split; auto. unfold same_pose; auto 10.
      - assert (Lf : length (firstn (Datatypes.S k) acts) = Datatypes.S k)
          by (apply firstn_length_le; lia).
        destruct (planning_split split n T e s rng (firstn (Datatypes.S k) acts) psk k Lp W Hi)
          as (ps1 & ps2 & a & key & R1 & _ & St & R2 & Fr & _); auto; try (rewrite Lf; fold h; lia).
        rewrite firstn_firstn in R1. replace (Nat.min k (Datatypes.S k)) with k in R1 by lia.
        rewrite firstn_firstn in R2. rewrite Nat.min_id in R2.
        assert (ps2 = psk) as -> by congruence.
        destruct (IH ltac:(lia) ps1 R1) as (p1 & Ep1 & SP1).
        assert (Lf1 : length (firstn k acts) = k) by (apply firstn_length_le; lia).
        destruct (planning_basic split n T e s rng (firstn k acts) ps1 Lp W Hi)
          as (SC & W1 & E1 & _); auto; [fold h; lia|].
        rewrite Lf1 in E1. fold h in E1.
        destruct (planning_step split n T e ps1 a key psk (h + k - 1) Lp W1)
          as (_ & _ & _ & _ & outs & cur & us & AO & _ & Lc & _ & Hc & _ & Sp); auto; try lia.
        replace (h + k - 1 + 1) with (h + k) in Sp by lia.
        destruct (Sp i Hin) as (p & c & l & Ep & Ec & El & Cl & _).
        destruct AO as [Lo AO]. rewrite Ea in Lo, AO. simpl in Lo.
        destruct outs as [|o [|? ?]]; try discriminate.
        destruct (AO 0 _ eq_refl) as (x & pp & o' & _ & _ & Eo & Sel).
        simpl in Eo. injection Eo as <-.
        apply frozen_output in Sel as (cur' & Hcur & Ectrl & Eact).
        destruct (Cl o) as (b & Eb & Pose).
        { exists [], []. split; auto. split; [|intros ? []].
          unfold claims. rewrite Ectrl. unfold control_non_sdc. rewrite nth_error_map.
          destruct W1 as (_ & _ & Lm & _).
          destruct (nth_error_lt_Some (s_meta (ps_state ps1)) i) as [m Em]; [lia|].
          rewrite Em. cbn [option_map]. f_equal. destruct (m_is_sdc m) eqn:Sd; auto.
          exfalso. apply NS. apply (is_sdc_same s (ps_state ps1) i SC). exists m; auto. }
        { intros SO. apply NO. apply (starts_same s (ps_state ps1) i SC). exact SO. }
        rewrite Eact, nth_error_map in Eb.
        assert (Ecur : nth_error cur' i = Some p1).
        { destruct W1 as (R & _ & _ & _ & HT1).
          unfold current_sim in Hcur. eapply dynamic_index_Ok in Hcur as [_ Hcu]; [|eauto].
          rewrite Hcu by auto. rewrite E1.
          replace (Z.of_nat (h + k) - 1)%Z with (Z.of_nat (h + k - 1)) by lia.
          rewrite norm_nat by lia. exact Ep1. }
        rewrite Ecur in Eb. cbn [option_map] in Eb. injection Eb as <-.
        destruct Pose as [rest Pose]. simpl in Pose. injection Pose as Q1 Q2 Q3 Q4 Q5 _.
        exists p. replace (h + Datatypes.S k - 1) with (h + k) by lia. split; auto.
        destruct SP1 as (A1 & A2 & A3 & A4 & A5).
        unfold same_pose. rewrite <- Q1, <- Q2, <- Q3, <- Q4, <- Q5. auto. }
    destruct (planning_split split n T e s rng acts ps' j Lp W Hi Hl Hj H)
      as (ps1 & ps2 & a & key & _ & _ & _ & R2 & Fr & _).
    destruct (G (Datatypes.S j) ltac:(lia) ps2 R2) as (p & Ep & SP).
    exists p. rewrite Fr by (fold h; lia). fold h.
    replace (h + Datatypes.S j - 1) with (h + j) in Ep by lia. auto.
  Qed.
End Frozen.

Section ConstSpeed.
  Context {S : Scalar} {P X K : Type}.
  Open Scope nat_scope.

  Lemma constant_speed_actions n T (d : dynamics) none ctrl speed (p : P) (x : X) (k : option K) s a (t : nat) :
    wf_state n T s -> s_t s = Z.of_nat t -> t < T ->
    actor_policy (constant_speed_actor none StateDynamics ctrl speed) p x k s = Ok a ->
    forall i q, i < n -> at2 (s_sim s) i t = Some q ->
      exists b, nth_error a i =
        Some (let q' := constant_speed_next speed b q in
              mkact [p_x q'; p_y q'; p_yaw q'; p_vx q'; p_vy q'] (p_valid q')).
  Proof.
    intros (R1 & R2 & Lm & Hn & HT) Et Ht H i q Hi Eq.
    unfold actor_policy in H. simpl in H. apply bind_Ok in H as (o & Ho & H).
    assert (a = o_action o) as -> by congruence. clear H.
    apply bind_Ok in Ho as (t0 & H0 & Ho). apply bind_Ok in Ho as (u & G & Ho).
    apply guard_Ok, Nat.eqb_eq in G. apply bind_Ok in Ho as (acts & Ha & Ho).
    assert (o = mkout none acts (ctrl s)) as -> by congruence. cbn [o_action].
    eapply dynamic_index_Ok in H0 as [L0 H0]; [|eauto].
    rewrite Et, norm_nat in H0 by auto.
    set (two := map2 _ _ _) in Ha.
    assert (Rt : rect n 2 two).
    { split.
      - unfold two. rewrite map2_length. lia.
      - intros r Hr. apply In_nth_error in Hr as (m & Hm). unfold two in Hm.
        rewrite nth_error_map2 in Hm.
        destruct (nth_error (ctrl s) m), (nth_error t0 m); try discriminate.
        injection Hm as <-. reflexivity. }
    destruct (state_inverse_Ok n 2 two (s_meta s) 0 Rt ltac:(lia)) as (acts' & Ea & _ & Aa).
    assert (acts' = acts) as -> by (simpl in Ea; congruence).
    destruct (nth_error_lt_Some (ctrl s) i) as [b Eb]; [lia|].
    exists b. apply Aa; auto. unfold at2, two. rewrite nth_error_map2, Eb, H0, Eq by auto.
    reflexivity.
  Qed.

  Lemma constant_speed_runs n T c none ctrl speed (p : P) (x : X) (k : option K) s m :
    wf_scenario n T s -> c_max_num_objects c = n -> c_controlled c <> NON_SDC ->
    (forall st, length (s_meta st) = n -> length (ctrl st) = n) ->
    1 <= c_init_steps c -> c_init_steps c + m <= T ->
    exists s', run_policy StateDynamics c
      (actor_policy (constant_speed_actor none StateDynamics ctrl speed) p x k) s m = Ok s'.
  Proof.
    intros W HM HC Lct HI. induction m as [|m IH]; intros HL.
    - destruct W as (R & Lm & Hn & HT).
      destruct (env_reset_total n T c s) as [s' H]; auto; [lia|].
      exists s'. now apply run_policy_0.
    - destruct IH as [s1 H1]; [lia|].
      destruct (run_policy_episode _ _ _ _ _ _ H1) as (acts & La & HE).
      destruct (episode_basic _ _ _ _ _ _ _ W HE ltac:(lia)) as (W1 & SC & _ & Et & _).
      pose proof W1 as (R1 & _ & Lm1 & _ & HT1).
      destruct (dynamic_index_total n T (s_sim s1) (s_t s1) R1 HT1) as [t0 Ht0].
      destruct (dynamic_index_Ok n T (s_sim s1) (s_t s1) t0 R1 Ht0) as [L0 _].
      set (two := map2 (fun (b : bool) q => [q; constant_speed_next speed b q]) (ctrl s1) t0).
      assert (Lc : length (ctrl s1) = length t0) by (rewrite L0; apply Lct; exact Lm1).
      assert (Rt : rect n 2 two).
      { split.
        - unfold two. rewrite map2_length. lia.
        - intros r Hr. apply In_nth_error in Hr as (j & Hj). unfold two in Hj.
          rewrite nth_error_map2 in Hj.
          destruct (nth_error (ctrl s1) j), (nth_error t0 j); try discriminate.
          injection Hj as <-. reflexivity. }
      destruct (state_inverse_Ok n 2 two (s_meta s1) 0 Rt ltac:(lia)) as (a & Ea & Lac & Aac).
      assert (Ea' : actor_policy (constant_speed_actor none StateDynamics ctrl speed) p x k s1 = Ok a).
      { unfold actor_policy. cbn [constant_speed_actor ac_select]. rewrite Ht0. cbn [bind].
        rewrite Lc, Nat.eqb_refl. cbn [guard bind]. fold two. simpl in Ea.
        change (d_inverse StateDynamics) with state_inverse. rewrite Ea. reflexivity. }
      destruct (env_step_total n T StateDynamics c s1 a _ W1 HC state_total) as [s' Hs]; auto.
      + apply Forall_forall. intros y Hy. apply In_nth_error in Hy as [i Hi].
        assert (Li : i < n) by (rewrite <- Lac; eapply nth_error_Some_lt; eauto).
        destruct (rect_at2 n 2 two i 1 Rt Li) as [q Eq]; [lia|].
        rewrite (Aac i q Li Eq) in Hi. injection Hi as <-. simpl. lia.
      + exists s'. apply run_policy_snoc. eauto.
  Qed.
End ConstSpeed.

Section Outputs.
  Context {S : Scalar} {P X K : Type}.
  Open Scope nat_scope.

  (** Every built-in actor claims exactly the objects its control function names. *)
  Lemma builtin_claims none d ctrl speed upd (ag : actor P X K) :
    ag = expert_actor none d ctrl \/ ag = constant_speed_actor none d ctrl speed \/
    ag = sim_agent none ctrl upd ->
    forall p s x k o, ac_select ag p s x k = Ok o ->
    forall i, claims o i <-> nth_error (ctrl s) i = Some true.
  Proof.
    intros D p s x k o H i. unfold claims.
    assert (E : o_controlled o = ctrl s).
    { destruct D as [->|[->| ->]]; simpl in H.
      - apply bind_Ok in H as (a & _ & H). assert (o = mkout none a (ctrl s)) by congruence. now subst o.
      - apply bind_Ok in H as (t0 & _ & H). apply bind_Ok in H as (u & _ & H).
        apply bind_Ok in H as (a & _ & H). assert (o = mkout none a (ctrl s)) by congruence. now subst o.
      - apply bind_Ok in H as (us & _ & H).
        assert (o = mkout none (map as_action us) (ctrl s)) by congruence. now subst o. }
    now rewrite E.
  Qed.

  (** The constant-speed actor's action is valid exactly for claimed objects with a
      valid current frame. *)
  Lemma constant_speed_valid n T (d : dynamics) v none ctrl speed (p : P) (x : X) (k : option K) s o (t : nat) :
    inverse_valid v d ->
    (forall p0 p1, v p0 p1 = p_valid p1 \/ v p0 p1 = p_valid p0 && p_valid p1) ->
    wf_state n T s -> s_t s = Z.of_nat t -> t < T ->
    ac_select (constant_speed_actor none d ctrl speed) p s x k = Ok o ->
    length (o_action o) = n /\
    forall i c, i < n -> at2 (s_sim s) i t = Some c ->
      exists a, nth_error (o_action o) i = Some a /\
        (a_valid a = true <-> claims o i /\ p_valid c = true).
  Proof.
    intros IV Hv (R1 & R2 & Lm & Hn & HT) Et Ht Ho.
    cbn [constant_speed_actor ac_select] in Ho.
    apply bind_Ok in Ho as (t0 & H0 & Ho). apply bind_Ok in Ho as (u & G & Ho).
    apply guard_Ok, Nat.eqb_eq in G. apply bind_Ok in Ho as (acts & Ha & Ho).
    assert (o = mkout none acts (ctrl s)) as -> by congruence. unfold claims. cbn [o_action o_controlled].
    eapply dynamic_index_Ok in H0 as [L0 H0]; [|eauto].
    rewrite Et, norm_nat in H0 by auto.
    set (two := map2 _ _ _) in Ha.
    assert (Rt : rect n 2 two).
    { split.
      - unfold two. rewrite map2_length. lia.
      - intros r Hr. apply In_nth_error in Hr as (m & Hm). unfold two in Hm.
        rewrite nth_error_map2 in Hm.
        destruct (nth_error (ctrl s) m), (nth_error t0 m); try discriminate.
        injection Hm as <-. reflexivity. }
    destruct (IV n 2 two (s_meta s) 0 Rt ltac:(lia)) as (acts' & Ea & La & Aa).
    assert (acts' = acts) as -> by (simpl in Ea; congruence).
    split; auto. intros i c Hi Ec.
    destruct (nth_error_lt_Some (ctrl s) i) as [b Eb]; [lia|].
    destruct (Aa i c (constant_speed_next speed b c) Hi) as (a & Ena & Va).
    - unfold at2, two. now rewrite nth_error_map2, Eb, H0, Ec by auto.
    - unfold at2, two. now rewrite nth_error_map2, Eb, H0, Ec by auto.
    - exists a. split; auto. rewrite Va, Eb.
      assert (Pv : p_valid (constant_speed_next speed b c) = b && p_valid c) by reflexivity.
      destruct (Hv c (constant_speed_next speed b c)) as [-> | ->]; rewrite Pv;
        destruct b, (p_valid c); simpl; intuition congruence.
  Qed.

  (** FrozenSimPolicy repeats the current frame, valid exactly if that is. *)
  Lemma frozen_valid n T none ctrl (p : P) (x : X) (k : option K) s o (t : nat) :
    wf_state n T s -> s_t s = Z.of_nat t -> t < T ->
    ac_select (sim_agent none ctrl frozen_update) p s x k = Ok o ->
    length (o_action o) = n /\
    forall i c, i < n -> at2 (s_sim s) i t = Some c ->
      exists a, nth_error (o_action o) i = Some a /\ a_valid a = p_valid c /\
        a_data a = [p_x c; p_y c; p_yaw c; p_vx c; p_vy c].
  Proof.
    intros (R1 & R2 & Lm & Hn & HT) Et Ht Ho.
    cbn [sim_agent ac_select] in Ho.
    apply bind_Ok in Ho as (us & Hu & Ho).
    assert (o = mkout none (map as_action us) (ctrl s)) as -> by congruence. cbn [o_action].
    unfold frozen_update in Hu. apply bind_Ok in Hu as (cur & Hc & Hu).
    match type of Hu with Ok ?l = _ => assert (us = l) as -> by congruence end.
    unfold current_sim in Hc. eapply dynamic_index_Ok in Hc as [L0 H0]; [|eauto].
    rewrite Et, norm_nat in H0 by auto.
    split; [now rewrite !map_length|].
    intros i c Hi Ec. rewrite !nth_error_map, H0, Ec by auto. cbn [option_map].
    eexists. split; [reflexivity|]. split; reflexivity.
  Qed.
End Outputs.

Open Scope R_scope.

Lemma time_interval_Fin : time_interval (S := XR) = Fin (1 / 10).
Proof. unfold time_interval. rewrite flit_Fin. f_equal; lra. Qed.

Lemma constant_speed_episode {P X K} n T c none ctrl speed (p : P) (x : X) (key : option K)
  (s s' : state (S := XR)) k i p0 k0 :
  wf_scenario n T s ->
  run_policy StateDynamics c
    (actor_policy (constant_speed_actor none StateDynamics ctrl (option_map Fin speed)) p x key)
    s k = Ok s' ->
  (1 <= c_init_steps c)%nat -> (c_init_steps c + k <= T)%nat -> (i < n)%nat ->
  in_control c s i ->
  at2 (s_log s) i (c_init_steps c - 1) = Some p0 -> has_kin p0 k0 ->
  forall j, (j < k)%nat ->
  exists q, at2 (s_sim s') i (c_init_steps c + j) = Some q /\
    has_kin q (mkkin (kx k0 + INR (j + 1) * (fst (kept_velocity speed k0) * (1 / 10)))
                     (ky k0 + INR (j + 1) * (snd (kept_velocity speed k0) * (1 / 10)))
                     (kyaw k0) (fst (kept_velocity speed k0)) (snd (kept_velocity speed k0))).
Proof.
  intros W H HI HL Hi IC E0 K0.
  set (pol := actor_policy _ _ _ _) in H.
  induction j as [j IH] using lt_wf_ind. intros Hj.
  destruct (policy_frames n T _ _ _ _ _ _ W H HI HL j Hj)
    as (s1 & a & cur & us & R1 & W1 & SC & Et & Ha & La & Lc & Lu & Hu & Fr).
  destruct (Fr i Hi) as (Ecur & Past & u & q & nxt & ctl & Eu & Eq & En & Ic & Enew).
  assert (ctl = true) as -> by now apply Ic.
  assert (Est : at2 (s_sim s1) i (c_init_steps c + j - 1) = Some q) by congruence.
  destruct (constant_speed_actions n T StateDynamics none ctrl (option_map Fin speed) p x key s1 a
              (c_init_steps c + j - 1) W1 Et ltac:(lia) Ha i q Hi Est) as (b & Eai).
  destruct (per_object_Ok _ _ _ _ Hu) as (_ & _ & PO).
  destruct (PO i _ _ Eai Eq) as (u' & Eu' & Eun).
  assert (u' = u) as -> by congruence.
  unfold state_update in Eu'. cbn [a_data a_valid] in Eu'.
  assert (u = mkupd (p_x (constant_speed_next (option_map Fin speed) b q))
                    (p_y (constant_speed_next (option_map Fin speed) b q))
                    (p_yaw (constant_speed_next (option_map Fin speed) b q))
                    (p_vx (constant_speed_next (option_map Fin speed) b q))
                    (p_vy (constant_speed_next (option_map Fin speed) b q))
                    (p_valid (constant_speed_next (option_map Fin speed) b q))) as -> by congruence.
  clear Eu'.
  (* the frame before the step *)
  assert (Q : p_x q = Fin (kx k0 + INR j * (fst (kept_velocity speed k0) * (1 / 10))) /\
              p_y q = Fin (ky k0 + INR j * (snd (kept_velocity speed k0) * (1 / 10))) /\
              p_yaw q = Fin (kyaw k0) /\
              (speed = None -> p_vx q = Fin (kvx k0) /\ p_vy q = Fin (kvy k0))).
  { destruct j as [|j].
    - destruct (run_policy_episode _ _ _ _ _ _ H) as (acts & Lacts & HE).
      destruct (episode_basic _ _ _ _ _ _ _ W HE ltac:(lia)) as (_ & _ & _ & _ & F & _).
      rewrite <- Past in Est by lia. replace (c_init_steps c + 0 - 1)%nat with (c_init_steps c - 1)%nat in Est by lia.
      rewrite F in Est by lia. assert (q = p0) as -> by congruence.
      destruct K0 as (A1 & A2 & A3 & A4 & A5). simpl INR.
      rewrite A1, A2, A3, A4, A5, !Rmult_0_l, !Rplus_0_r. auto.
    - destruct (IH j) as (q' & Eq' & KQ); [lia|lia|].
      rewrite <- Past in Est by lia.
      replace (c_init_steps c + Datatypes.S j - 1)%nat with (c_init_steps c + j)%nat in Est by lia.
      assert (q' = q) as -> by congruence.
      destruct KQ as (A1 & A2 & A3 & A4 & A5). cbn [kx ky kyaw kvx kvy] in *.
      replace (Datatypes.S j) with (j + 1)%nat by lia. rewrite A1, A2, A3, A4, A5.
      split; [reflexivity|]. split; [reflexivity|]. split; [reflexivity|]. intros ->; split; reflexivity. }
  destruct Q as (Q1 & Q2 & Q3 & Q4).
  eexists. split; [exact Enew|].
  unfold has_kin, next_pt. cbn [p_x p_y p_yaw p_vx p_vy u_x u_y u_yaw u_vx u_vy kx ky kyaw kvx kvy].
  unfold constant_speed_next. cbn [p_x p_y p_yaw p_vx p_vy].
  rewrite time_interval_Fin, Q1, Q2, Q3, plus_INR. simpl (INR 1).
  destruct speed as [v|]; cbn [option_map kept_velocity fst snd].
  - xr. repeat split; f_equal; lra.
  - destruct Q4 as [-> ->]; auto. xr. repeat split; f_equal; lra.
Qed.

(** Initial overlap in terms of real boxes. *)
Lemma starts_overlapping_real (s : state (S := XR)) i j p q a b :
  at2 (s_log s) i 0 = Some p -> pt_box p = fbox a ->
  at2 (s_log s) j 0 = Some q -> pt_box q = fbox b -> j <> i ->
  (exists x, interior a x /\ interior b x) -> starts_overlapping s i.
Proof.
  intros Ep Ea Eq Eb N I. exists j, p, q. rewrite Ea, Eb. repeat split; auto.
  now apply overlap_exact.
Qed.

Lemma not_starts_overlapping_real (s : state (S := XR)) i a :
  (exists p, at2 (s_log s) i 0 = Some p /\ pt_box p = fbox a) ->
  (forall j q, j <> i -> at2 (s_log s) j 0 = Some q ->
     exists b, pt_box q = fbox b /\ ~ exists x, interior a x /\ interior b x) ->
  ~ starts_overlapping s i.
Proof.
  intros (p & Ep & Ea) Sep (j & p' & q & N & Ep' & Eq & O).
  assert (p' = p) as -> by congruence.
  destruct (Sep j q N Eq) as (b & Eb & No). rewrite Ea, Eb in O. apply No. now apply overlap_exact.
Qed.

(** Two entries filled with the "invalid" value -1 overlap. *)
Lemma fill_box : pt_box (invalid_pt (S := XR)) = fbox (mkrbox (-1) (-1) (-1) (-1) (-1)).
Proof.
  assert (E : fm1 (S := XR) = Fin (-1)) by (unfold fm1; rewrite flit_Fin; f_equal; lra).
  unfold pt_box, invalid_pt, fbox. cbn [p_x p_y p_len p_wid p_yaw rx ry rlen rwid ryaw].
  rewrite E. reflexivity.
Qed.

Lemma fill_overlaps (s : state (S := XR)) i j :
  at2 (s_log s) i 0 = Some invalid_pt -> at2 (s_log s) j 0 = Some invalid_pt -> j <> i ->
  starts_overlapping s i.
Proof.
  intros Ei Ej N. exists j, invalid_pt, invalid_pt. repeat split; auto.
  rewrite fill_box. apply overlap_self; cbn [rlen rwid]; lra.
Qed.
