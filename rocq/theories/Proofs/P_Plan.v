(** The planning-agent environment (C32, C33). *)
From Coq Require Import String.
From Coq Require Import List ZArith Lia Bool.
From Verif.Lib Require Import Base JaxIndex Scalar.
From Verif.Model Require Import Operations State Dynamics BaseEnv Dyn_State Geometry
  Discretizer Comfort Metrics Actor PlanningEnv.
From Verif.Spec Require Import StateSpec PlanSpec.
From Verif.Proofs Require Import Core Episode P_Step P_Actor.
Import ListNotations.
Open Scope nat_scope.

Section Plan.
  Context {S : Scalar} {P X K : Type}.
  Variable split : K -> nat -> nat -> K.

  Lemma make_penv_spec reg (e0 e : penv P X K) :
    make_penv reg e0 = Ok e ->
    e0 = e /\ c_controlled (pe_cfg e) = SDC /\ length (pe_params e) = length (pe_agents e).
  Proof.
    unfold make_penv. intros H.
    apply bind_Ok in H as (u1 & _ & H).
    apply bind_Ok in H as (u2 & G2 & H). apply guard_Ok in G2.
    apply bind_Ok in H as (u3 & G3 & H). apply guard_Ok, Nat.eqb_eq in G3.
    injection H as ->. split; auto. split; auto.
    destruct (c_controlled (pe_cfg e)); try discriminate; auto.
  Qed.

  Lemma split_keys_length rng n : length (split_keys split rng n) = n.
  Proof.
    destruct rng; simpl; [now rewrite map_length, seq_length | apply repeat_length].
  Qed.

  Lemma combine_as_map2 {A B} (x : list A) (y : list B) : combine x y = map2 pair x y.
  Proof. revert y. induction x; intros [|b y]; simpl; auto. now rewrite IHx. Qed.

  Lemma split_keys_nth rng n i : i < n ->
    nth_error (split_keys split rng n) i = Some (agent_key split rng n i).
  Proof.
    intros H. destruct rng as [k|]; simpl.
    - rewrite nth_error_map.
      rewrite (nth_error_nth' (seq 0 n) 0) by (rewrite seq_length; lia).
      rewrite seq_nth by lia. reflexivity.
    - now apply nth_error_repeat.
  Qed.

  (** reset: the state is the base environment's reset state, and every agent is
      initialised on it with its own key. *)
  Lemma planning_reset (e : penv P X K) s rng ps :
    penv_reset split e s rng = Ok ps ->
    env_reset (pe_cfg e) s = Ok (ps_state ps) /\
    length (ps_actors ps) = length (pe_agents e) /\
    forall k ag, nth_error (pe_agents e) k = Some ag ->
      exists x, nth_error (ps_actors ps) k = Some x /\
        ac_init ag (agent_key split rng (length (pe_agents e)) k) (ps_state ps) = Ok x.
  Proof.
    unfold penv_reset. intros H. apply bind_Ok in H as (s0 & H0 & H).
    apply bind_Ok in H as (xs & Hx & H).
    assert (ps = mkps s0 xs) as -> by congruence. clear H. cbn [ps_state ps_actors].
    set (m := length (pe_agents e)) in *.
    assert (Lk := split_keys_length rng m).
    split; auto. split.
    { rewrite (mapM_length _ _ _ Hx), combine_length. fold m. lia. }
    intros k ag Ek. assert (k < m) by (eapply nth_error_Some_lt; eauto).
    assert (Ec : nth_error (combine (split_keys split rng m) (pe_agents e)) k
                 = Some (agent_key split rng m k, ag)).
    { rewrite combine_as_map2, nth_error_map2, split_keys_nth, Ek by auto. reflexivity. }
    destruct (mapM_nth _ _ _ _ _ Hx Ec) as (x & Ex & Nx). eauto.
  Qed.

  (** The initial-overlap mask. *)
  Lemma initialized_overlap_spec n T (log : traj) over :
    rect n T log -> 0 < T -> initialized_overlap log = Ok over ->
    length over = n /\
    forall i, i < n ->
      (nth_error over i = Some true \/ nth_error over i = Some false) /\
      (nth_error over i = Some true <->
       exists j p q, j <> i /\ at2 log i 0 = Some p /\ at2 log j 0 = Some q /\
         has_overlap (pt_box p) (pt_box q) = true).
  Proof.
    intros R HT H. unfold initialized_overlap in H.
    apply bind_Ok in H as (first & Hf & H). injection H as <-.
    eapply dynamic_index_Ok in Hf as [Lf Hf]; [|eauto].
    assert (N0 : norm_start 0 T 1 = 0) by (unfold norm_start; simpl; lia).
    rewrite N0 in Hf.
    unfold compute_pairwise_overlaps.
    rewrite map_length, mapi_length, map_length. split; auto.
    intros i Hi. rewrite nth_error_map, nth_error_mapi, nth_error_map.
    destruct (nth_error first i) as [p|] eqn:Ei.
    2:{ apply nth_error_None in Ei. lia. }
    cbn [option_map].
    set (row := mapi _ _). split.
    - destruct (existsb (fun b => b) row); auto.
    - assert (X1 : existsb (fun b => b) row = true <->
        exists j p0 q, j <> i /\ at2 log i 0 = Some p0 /\ at2 log j 0 = Some q /\
         has_overlap (pt_box p0) (pt_box q) = true).
      { rewrite existsb_exists. split.
        - intros (b & Hb & ->). apply In_nth_error in Hb as (j & Hj).
          unfold row in Hj. rewrite nth_error_mapi, nth_error_map in Hj.
          destruct (nth_error first j) as [q|] eqn:Ej; [|discriminate].
          cbn [option_map] in Hj. injection Hj as Hj.
          destruct (i =? j) eqn:Eij; [discriminate|]. apply Nat.eqb_neq in Eij.
          pose proof (nth_error_Some_lt _ _ _ Ej).
          exists j, p, q. rewrite <- !Hf by lia. auto.
        - intros (j & p0 & q & Hj & E1 & E2 & O).
          assert (j < n) by (destruct (at2_Some_lt _ _ _ _ _ _ R E2); auto).
          rewrite <- Hf in E1 by auto. rewrite <- Hf in E2 by auto.
          exists true. split; auto. apply (nth_error_In _ j). unfold row.
          rewrite nth_error_mapi, nth_error_map, E2. cbn [option_map].
          replace (i =? j) with false by (symmetry; apply Nat.eqb_neq; auto).
          congruence. }
      rewrite <- X1. split; [congruence | intros ->; reflexivity].
  Qed.

  Lemma initialized_overlap_total n T (log : traj) :
    rect n T log -> 0 < T -> exists over, initialized_overlap log = Ok over.
  Proof.
    intros R HT. unfold initialized_overlap.
    destruct (dynamic_index_total n T log 0 R HT) as [c ->]. simpl. eauto.
  Qed.

  (** The loop over sim agents. *)
  Lemma merge_sim_spec s n ctrl agents xs params keys action controlled act' c' xs' :
    length ctrl = n -> length action = n -> length controlled = n ->
    length xs = length agents -> length params = length agents ->
    length keys = length agents ->
    merge_sim_agents (P := P) (X := X) (K := K) s ctrl agents xs params keys action controlled
      = Ok (act', c', xs') ->
    exists outs,
      length outs = length agents /\
      (forall k ag, nth_error agents k = Some ag ->
        exists x p key o, nth_error xs k = Some x /\ nth_error params k = Some p /\
          nth_error keys k = Some key /\ nth_error outs k = Some o /\
          ac_select ag p s x key = Ok o) /\
      xs' = map o_state outs /\ length act' = n /\ length c' = n /\
      forall i, i < n ->
        (forall o, last_claim outs i o -> nth_error ctrl i = Some true ->
           nth_error act' i = nth_error (o_action o) i /\ nth_error c' i = Some true) /\
        (unclaimed outs i \/ nth_error ctrl i <> Some true ->
           nth_error act' i = nth_error action i /\
           nth_error c' i = nth_error controlled i).
  Proof.
    revert xs params keys action controlled act' c' xs'.
    induction agents as [|ag agents IH];
      intros [|x xs] [|p params] [|k keys] action controlled act' c' xs' Lc La Lm Lx Lp Lk H;
      simpl in Lx, Lp, Lk; try discriminate.
    - simpl in H. injection H as <- <- <-. exists []. simpl.
      split; auto. split; [intros [|?]; discriminate|].
      split; auto. split; auto. split; auto. intros i Hi. split; auto.
      intros o (b & a & E & _). destruct b; discriminate.
    - simpl in H. apply bind_Ok in H as (o & Ho & H).
      apply bind_Ok in H as (u & G & H). apply guard_Ok, Nat.eqb_eq in G.
      apply bind_Ok in H as (action1 & Hw & H).
      apply bind_Ok in H as (r & Hr & H). destruct r as [[act1 ctrl1] xs1].
      injection H as <- <- <-.
      pose proof (where_dims _ _ _ _ Hw) as [_ Lw].
      apply IH in Hr; auto; try congruence; try lia.
      2:{ rewrite map2_length, map2_length. lia. }
      destruct Hr as (outs & Lo & Ho' & -> & La' & Lc' & Hi).
      exists (o :: outs). simpl. split; [congruence|]. split.
      { intros [|k'] ag' Hk; simpl in *.
        - injection Hk as <-. exists x, p, k, o. auto.
        - apply Ho'; auto. }
      split; auto. split; auto. split; auto.
      intros i Hn. destruct (Hi i Hn) as [I1 I2].
      destruct (where_nth _ _ _ _ i Hw) as [W1 W2].
      destruct (nth_error_lt_Some (o_controlled o) i) as [b Eb]; [lia|].
      destruct (nth_error_lt_Some ctrl i) as [cb Ec]; [lia|].
      destruct (nth_error_lt_Some controlled i) as [mb Em]; [lia|].
      assert (Eby : nth_error (map2 andb (o_controlled o) ctrl) i = Some (b && cb)).
      { rewrite nth_error_map2, Eb, Ec. reflexivity. }
      assert (Eor : nth_error (map2 orb controlled (map2 andb (o_controlled o) ctrl)) i
                    = Some (mb || (b && cb))).
      { rewrite nth_error_map2, Em, Eby. reflexivity. }
      rewrite Eby in W1, W2. rewrite Eor in I2. split.
      + intros o' (bf & af & E & Cl & Af) Hc. rewrite Ec in Hc. injection Hc as ->.
        destruct bf as [|o1 bf]; simpl in E; injection E as -> ->.
        * unfold claims in Cl. rewrite Eb in Cl. injection Cl as ->.
          destruct I2 as [E1 E2]; [left; exact Af|]. rewrite E1, E2.
          split; [apply W1; reflexivity|]. now rewrite orb_true_r.
        * apply I1; auto. exists bf, af. auto.
      + intros D.
        assert (N : b && cb = false).
        { destruct D as [U|N].
          - assert (b <> true).
            { intros ->. apply (U o); [now left|]. exact Eb. }
            destruct b; [congruence|reflexivity].
          - rewrite Ec in N. destruct cb; [congruence|apply andb_false_r]. }
        destruct I2 as [E1 E2].
        { destruct D as [U|N']; auto. left. intros o' Ho1. apply U. now right. }
        rewrite E1, E2, Em, N, orb_false_r. split; auto.
        apply W2. rewrite N. discriminate.
  Qed.

  Lemma state_update_pose a c u :
    state_update a c = Ok u ->
    exists rest, a_data a = u_x u :: u_y u :: u_yaw u :: u_vx u :: u_vy u :: rest.
  Proof.
    unfold state_update. destruct (a_data a) as [|x [|y [|w [|vx [|vy r]]]]]; try discriminate.
    intros [= <-]. simpl. eauto.
  Qed.

  Lemma norm_nat T (t : nat) : t < T -> norm_start (Z.of_nat t) T 1 = t.
  Proof.
    intros H. unfold norm_start.
    replace (Z.of_nat t <? 0)%Z with false by (symmetry; apply Z.ltb_ge; lia). lia.
  Qed.

  (** One step, frame by frame. *)
  Lemma planning_step n T (e : penv P X K) ps a rng ps' (t : nat) :
    length (pe_params e) = length (pe_agents e) ->
    wf_state n T (ps_state ps) -> s_t (ps_state ps) = Z.of_nat t -> t + 1 < T ->
    penv_step split e ps a rng = Ok ps' ->
    same_scenario (ps_state ps) (ps_state ps') /\ wf_state n T (ps_state ps') /\
    s_t (ps_state ps') = Z.of_nat (t + 1) /\
    (forall i k, i < n -> k <> t + 1 ->
       at2 (s_sim (ps_state ps')) i k = at2 (s_sim (ps_state ps)) i k) /\
    exists outs cur us,
      agent_outputs e ps (agent_key split rng (length (pe_agents e))) outs /\
      ps_actors ps' = map o_state outs /\
      length cur = n /\ length us = n /\
      (forall i, i < n -> nth_error cur i = at2 (s_sim (ps_state ps)) i t) /\
      d_update (pe_dyn e) (repeat a n) cur = Ok us /\
      forall i, i < n -> exists p c l,
        at2 (s_sim (ps_state ps')) i (t + 1) = Some p /\
        at2 (s_sim (ps_state ps)) i t = Some c /\
        at2 (s_log (ps_state ps)) i (t + 1) = Some l /\
        (forall o, last_claim outs i o -> ~ starts_overlapping (ps_state ps) i ->
           exists b, nth_error (o_action o) i = Some b /\ pose_of_action b p) /\
        (~ driven (ps_state ps) outs i -> is_sdc (ps_state ps) i ->
           exists u, nth_error us i = Some u /\ pose_of_update u p) /\
        (~ driven (ps_state ps) outs i -> ~ is_sdc (ps_state ps) i -> same_pose p l) /\
        (driven (ps_state ps) outs i \/ is_sdc (ps_state ps) i ->
           p_valid p = p_valid c || (c_allow_new_objects (pe_cfg e) && p_valid l)) /\
        (~ (driven (ps_state ps) outs i \/ is_sdc (ps_state ps) i) ->
           p_valid p = p_valid l && (c_allow_new_objects (pe_cfg e) || p_valid c)) /\
        p_z p = p_z c /\ p_len p = p_len c /\ p_wid p = p_wid c /\ p_hei p = p_hei c /\
        p_ts p = p_ts l.
  Proof.
    intros Lp W Et Ht H. destruct W as (R1 & R2 & Lm & Hn & HT).
    destruct ps as [s xs]. cbn [ps_state ps_actors] in *.
    unfold penv_step in H. cbn [ps_state ps_actors] in H.
    apply bind_Ok in H as (cur & Hc & H). apply bind_Ok in H as (us & Hu & H).
    apply bind_Ok in H as (over & Hov & H).
    apply bind_Ok in H as (u0 & G & H). apply guard_Ok, Nat.eqb_eq in G.
    apply bind_Ok in H as (r & Hr & H). destruct r as [[action controlled] xs'].
    apply bind_Ok in H as (sim' & Hf & H).
    assert (E0 : ps' = mkps (mkstate sim' (s_log s) (s_tls s) (s_meta s) (s_t s + 1)
                   (s_paths s) (s_rg s)) xs') by congruence.
    clear H; subst ps'. cbn [ps_state ps_actors s_sim s_log s_tls s_meta s_t s_paths s_rg].
    destruct (initialized_overlap_spec _ _ _ _ R2 HT Hov) as [Lov Sov].
    unfold current_sim in Hc. eapply dynamic_index_Ok in Hc as [Lc Hc]; [|eauto].
    rewrite Et, norm_nat in Hc by lia.
    destruct (forward_Ok n T _ _ _ _ _ _ _ _ R1 R2 HT Hf)
      as (cur' & us' & La & Lmask & Lc' & Hc' & Hu' & Ha).
    rewrite Et in Hc'. rewrite norm_nat in Hc' by lia.
    assert (cur' = cur) as ->.
    { apply nth_error_ext_eq. intros i. destruct (Nat.lt_ge_cases i n).
      - rewrite Hc', Hc; auto.
      - rewrite !(proj2 (nth_error_None _ i)) by lia. auto. }
    destruct (apply_Ok _ _ _ _ _ _ _ _ _ _ R1 R2 HT Ha)
      as (Lu' & _ & R3 & cur'' & nxt & Lc'' & Ln & Hc'' & Hnx & Hs).
    rewrite Et in Hc'', Hnx, Hs.
    replace (Z.of_nat t + 1)%Z with (Z.of_nat (t + 1)) in Hnx, Hs by lia.
    rewrite norm_nat in Hc'' by lia. rewrite norm_nat in Hnx, Hs by lia.
    assert (cur'' = cur) as ->.
    { apply nth_error_ext_eq. intros i. destruct (Nat.lt_ge_cases i n).
      - rewrite Hc'', Hc; auto.
      - rewrite !(proj2 (nth_error_None _ i)) by lia. auto. }
    unfold planning_update in Hu. rewrite Lc in Hu.
    destruct (Nat.eq_dec (length us) n) as [Lus|NE].
    2:{ exfalso. destruct (pe_agents e) as [|ag ags] eqn:Eag.
        - simpl in Hr. injection Hr as <- <- <-. rewrite map_length in La. congruence.
        - destruct xs as [|x xs]; [discriminate|].
          destruct (pe_params e) as [|p ps]; [discriminate|].
          pose proof (split_keys_length rng (length (ag :: ags))) as Lk.
          destruct (split_keys split rng (length (ag :: ags))) as [|k ks]; [discriminate|].
          simpl in Hr. apply bind_Ok in Hr as (o & Ho & Hr).
          apply bind_Ok in Hr as (u1 & G1 & Hr). apply guard_Ok, Nat.eqb_eq in G1.
          apply bind_Ok in Hr as (a1 & Hw & Hr).
          apply where_Ok in Hw as (L1 & D1 & _). apply Forall2_len in D1.
          rewrite map2_length, map_length in L1. rewrite map_length in D1, G1. lia. }
    assert (Lk := split_keys_length rng (length (pe_agents e))).
    eapply (merge_sim_spec s n) in Hr as (outs & Lo & Ho & -> & La' & Lm' & Hi);
      try rewrite !map_length; try exact Lk; auto; try congruence.
    split; [unfold same_scenario; simpl; auto|].
    split; [unfold wf_state; simpl; auto|].
    split; [rewrite Et; lia|].
    split.
    { intros i k Hin Hk. rewrite Hs by auto.
      replace (k =? t + 1) with false; auto. symmetry; apply Nat.eqb_neq; auto. }
    exists outs, cur, us. split.
    { split; auto. intros k ag Ek.
      destruct (Ho k ag Ek) as (x & p & key & o & Ex & Epp & Ekk & Eo & Sel).
      rewrite split_keys_nth in Ekk by (eapply nth_error_Some_lt; eauto).
      injection Ekk as <-. exists x, p, o. auto. }
    split; auto. split; auto. split; auto. split; auto. split; auto.
    intros i Hin. destruct (Hi i Hin) as [I1 I2]. clear Hi.
    destruct (Sov i Hin) as [Tot Sv]. rewrite nth_error_map in I1, I2.
    destruct (rect_at2 _ _ _ i t R1 Hin) as [c Ec]; [lia|].
    destruct (rect_at2 _ _ _ i (t + 1) R2 Hin) as [l El]; [lia|].
    destruct (nth_error_lt_Some us' i) as [u' Eu']; [lia|].
    destruct (nth_error_lt_Some controlled i) as [b Eb]; [lia|].
    destruct (nth_error_lt_Some action i) as [ai Eai]; [lia|].
    assert (St : state_update ai c = Ok u').
    { pose proof (per_object_Ok _ _ _ _ Hu') as PO.
      destruct PO as (_ & _ & PO).
      destruct (PO i ai c) as (u1 & E1 & E2); auto.
      - rewrite Hc; auto.
      - congruence. }
    destruct (state_update_pose _ _ _ St) as [rest Edata].
    set (p := next_pt (c_allow_new_objects (pe_cfg e)) false u' c l b).
    exists p, c, l.
    assert (Ep : at2 sim' i (t + 1) = Some p).
    { rewrite Hs, Nat.eqb_refl by auto. rewrite nth_error_map4, Eu', Hc, Hnx, Eb, Ec, El by auto.
      reflexivity. }
    assert (Hsdc : forall bm, nth_error (map m_is_sdc (s_meta s)) i = Some bm ->
              (bm = true <-> is_sdc s i)).
    { intros bm Hbm. rewrite nth_error_map in Hbm.
      destruct (nth_error (s_meta s) i) as [m|] eqn:Em; [|discriminate].
      injection Hbm as <-. unfold is_sdc. split.
      - intros Hm. exists m. auto.
      - intros (m' & E1 & E2). rewrite Em in E1. injection E1 as <-. auto. }
    destruct (nth_error_lt_Some (map m_is_sdc (s_meta s)) i) as [bm Ebm];
      [rewrite map_length; lia|].
    specialize (Hsdc _ Ebm). rewrite Ebm in I2.
    assert (Dr : driven s outs i ->
              exists o, last_claim outs i o /\ nth_error action i = nth_error (o_action o) i
                        /\ b = true).
    { intros [(o & Io & Co) NS].
      destruct (claim_cases outs i) as [[o' C']|U]; [|exfalso; eapply U; eauto].
      exists o'. split; auto. destruct (I1 o' C') as [E1 E2].
      { destruct Tot as [To|To]; [|rewrite To; reflexivity].
        exfalso. apply NS. unfold starts_overlapping. apply Sv. exact To. }
      split; congruence. }
    assert (ND : ~ driven s outs i -> nth_error action i = nth_error (map as_action us) i /\ b = bm).
    { intros N. destruct I2 as [E1 E2].
      - destruct (claim_cases outs i) as [[o' C']|U]; [|auto]. right.
        apply last_claim_In in C' as [Io Co].
        destruct Tot as [To|To]; rewrite To; simpl; [discriminate|]. exfalso. apply N. split.
        + exists o'; auto.
        + intros NS. apply Sv in NS. congruence.
      - split; congruence. }
    assert (Bt : b = true <-> driven s outs i \/ is_sdc s i).
    { split.
      - intros ->. destruct (claim_cases outs i) as [[o' C']|U].
        + apply last_claim_In in C' as [Io Co].
          destruct Tot as [To|To].
          * right. apply Hsdc. destruct ND as [_ E]; auto.
            intros [_ NS]. apply NS. apply Sv. auto.
          * left. split; [exists o'; auto|]. intros NS. apply Sv in NS. congruence.
        + right. apply Hsdc. destruct ND as [_ E]; auto.
          intros [(o & Io & Co) _]. eapply U; eauto.
      - intros [D|I].
        + destruct (Dr D) as (_ & _ & _ & E). exact E.
        + destruct (claim_cases outs i) as [[o' C']|U].
          * destruct Tot as [To|To].
            { destruct ND as [_ ->]. { intros [_ NS]. apply NS. apply Sv; auto. }
              apply Hsdc; auto. }
            { destruct (I1 o' C') as [_ E2]; [rewrite To; reflexivity|]. congruence. }
          * destruct ND as [_ ->]; [|apply Hsdc; auto].
            intros [(o & Io & Co) _]. eapply U; eauto. }
    split; auto. split; auto. split; auto.
    split.
    { intros o C NS. pose proof (last_claim_In _ _ _ C) as [Io Co].
      destruct Dr as (o' & C' & _ & E2). { split; auto. exists o; auto. }
      destruct (I1 o C) as [Eo _].
      { destruct Tot as [To|To]; [|rewrite To; reflexivity].
        exfalso. apply NS. apply Sv. exact To. }
      exists ai. split; [congruence|]. exists rest. rewrite Edata.
      unfold p, next_pt. rewrite E2. reflexivity. }
    split.
    { intros N I. destruct (ND N) as [E1 E2].
      assert (Bb : b = true) by (apply Bt; auto).
      rewrite nth_error_map in E1. destruct (nth_error us i) as [u|] eqn:Eu.
      2:{ apply nth_error_None in Eu. lia. }
      cbn [option_map] in E1. exists u. split; auto.
      assert (ai = as_action u) by congruence. subst ai. simpl in Edata.
      injection Edata as F1 F2 F3 F4 F5 _.
      unfold p, next_pt, pose_of_update. rewrite Bb. simpl. auto. }
    split.
    { intros N I. destruct (ND N) as [E1 E2].
      assert (Bb : b = false). { destruct b; auto. exfalso. apply I. apply Hsdc. auto. }
      unfold p, next_pt, same_pose. rewrite Bb. simpl. auto. }
    split.
    { intros D. apply Bt in D. subst b. unfold p, next_pt, next_valid. simpl.
      destruct (c_allow_new_objects (pe_cfg e)), (p_valid c), (p_valid l); reflexivity. }
    split.
    { intros D. assert (Bb : b = false).
      { destruct b; auto. exfalso. apply D. apply Bt. auto. }
      unfold p, next_pt, next_valid. rewrite Bb. simpl.
      destruct (c_allow_new_objects (pe_cfg e)), (p_valid c), (p_valid l); reflexivity. }
    unfold p, next_pt; simpl. auto.
  Qed.
End Plan.
