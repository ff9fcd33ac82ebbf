(** The planning environment does not depend on the order of the objects or on padding
    rows (C69). *)
From Coq Require Import Reals List ZArith Bool Lia.
From Verif.Lib Require Import Base JaxIndex Scalar XR.
From Verif.Model Require Import Operations State Dynamics BaseEnv Geometry Dyn_State Discretizer Comfort Metrics
  Observation Expert Waypoint Actor PlanningEnv.
From Verif.Spec Require Import StateSpec MetricSpec PlanSpec EmbedSpec.
From Verif.Proofs Require Import Core P_Step P_Actions P_Metrics P_Actor P_Plan P_Embed P_EmbedMore.
Import ListNotations.
Local Open Scope nat_scope.

Section Any.
  Context {S : Scalar}.

  (** One call of forward. *)
  Lemma embed_forward n n' T f d s s' a a' m m' inj sim sim' : same_episode n n' T f s s' -> dyn_local d ->
    same_rows n f a a' -> same_rows n f m m' ->
    forward d a (s_sim s) (s_log s) m (s_t s) inj = Ok sim ->
    forward d a' (s_sim s') (s_log s') m' (s_t s') inj = Ok sim' ->
    rect n T sim /\ rect n' T sim' /\ same_table n f sim sim' /\ spares_absent n n' f sim'.
  Proof.
    intros SE (upd1 & DL) SA MR H H'. destruct (episode_wf _ _ _ _ _ _ SE) as [W W'].
    pose proof SE as (SS & R0 & R0' & TS & SPS & ET). pose proof SS as ((L & M & Hn & HT) & (L' & M' & Hn' & _) & (P1 & P2) & TL & SP & _).
    rewrite ET in H'.
    destruct (forward_Ok n T _ _ _ _ _ _ _ _ R0 L HT H) as (cur & us & La & Lm & Lc & Hc & Hu & Ha).
    destruct (forward_Ok n' T _ _ _ _ _ _ _ _ R0' L' HT H') as (cur' & us' & La' & Lm' & Lc' & Hc' & Hu' & Ha').
    destruct (apply_Ok _ _ _ _ _ _ _ _ _ _ R0 L HT Ha) as (Lu & _ & R & c2 & nxt & Lc2 & Ln & Hc2 & Hx & A).
    destruct (apply_Ok _ _ _ _ _ _ _ _ _ _ R0' L' HT Ha') as (Lu' & _ & R' & c2' & nxt' & Lc2' & Ln' & Hc2' & Hx' & A').
    assert (CR : forall i, i < n -> nth_error cur' (f i) = nth_error cur i).
    { intros i Hi. rewrite Hc', Hc by auto. apply TS. auto. }
    assert (C2R : forall i, i < n -> nth_error c2' (f i) = nth_error c2 i).
    { intros i Hi. rewrite Hc2', Hc2 by auto. apply TS. auto. }
    assert (NR : forall i, i < n -> nth_error nxt' (f i) = nth_error nxt i).
    { intros i Hi. rewrite Hx', Hx by auto. apply TL. auto. }
    assert (UR : forall i, i < n -> nth_error us' (f i) = nth_error us i).
    { intros i Hi. destruct (nth_error a i) as [x|] eqn:Ea; [|apply nth_error_None in Ea; lia].
      destruct (nth_error cur i) as [p|] eqn:Ep; [|apply nth_error_None in Ep; lia].
      destruct (DL _ _ _ Hu i x p Ea Ep) as (u & F & Eu).
      destruct (DL _ _ _ Hu' (f i) x p ltac:(rewrite SA; auto) ltac:(rewrite CR; auto)) as (u' & F' & Eu').
      rewrite Eu, Eu'. congruence. }
    split; [auto|]. split; [auto|]. split.
    - intros i k Hi. rewrite A', A by auto. destruct (k =? _); [|apply TS; auto].
      rewrite !nth_error_map4, UR, C2R, NR, MR by auto. reflexivity.
    - intros j t p Hj E. rewrite A' in E by apply Hj. destruct (t =? _); [|eapply SPS; eauto].
      rewrite nth_error_map4 in E. rewrite Hc2', Hx' in E by apply Hj.
      destruct (nth_error us' j) as [u|]; [|discriminate]. destruct (at2 (s_sim s') j _) as [q|] eqn:Eq; [|discriminate].
      destruct (at2 (s_log s') j _) as [l|] eqn:El; [|discriminate]. destruct (nth_error m' j) as [b|]; [|discriminate].
      injection E as <-. cbn [p_valid next_pt]. rewrite (SPS _ _ _ Hj Eq), (SP _ _ _ Hj El).
      unfold next_valid. destruct b, inj; reflexivity.
  Qed.

  (** The overlaps at log step 0. *)
  Lemma embed_initial n n' T f s s' ov ov' : same_scene n n' T f s s' -> starts_clear n n' f s' ->
    initialized_overlap (s_log s) = Ok ov -> initialized_overlap (s_log s') = Ok ov' ->
    length ov = n /\ length ov' = n' /\ same_rows n f ov ov'.
  Proof.
    intros ((L & M & Hn & HT) & (L' & M' & Hn' & _) & (P1 & P2) & TL & _) CL H H'.
    destruct (initialized_overlap_spec n T _ _ L HT H) as [Lo So]. destruct (initialized_overlap_spec n' T _ _ L' HT H') as [Lo' So'].
    split; [auto|]. split; [auto|]. intros i Hi. destruct (So i Hi) as [D B]. destruct (So' (f i) (P1 i Hi)) as [D' B'].
    assert (E : nth_error ov' (f i) = Some true <-> nth_error ov i = Some true).
    { rewrite B, B'. split.
      - intros (j & p & q & Hne & Ep & Eq & Ho). destruct (at2_Some_lt _ _ _ _ _ _ L' Eq) as [Hj _].
        destruct (spare_dec n n' f j Hj) as [(k & Hk & <-)|Hs].
        + rewrite TL in Ep, Eq by auto. exists k, p, q. split; [congruence|auto].
        + rewrite (CL i j p q Hi Hs Ep Eq) in Ho. discriminate.
      - intros (j & p & q & Hne & Ep & Eq & Ho). destruct (at2_Some_lt _ _ _ _ _ _ L Eq) as [Hj _].
        exists (f j), p, q. rewrite !TL by auto. split; [intros X; apply Hne; auto|auto]. }
    destruct D as [D|D], D' as [D'|D']; rewrite D, D' in *; auto; exfalso.
    - destruct E as [_ E]. specialize (E eq_refl). discriminate.
    - destruct E as [E _]. specialize (E eq_refl). discriminate.
  Qed.

  (** The loop over the sim agents. *)
  Lemma embed_merge {P X K} (R : X -> X -> Prop) n n' T f s s' ct ct' : same_episode n n' T f s s' ->
    same_rows n f ct ct' ->
    forall (ags ags' : list (actor P X K)), Forall2 (same_agent R n n' T f) ags ags' ->
    forall xs xs' ps ks ac ac' co co' o o' q q' ys ys', Forall2 R xs xs' -> length xs = length ags ->
      same_rows n f ac ac' -> same_rows n f co co' ->
      merge_sim_agents s ct ags xs ps ks ac co = Ok (o, q, ys) ->
      merge_sim_agents s' ct' ags' xs' ps ks ac' co' = Ok (o', q', ys') ->
      same_rows n f o o' /\ same_rows n f q q' /\ Forall2 R ys ys'.
  Proof.
    intros SE CT ags ags' HA. induction HA as [|ag ag' ags ags' (_ & Hag) HA IH];
      intros xs xs' ps ks ac ac' co co' o o' q q' ys ys' HX LX AR CR H H'.
    - destruct HX; cbn in H, H'; injection H as <- <- <-; injection H' as <- <- <-; auto.
    - destruct HX as [|x x' xs xs' Hx HX]; [discriminate|]. destruct ps as [|p ps].
      { cbn in H, H'. injection H as <- <- <-; injection H' as <- <- <-; auto. }
      destruct ks as [|k ks].
      { cbn in H, H'. injection H as <- <- <-; injection H' as <- <- <-; auto. }
      cbn [merge_sim_agents] in H, H'.
      apply bind_Ok in H as (z & Hz & H). apply bind_Ok in H as (g & G & H). apply bind_Ok in H as (a1 & Ha & H).
      apply bind_Ok in H as ([[o1 q1] y1] & Hm & H). injection H as <- <- <-.
      apply bind_Ok in H' as (z' & Hz' & H'). apply bind_Ok in H' as (g' & G' & H'). apply bind_Ok in H' as (a1' & Ha' & H').
      apply bind_Ok in H' as ([[o1' q1'] y1'] & Hm' & H'). injection H' as <- <- <-.
      destruct (Hag p k s s' x x' z z' SE Hx Hz Hz') as (RX & RA & RC).
      assert (BY : same_rows n f (map2 andb (o_controlled z) ct) (map2 andb (o_controlled z') ct')).
      { intros i Hi. rewrite !nth_error_map2, RC, CT; auto. }
      cbn [length] in LX.
      assert (A1 : same_rows n f a1 a1').
      { intros i Hi. apply where_Ok in Ha as (_ & _ & ->). apply where_Ok in Ha' as (_ & _ & ->).
        rewrite !nth_error_map3, BY, RA, AR; auto. }
      assert (C1 : same_rows n f (map2 orb co (map2 andb (o_controlled z) ct)) (map2 orb co' (map2 andb (o_controlled z') ct'))).
      { intros i Hi. rewrite (nth_error_map2 orb), (nth_error_map2 orb co), BY, CR; auto. }
      destruct (IH xs xs' ps ks a1 a1' _ _ _ _ _ _ _ _ HX ltac:(lia) A1 C1 Hm Hm') as (A & B & C). auto.
  Qed.

  (** One planning step. *)
  Lemma embed_penv_step {P X K} (R : X -> X -> Prop) split n n' T f (e e' : penv P X K) ps ps' a k r r' :
    same_planning R n n' T f e e' -> dyn_local (pe_dyn e) -> starts_clear n n' f (ps_state ps') ->
    same_episode n n' T f (ps_state ps) (ps_state ps') -> Forall2 R (ps_actors ps) (ps_actors ps') ->
    penv_step split e ps a k = Ok r -> penv_step split e' ps' a k = Ok r' ->
    same_episode n n' T f (ps_state r) (ps_state r') /\ Forall2 R (ps_actors r) (ps_actors r') /\
    starts_clear n n' f (ps_state r').
  Proof.
    intros (ED & CC & EP & HA) DL CL SE HX H H'. unfold penv_step in H, H'. rewrite ED, EP in H'.
    apply bind_Ok in H as (cur & Hc & H). apply bind_Ok in H as (us & Hu & H). apply bind_Ok in H as (ov & Ho & H).
    apply bind_Ok in H as (g & G & H). apply guard_Ok, Nat.eqb_eq in G.
    apply bind_Ok in H as ([[ac co] ys] & Hm & H). apply bind_Ok in H as (sim & Hf & H). apply Ok_inj in H. subst r.
    apply bind_Ok in H' as (cur' & Hc' & H'). apply bind_Ok in H' as (us' & Hu' & H'). apply bind_Ok in H' as (ov' & Ho' & H').
    apply bind_Ok in H' as (g' & G' & H'). apply guard_Ok, Nat.eqb_eq in G'.
    apply bind_Ok in H' as ([[ac' co'] ys'] & Hm' & H'). apply bind_Ok in H' as (sim' & Hf' & H'). apply Ok_inj in H'. subst r'.
    cbn [ps_state ps_actors].
    destruct (embed_current _ _ _ _ _ _ _ _ SE Hc Hc') as (Lc & Lc' & CR & _).
    pose proof SE as (SS & _). pose proof SS as (_ & _ & (P1 & P2) & _ & _ & TM & _).
    destruct (embed_initial n n' T f _ _ _ _ SS CL Ho Ho') as (_ & _ & OR).
    assert (NR : same_rows n f (map negb ov) (map negb ov')) by (intros i Hi; rewrite !nth_error_map, OR; auto).
    assert (UR : same_rows n f us us').
    { destruct DL as (upd1 & DL). intros i Hi. unfold planning_update in Hu, Hu'. rewrite Lc in Hu. rewrite Lc' in Hu'.
      destruct (nth_error cur i) as [p|] eqn:Ep; [|apply nth_error_None in Ep; lia].
      destruct (DL _ _ _ Hu i a p) as (u & F & Eu); [now apply nth_error_repeat|auto|].
      destruct (DL _ _ _ Hu' (f i) a p) as (u' & F' & Eu'); [apply nth_error_repeat; auto|rewrite CR; auto|].
      rewrite Eu, Eu'. congruence. }
    assert (LA : length (pe_agents e') = length (pe_agents e)) by (symmetry; eapply Forall2_len; eauto).
    rewrite LA in Hm'.
    destruct (embed_merge R n n' T f _ _ _ _ SE NR _ _ HA _ _ (pe_params e) (split_keys split k (length (pe_agents e)))
      (map as_action us) (map as_action us') (map m_is_sdc (s_meta (ps_state ps))) (map m_is_sdc (s_meta (ps_state ps')))
      ac ac' co co' ys ys' HX (eq_sym G)) as (A & B & C); auto.
    { intros i Hi. rewrite !nth_error_map, UR; auto. }
    { intros i Hi. rewrite !nth_error_map, TM; auto. }
    destruct CC as (_ & _ & _ & _ & CA). rewrite CA in Hf'.
    destruct (embed_forward n n' T f StateDynamics _ _ ac ac' co co' _ sim sim' SE ltac:(apply per_object_local) A B Hf Hf') as (Q & Q' & TQ & SQ).
    split; [|split; [exact C|exact CL]]. split; [exact SS|]. split; [exact Q|]. split; [exact Q'|]. split; [exact TQ|]. split; [exact SQ|].
    cbn [s_t]. destruct SE as (_ & _ & _ & _ & _ & ET). now rewrite ET.
  Qed.

  Lemma embed_penv_steps {P X K} (R : X -> X -> Prop) split n n' T f (e e' : penv P X K) al :
    same_planning R n n' T f e e' -> dyn_local (pe_dyn e) -> forall ps ps' r r', starts_clear n n' f (ps_state ps') ->
    same_episode n n' T f (ps_state ps) (ps_state ps') -> Forall2 R (ps_actors ps) (ps_actors ps') ->
    penv_steps split e ps al = Ok r -> penv_steps split e' ps' al = Ok r' ->
    same_episode n n' T f (ps_state r) (ps_state r') /\ Forall2 R (ps_actors r) (ps_actors r').
  Proof.
    intros SP DL. induction al as [|[a k] al IH]; intros ps ps' r r' CL SE HX H H'; cbn [penv_steps] in H, H'.
    - apply Ok_inj in H, H'. subst r r'. auto.
    - apply bind_Ok in H as (z & Hz & H). apply bind_Ok in H' as (z' & Hz' & H').
      destruct (embed_penv_step R split n n' T f e e' _ _ _ _ _ _ SP DL CL SE HX Hz Hz') as (A & B & C). eapply IH; eauto.
  Qed.

  Lemma embed_penv_reset {P X K} (R : X -> X -> Prop) split n n' T f (e e' : penv P X K) s s' k r r' :
    same_planning R n n' T f e e' -> same_scene n n' T f s s' ->
    penv_reset split e s k = Ok r -> penv_reset split e' s' k = Ok r' ->
    same_episode n n' T f (ps_state r) (ps_state r') /\ Forall2 R (ps_actors r) (ps_actors r') /\
    s_log (ps_state r') = s_log s'.
  Proof.
    intros (ED & CC & EP & HA) SC H H'. unfold penv_reset in H, H'.
    apply bind_Ok in H as (z & Hz & H). apply bind_Ok in H as (xs & Hx & H). apply Ok_inj in H. subst r.
    apply bind_Ok in H' as (z' & Hz' & H'). apply bind_Ok in H' as (xs' & Hx' & H'). apply Ok_inj in H'. subst r'.
    cbn [ps_state ps_actors]. pose proof (embed_reset n n' T f _ _ _ _ _ _ SC CC Hz Hz') as SE. split; [exact SE|]. split.
    - assert (LA : length (pe_agents e') = length (pe_agents e)) by (symmetry; eapply Forall2_len; eauto). rewrite LA in Hx'.
      clear - HA SE Hx Hx'. revert xs xs' Hx Hx'. generalize (split_keys split k (length (pe_agents e))).
      induction HA as [|ag ag' ags ags' (HI & _) HA IH]; intros ks xs xs' Hx Hx'; destruct ks as [|k0 ks]; cbn [combine mapM] in Hx, Hx';
        try (apply Ok_inj in Hx, Hx'; subst xs xs'; constructor).
      apply bind_Ok in Hx as (x & X1 & Hx). apply bind_Ok in Hx as (ys & Hy & Hx). apply Ok_inj in Hx. subst xs.
      apply bind_Ok in Hx' as (x' & X1' & Hx'). apply bind_Ok in Hx' as (ys' & Hy' & Hx'). apply Ok_inj in Hx'. subst xs'.
      constructor; [eapply HI; eauto|eapply IH; eauto].
    - destruct SC as (_ & (L' & _ & Hn' & _) & _). destruct (env_reset_Ok n' T _ s' z' L' Hn' Hz') as (_ & _ & _ & (Q1 & _) & _). exact Q1.
  Qed.

  (** The shipped agents. *)
  Lemma embed_frozen n n' T f s s' u u' : same_episode n n' T f s s' -> frozen_update s = Ok u -> frozen_update s' = Ok u' -> same_rows n f u u'.
  Proof.
    intros SE H H'. unfold frozen_update in H, H'. apply bind_Ok in H as (c & Hc & H). apply bind_Ok in H' as (c' & Hc' & H').
    apply Ok_inj in H, H'. subst u u'. destruct (embed_current _ _ _ _ _ _ _ _ SE Hc Hc') as (_ & _ & CR & _).
    intros i Hi. rewrite !nth_error_map, CR; auto.
  Qed.

  Lemma sim_agent_same {P X K} n n' T f (none : X) ct upd :
    (forall s s', same_episode n n' T f s s' -> same_rows n f (ct s) (ct s')) ->
    (forall s s' u u', same_episode n n' T f s s' -> upd s = Ok u -> upd s' = Ok u' -> same_rows n f u u') ->
    same_agent (P := P) (K := K) eq n n' T f (sim_agent none ct upd) (sim_agent none ct upd).
  Proof.
    intros HC HU. split; [cbn; intros; congruence|]. intros p k s s' x x' o o' SE _ H H'. cbn in H, H'.
    apply bind_Ok in H as (u & Hu & H). apply bind_Ok in H' as (u' & Hu' & H'). apply Ok_inj in H, H'. subst o o'. cbn.
    split; [reflexivity|]. split; [|auto]. intros i Hi. rewrite !nth_error_map, (HU s s' u u'); auto.
  Qed.

  Lemma expert_agent_same {P X K} n n' T f (none : X) d ct : inverse_by_row d ->
    (forall s s', same_episode n n' T f s s' -> same_rows n f (ct s) (ct s')) ->
    same_agent (P := P) (K := K) eq n n' T f (expert_actor none d ct) (expert_actor none d ct).
  Proof.
    intros IR HC. split; [cbn; intros; congruence|]. intros p k s s' x x' o o' SE _ H H'. cbn in H, H'.
    apply bind_Ok in H as (u & Hu & H). apply bind_Ok in H' as (u' & Hu' & H'). apply Ok_inj in H, H'. subst o o'. cbn.
    split; [reflexivity|]. split; [|auto]. eapply embed_expert; eauto.
  Qed.

  Lemma speed_agent_same {P X K} n n' T f (none : X) d ct v : inverse_by_row d ->
    (forall s s', same_episode n n' T f s s' -> same_rows n f (ct s) (ct s')) ->
    same_agent (P := P) (K := K) eq n n' T f (constant_speed_actor none d ct v) (constant_speed_actor none d ct v).
  Proof.
    intros IR HC. split; [cbn; intros; congruence|]. intros p k s s' x x' o o' SE _ H H'. cbn [ac_select constant_speed_actor] in H, H'.
    apply bind_Ok in H as (c & Hc & H). apply bind_Ok in H as (g & G & H). apply guard_Ok, Nat.eqb_eq in G.
    apply bind_Ok in H as (u & Hu & H). apply Ok_inj in H. subst o.
    apply bind_Ok in H' as (c' & Hc' & H'). apply bind_Ok in H' as (g' & G' & H'). apply guard_Ok, Nat.eqb_eq in G'.
    apply bind_Ok in H' as (u' & Hu' & H'). apply Ok_inj in H'. subst o'. cbn [o_state o_action o_controlled].
    split; [reflexivity|]. split; [|auto]. destruct (embed_current _ _ _ _ _ _ _ _ SE Hc Hc') as (Lc & Lc' & CR & SPC).
    pose proof SE as (((L & M & Hn & HT) & (L' & M' & Hn' & _) & P0 & TL & SP & TM & SD & E1 & E2 & E3) & _).
    set (two := map2 (fun c0 p0 => [p0; constant_speed_next v c0 p0]) (ct s) c) in *.
    set (two' := map2 (fun c0 p0 => [p0; constant_speed_next v c0 p0]) (ct s') c') in *.
    assert (RW : forall N (l : list bool) (m : list pt), length l = N -> length m = N ->
      rect N 2 (map2 (fun c0 p0 => [p0; constant_speed_next v c0 p0]) l m)).
    { intros N l m A B. split; [rewrite map2_length; lia|]. intros r Hr. apply In_nth_error in Hr as [j Hj]. rewrite nth_error_map2 in Hj.
      destruct (nth_error l j); [|discriminate]. destruct (nth_error m j); [|discriminate]. injection Hj as <-. reflexivity. }
    assert (R2 : rect n 2 two) by (apply RW; lia). assert (R2' : rect n' 2 two') by (apply RW; lia).
    set (z := mkstate [] two (s_tls s) (s_meta s) 0 (s_paths s) (s_rg s)). set (z' := mkstate [] two' (s_tls s') (s_meta s') 0 (s_paths s') (s_rg s')).
    apply (IR n n' 2 f z z' 0%Z u u'); auto. unfold same_scene, wf_scenario, z, z'; cbn [s_log s_meta s_tls s_paths s_rg].
    split; [split; [exact R2|split; [auto|split; [auto|lia]]]|]. split; [split; [exact R2'|split; [auto|split; [auto|lia]]]|].
    split; [exact P0|]. split; [|split; [|split; [exact TM|split; [exact SD|auto]]]].
    - intros i t Hi. unfold at2, two, two'. rewrite !nth_error_map2, (HC s s' SE i Hi), CR by auto. reflexivity.
    - intros j t q Hj E. unfold at2, two' in E. rewrite nth_error_map2 in E. destruct (nth_error (ct s') j) as [b|]; [|discriminate].
      destruct (nth_error c' j) as [q0|] eqn:Eq; [|discriminate]. pose proof (SPC _ _ Hj Eq) as V.
      destruct t as [|[|t]]; cbn in E; [injection E as <-; exact V| |destruct t; discriminate].
      injection E as <-. cbn. now rewrite V, andb_false_r.
  Qed.
End Any.
