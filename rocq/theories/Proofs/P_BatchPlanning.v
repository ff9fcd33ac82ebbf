(** The batched planning environment acts in every scenario like the environment on that
    scenario alone. *)
From Coq Require Import String.
From Coq Require Import List ZArith Bool Lia Arith.
From Verif.Lib Require Import Base JaxIndex Scalar.
From Verif.Model Require Import Operations State Dynamics Dyn_State Dyn_Delta Dyn_Bicycle
  Geometry Discretizer Comfort Metrics BaseEnv Expert Actor Waypoint PlanningEnv
  Batch BatchMetrics BatchAgents BatchPlanning.
From Verif.Spec Require Import StateSpec BatchSpec BatchPlanSpec.
From Verif.Proofs Require Import Core P_Batch P_BatchMetrics P_BatchSdc P_Discretizer P_Reward
  P_BatchReward P_Waypoint P_BatchAgents.
Import ListNotations.
Local Open Scope nat_scope.

Lemma Forall2_same {A C} (R : A -> C -> Prop) l m : Forall2 R l m -> length l = length m.
Proof. induction 1; cbn; auto. Qed.

Section Step.
  Context {S : Scalar}.

  (** The updates of all objects exist when the action has the right number of columns. *)
  Lemma b_elementwise_Ok f B n w acts cur :
    (forall a p, length (a_data a) = w -> exists u, f a p = Ok u) ->
    actions_of B n w acts -> dims cur = B ++ [n; 1] ->
    exists us, b_elementwise f acts cur = Ok us /\ dims us = B ++ [n; 1] /\
      forall b, inside B b -> per_object f (vector acts b) (frame n cur b) = Ok (frame n us b).
  Proof.
    intros Hok [Da Wa] Dc. unfold b_elementwise.
    set (at_ := fun i => f (cell acts (removelast i)) (cell cur i)).
    assert (G : forall i, inside (dims cur) i -> exists u, at_ i = Ok u).
    { intros i Hi. rewrite Dc, app2 in Hi. apply inside_app_inv in Hi as (i1 & i2 & -> & I1 & I2).
      inversion I2 as [|? j ? ? Hj Hnil]; subst. inversion Hnil; subst.
      unfold at_. rewrite removelast_app1. apply Hok. apply Wa. auto. }
    destruct (mapM_total at_ (indices (dims cur))) as [l Hl].
    { intros i Hi. apply G. now apply indices_inside. }
    rewrite Hl. cbn [bind]. eexists. split; [reflexivity|]. split; [exact Dc|].
    intros b I. rewrite (vector_eq _ _ _ _ _ Da I). unfold frame, tabulate.
    apply per_object_list. intros i Hi. apply in_seq in Hi.
    assert (Ii : inside (dims cur) (b ++ [i; 0])).
    { rewrite Dc. apply inside_app; auto. repeat constructor; lia. }
    destruct (G _ Ii) as [u Hu]. unfold at_ in Hu. rewrite removelast_app2 in Hu.
    cbn [cell]. rewrite removelast_app2, Hu. reflexivity.
  Qed.

  Lemma tile_actions B n w a : planner_actions B w a -> actions_of B n w (b_tile a n).
  Proof.
    intros [D W]. split; [unfold b_tile; cbn [dims]; now rewrite D|]. intros i Hi.
    apply inside_app_inv in Hi as (i1 & i2 & -> & I1 & I2).
    inversion I2 as [|? j ? ? Hj Hnil]; subst. inversion Hnil; subst.
    unfold b_tile. cbn [cell]. rewrite removelast_app1. auto.
  Qed.

  Lemma tile_vector B n w a b : planner_actions B w a -> inside B b ->
    vector (b_tile a n) b = repeat (cell a b) n.
  Proof.
    intros [D W] I. rewrite (vector_eq (b_tile a n) B n [] b) by (auto; unfold b_tile; cbn [dims]; now rewrite D).
    unfold b_tile, tabulate. cbn [cell]. generalize 0 as k. induction n as [|n IH]; intros k; [reflexivity|].
    cbn [seq map repeat]. now rewrite removelast_app1, IH.
  Qed.

  Lemma b_forward_eq f inv B n T w action sim ref ctl t inj :
    dims sim = B ++ [n; T] -> dims ref = B ++ [n; T] -> dims ctl = B ++ [n] -> dims t = [] -> 0 < T ->
    (forall a p, length (a_data a) = w -> exists u, f a p = Ok u) -> actions_of B n w action ->
    exists sim', b_forward (b_elementwise f) action sim ref ctl t inj = Ok sim' /\ dims sim' = B ++ [n; T] /\
      forall b, inside B b ->
        forward (mkdyn (per_object f) inv) (vector action b) (matrix sim b) (matrix ref b) (vector ctl b)
          (clock t b) inj = Ok (matrix sim' b).
  Proof.
    intros D1 D2 Dctl Dt HT Hok Wa. pose proof (proj1 Wa) as Da. unfold b_forward.
    rewrite D1, removelast_app2, Da, dims_eqb_refl. cbn [guard bind].
    rewrite D2, Dctl. rewrite !app2, !firstn_pre by auto. rewrite firstn_all, !dims_eqb_refl. cbn [andb guard bind].
    destruct (b_slice_frame sim B n T t D1 (or_introl Dt) HT) as (cur & Hc & Dc & Fc).
    rewrite Hc. cbn [bind].
    destruct (b_elementwise_Ok f B n w action cur Hok Wa Dc) as (us & Hu & Du & Eu). rewrite Hu. cbn [bind].
    destruct (b_apply_eq B n T us sim ref ctl t inj false D1 D2 Dctl Du Dt HT) as (sim' & Hs & Ds & Es).
    exists sim'. split; [exact Hs|]. split; [now rewrite <- app2|]. intros b I. unfold forward.
    pose proof (matrix_rect _ _ _ _ _ D1 I) as [L1 _]. pose proof (matrix_rect _ _ _ _ _ D2 I) as [L2 _].
    rewrite L1, L2, (vector_length _ _ _ _ Da I), (vector_length _ _ _ _ Dctl I), Nat.eqb_refl. cbn [andb guard bind].
    rewrite Fc by auto. cbn [bind d_update]. rewrite Eu by auto. cbn [bind]. now apply Es.
  Qed.

  Lemma state_update_ok (a : act) p : length (a_data a) = 5 -> exists u, state_update a p = Ok u.
  Proof.
    destruct a as [data v]. cbn [a_data]. intros H.
    do 5 (destruct data as [|? data]; [discriminate H|]). destruct data; [|discriminate H].
    unfold state_update. cbn [a_data length Nat.eqb guard bind]. eauto.
  Qed.

  Lemma b_init_overlap_eq (log : arr pt) B n T : dims log = B ++ [n; T] -> 0 < T ->
    exists o, b_initialized_overlap log = Ok o /\ dims o = B ++ [n] /\
      forall b, inside B b -> initialized_overlap (matrix log b) = Ok (vector o b).
  Proof.
    intros D HT. unfold b_initialized_overlap.
    destruct (b_index_Ok log B n T (scalar 0%Z) D (or_introl eq_refl) HT) as (fr & H1 & D1 & F1).
    rewrite H1. cbn [bind]. eexists. split; [reflexivity|].
    set (po := b_pairwise_overlaps (amap pt_box fr)).
    assert (Dp : dims po = B ++ [n; n]).
    { unfold po, b_pairwise_overlaps. cbn [dims amap]. rewrite D1, last_app1. now rewrite <- app2. }
    destruct (reduce_last_eq (existsb (fun b : bool => b)) po B n n Dp) as (D2 & C2).
    split; [exact D2|]. intros b I. unfold initialized_overlap.
    pose proof (F1 b I) as F. change (clock (scalar 0%Z) b) with 0%Z in F. rewrite F. cbn [bind]. f_equal.
    rewrite (vector_eq (reduce_last (existsb (fun b : bool => b)) po) B n [] b D2 I).
    assert (E : compute_pairwise_overlaps (map pt_box (vector fr b))
                = tabulate n (fun i => tabulate n (fun j => cell po (b ++ [i; j])))).
    { assert (Lr : forall bs : list box, length (compute_pairwise_overlaps bs) = length bs)
        by (intros bs; unfold compute_pairwise_overlaps; apply mapi_from_length).
      pose proof (vector_length fr B n b D1 I) as Lv.
      set (bs := map pt_box (vector fr b)). assert (Lb : length bs = n) by (unfold bs; now rewrite map_length).
      apply eq_tabulate; [now rewrite Lr|]. intros i Hi.
      destruct (pairwise_nth bs i i) as (r & E1 & L1 & _); [lia..|]. rewrite E1. f_equal.
      apply eq_tabulate; [lia|]. intros j Hj. unfold po, b_pairwise_overlaps. cbn [cell].
      rewrite removelast_app2, removelast_app1, last_app2, last_app1.
      rewrite (row_vector (amap pt_box fr) B n b D1 I), vector_amap. fold bs.
      rewrite (nth_error_nth (compute_pairwise_overlaps bs) i [] E1). apply nth_error_nth'. lia. }
    rewrite E, map_tabulate. apply tabulate_ext. intros i Hi. now rewrite C2.
  Qed.

  Lemma b_where_eq B n w (mask : arr bool) x y : dims mask = B ++ [n] -> actions_of B n w x -> actions_of B n w y ->
    exists z, b_where_actions mask x y = Ok z /\ actions_of B n w z /\
      forall b, inside B b -> where_actions (vector mask b) (vector x b) (vector y b) = Ok (vector z b).
  Proof.
    intros Dm [Dx Wx] [Dy Wy]. unfold b_where_actions.
    destruct (amap2_same pair x y B [n] Dx Dy) as (xy & H1 & D1 & C1). rewrite H1. cbn [bind].
    destruct (amap2_same (fun (m : bool) (p : act * act) => (m, p)) mask xy B [n] Dm D1) as (r & H2 & D2 & C2).
    rewrite H2. cbn [bind].
    assert (Cr : forall i, inside (B ++ [n]) i -> cell r i = (cell mask i, (cell x i, cell y i))).
    { intros i Hi. apply inside_app_inv in Hi as (i1 & i2 & -> & I1 & I2). now rewrite C2, C1. }
    match goal with |- context [forallb ?f ?l] => replace (forallb f l) with true end.
    2:{ symmetry. apply forallb_forall. intros i Hi. apply indices_inside in Hi. rewrite D2 in Hi.
        rewrite Cr, Wx, Wy by auto. apply Nat.eqb_refl. }
    cbn [guard bind]. eexists. split; [reflexivity|]. split.
    - split; [exact D2|]. intros i Hi. cbn [amap cell]. rewrite Cr by auto. destruct (cell mask i); auto.
    - intros b I. unfold where_actions.
      rewrite (vector_length mask B n b Dm I), (vector_length x B n b Dx I), Nat.eqb_refl. cbn [andb].
      assert (E : same_dims (vector x b) (vector y b) = true).
      { unfold same_dims. rewrite (vector_length x B n b Dx I), (vector_length y B n b Dy I), Nat.eqb_refl. cbn [andb].
        rewrite (vector_eq x B n [] b Dx I), (vector_eq y B n [] b Dy I), map2_tab. apply forallb_forall.
        intros c Hc. unfold tabulate in Hc. apply in_map_iff in Hc as (i & <- & Hi). apply in_seq in Hi.
        rewrite Wx, Wy; [apply Nat.eqb_refl| |]; (apply inside_app; [exact I|]; apply inside1; lia). }
      rewrite E. cbn [guard bind]. f_equal.
      rewrite (vector_eq x B n [] b Dx I), (vector_eq y B n [] b Dy I), (vector_eq mask B n [] b Dm I), map3_tab.
      match goal with |- _ = vector ?z b => rewrite (vector_eq z B n [] b D2 I) end.
      apply tabulate_ext. intros i Hi. cbn [amap cell]. rewrite Cr by (apply inside_app; [exact I|now apply inside1]). reflexivity.
  Qed.

  Context {P X XB K : Type}.
  Variable part : XB -> list nat -> X.

  Lemma b_merge_eq B n T s ctl bags ags :
    running B n T s -> dims ctl = B ++ [n] ->
    Forall2 (agent_of (P := P) (K := K) part B n T) bags ags ->
    forall xs params keys action controlled,
    length xs = length bags -> length params = length bags -> length keys = length bags ->
    actions_of B n 5 action -> dims controlled = B ++ [n] ->
    exists action' controlled' xs',
      b_merge_sim_agents s ctl bags xs params keys action controlled = Ok (action', controlled', xs') /\
      actions_of B n 5 action' /\ dims controlled' = B ++ [n] /\ length xs' = length bags /\
      forall b, inside B b ->
        merge_sim_agents (scenario s b) (vector ctl b) ags (map (fun x => part x b) xs) params keys
          (vector action b) (vector controlled b)
        = Ok (vector action' b, vector controlled' b, map (fun x => part x b) xs').
  Proof.
    intros R Dc HA. induction HA as [|ba a bags ags [_ Ha] HA IH]; intros xs params keys action controlled Lx Lp Lk Wa Dco.
    - exists action, controlled, []. split; [reflexivity|]. split; [exact Wa|]. split; [exact Dco|]. split; reflexivity.
    - destruct xs as [|x xs]; [discriminate|]. destruct params as [|p params]; [discriminate|].
      destruct keys as [|k keys]; [discriminate|]. cbn [length] in Lx, Lp, Lk.
      destruct (Ha p s x k R) as (o & H1 & W1 & D1 & F1). cbn [b_merge_sim_agents]. rewrite H1. cbn [bind].
      destruct (amap2_same andb (bo_controlled o) ctl B [n] D1 Dc) as (by_sim & H2 & D2 & _). rewrite H2. cbn [bind].
      destruct (b_where_eq B n 5 by_sim (bo_action o) action D2 W1 Wa) as (ac & H3 & W3 & F3). rewrite H3. cbn [bind].
      destruct (amap2_same orb controlled by_sim B [n] Dco D2) as (co & H4 & D4 & _). rewrite H4. cbn [bind].
      destruct (IH xs params keys ac co) as (a' & c' & xs' & H5 & W5 & D5 & L5 & F5); auto; try lia.
      rewrite H5. cbn [bind]. exists a', c', (bo_state o :: xs'). split; [reflexivity|]. split; [exact W5|]. split; [exact D5|].
      split; [cbn; lia|]. intros b I. cbn [map merge_sim_agents]. rewrite F1 by exact I. cbn [bind o_controlled o_action o_state].
      rewrite (vector_length (bo_controlled o) B n b D1 I), (vector_length ctl B n b Dc I), Nat.eqb_refl. cbn [guard bind].
      rewrite <- (vector_amap2 andb _ _ by_sim B n b D1 Dc H2 I), F3 by exact I. cbn [bind].
      rewrite <- (vector_amap2 orb _ _ co B n b Dco D2 H4 I), F5 by exact I. reflexivity.
  Qed.

  Lemma split_keys_length split (k : option K) n : length (split_keys split k n) = n.
  Proof. destruct k; cbn [split_keys]; [now rewrite map_length, seq_length|apply repeat_length]. Qed.

  Variable split : K -> nat -> nat -> K.

  Lemma b_penv_step_eq B n T w f inv (e : bpenv P XB K) ags ps a k :
    running B n T (bp_state ps) -> 0 < T ->
    bp_dyn e = b_elementwise f -> (forall a p, length (a_data a) = w -> exists u, f a p = Ok u) ->
    planner_actions B w a ->
    Forall2 (agent_of part B n T) (bp_agents e) ags ->
    length (bp_params e) = length (bp_agents e) -> length (bp_actors ps) = length (bp_agents e) ->
    exists ps', b_penv_step split e ps a k = Ok ps' /\
      running B n T (bp_state ps') /\ length (bp_actors ps') = length (bp_agents e) /\
      forall b, inside B b ->
        penv_step split (alone f inv e ags) (pscenario part ps b) (cell a b) k = Ok (pscenario part ps' b).
  Proof.
    intros R HT Hd Hok Wa HA Lp Lx. pose proof R as [W Dt]. pose proof W as (Ds & Dl & Dm & _).
    unfold b_penv_step. destruct (b_current_eq1 B n T _ W HT) as (cur & H1 & D1 & F1). rewrite H1. cbn [bind].
    unfold b_planning_update. rewrite Hd.
    assert (En : b_num_objects cur = n) by (unfold b_num_objects; now rewrite D1, removelast_app2, last_app1). rewrite En.
    destruct (b_elementwise_Ok f B n w (b_tile a n) cur Hok (tile_actions B n w a Wa) D1) as (us & H2 & D2 & F2).
    rewrite H2. cbn [bind].
    destruct (b_init_overlap_eq (b_log (bp_state ps)) B n T Dl HT) as (over & H3 & D3 & F3). rewrite H3. cbn [bind].
    rewrite Lx, Nat.eqb_refl. cbn [guard bind].
    assert (W5 : actions_of B n 5 (amap as_action (drop_last us))) by (split; [exact (drop_last_dims us B n 1 D2)|reflexivity]).
    destruct (b_merge_eq B n T (bp_state ps) (amap negb over) (bp_agents e) ags R D3 HA (bp_actors ps) (bp_params e)
                (split_keys split k (length (bp_agents e))) (amap as_action (drop_last us)) (amap m_is_sdc (b_meta (bp_state ps)))
                Lx Lp (split_keys_length split k _) W5 Dm) as (ac & co & xs & H4 & W4 & D4 & L4 & F4).
    rewrite H4. cbn [bind].
    destruct (b_forward_eq state_update state_inverse B n T 5 ac (b_sim (bp_state ps)) (b_log (bp_state ps)) co
                (b_t (bp_state ps)) (c_allow_new_objects (bp_cfg e)) Ds Dl D4 Dt HT state_update_ok W4)
      as (sim' & H6 & D6 & F6).
    rewrite H6. cbn [bind]. eexists. split; [reflexivity|]. cbn [bp_state bp_actors].
    split; [split; [split; [exact D6|split; [exact Dl|split; [exact Dm|left; exact Dt]]]|exact Dt]|]. split; [exact L4|].
    intros b I. unfold penv_step. cbn [pscenario ps_state ps_actors alone pe_dyn pe_agents pe_params pe_cfg].
    rewrite F1 by exact I. cbn [bind]. unfold planning_update. rewrite tabulate_length. cbn [d_update].
    pose proof (F2 b I) as E2. rewrite (tile_vector B n w a b Wa I) in E2. unfold frame in E2 at 1. rewrite E2. cbn [bind].
    change (s_log (scenario (bp_state ps) b)) with (matrix (b_log (bp_state ps)) b). rewrite F3 by exact I. cbn [bind].
    rewrite map_length. pose proof (Forall2_same _ _ _ HA) as La. rewrite <- La, Lx, Nat.eqb_refl. cbn [guard bind].
    rewrite <- (drop_last_vector us B n 1 b D2 I), <- !vector_amap.
    change (s_meta (scenario (bp_state ps) b)) with (vector (b_meta (bp_state ps)) b). rewrite <- vector_amap.
    rewrite F4 by exact I. cbn [bind]. pose proof (F6 b I) as E6. cbn [scenario s_sim s_t].
    change StateDynamics with (mkdyn (per_object state_update) state_inverse). rewrite E6. reflexivity.
  Qed.

  Lemma b_penv_steps_eq B n T w f inv (e : bpenv P XB K) ags acts : 0 < T ->
    bp_dyn e = b_elementwise f -> (forall a p, length (a_data a) = w -> exists u, f a p = Ok u) ->
    Forall (fun ak => planner_actions B w (fst ak)) acts ->
    Forall2 (agent_of part B n T) (bp_agents e) ags -> length (bp_params e) = length (bp_agents e) ->
    forall ps, running B n T (bp_state ps) -> length (bp_actors ps) = length (bp_agents e) ->
    exists ps', b_penv_steps split e ps acts = Ok ps' /\
      running B n T (bp_state ps') /\ length (bp_actors ps') = length (bp_agents e) /\
      forall b, inside B b ->
        penv_steps split (alone f inv e ags) (pscenario part ps b) (map (fun ak => (cell (fst ak) b, snd ak)) acts)
        = Ok (pscenario part ps' b).
  Proof.
    intros HT Hd Hok HW HA Lp. induction HW as [|[a k] acts Wa HW IH]; intros ps R Lx.
    - exists ps. repeat split; auto; apply R.
    - destruct (b_penv_step_eq B n T w f inv e ags ps a k R HT Hd Hok Wa HA Lp Lx) as (ps1 & H1 & R1 & L1 & F1).
      cbn [b_penv_steps]. rewrite H1. cbn [bind].
      destruct (IH ps1 R1 L1) as (ps' & H2 & R2 & L2 & F2). exists ps'. split; [exact H2|]. split; [exact R2|]. split; [exact L2|].
      intros b I. cbn [map fst snd penv_steps]. rewrite F1 by exact I. cbn [bind]. now apply F2.
  Qed.

  Lemma b_penv_reset_eq B n T f inv (e : bpenv P XB K) ags s k :
    loaded_batch B n T s -> 0 < n -> c_max_num_objects (bp_cfg e) = n -> c_init_steps (bp_cfg e) <= T ->
    Forall2 (agent_of part B n T) (bp_agents e) ags ->
    exists ps, b_penv_reset split e s k = Ok ps /\
      running B n T (bp_state ps) /\ length (bp_actors ps) = length (bp_agents e) /\
      forall b, inside B b ->
        penv_reset split (alone f inv e ags) (scenario s b) k = Ok (pscenario part ps b).
  Proof.
    intros W Hn Hm Hi HA. destruct (b_reset_Ok B n T (bp_cfg e) s W Hm Hi) as [s0 H0].
    destruct (b_reset_shape B n T (bp_cfg e) s s0 W H0) as [W0 Dt0].
    assert (G : forall keys, length keys = length (bp_agents e) -> exists xs,
      mapM (fun ka : option K * bactor P XB K => ba_init (snd ka) (fst ka) s0) (combine keys (bp_agents e)) = Ok xs /\
      length xs = length (bp_agents e) /\
      forall b, inside B b ->
        mapM (fun ka : option K * actor P X K => ac_init (snd ka) (fst ka) (scenario s0 b)) (combine keys ags)
        = Ok (map (fun x => part x b) xs)).
    { induction HA as [|ba a bags ags' [Hi' _] HA IH]; intros keys Lk.
      - exists []. destruct keys; [|discriminate]. repeat split.
      - destruct keys as [|kk keys]; [discriminate|]. cbn [length] in Lk.
        destruct (Hi' kk s0 (conj W0 Dt0)) as (x & H1 & F1). destruct (IH keys) as (xs & H2 & L2 & F2); [lia|].
        exists (x :: xs). cbn [combine mapM fst snd]. rewrite H1, H2. cbn [bind]. split; [reflexivity|].
        split; [cbn; lia|]. intros b I. rewrite F1, F2 by exact I. reflexivity. }
    destruct (G (split_keys split k (length (bp_agents e))) (split_keys_length _ _ _)) as (xs & H1 & L1 & F1).
    unfold b_penv_reset. rewrite H0. cbn [bind]. rewrite H1. cbn [bind]. eexists. split; [reflexivity|].
    cbn [bp_state bp_actors]. split; [split; auto|]. split; [exact L1|]. intros b I.
    unfold penv_reset. cbn [alone pe_cfg pe_agents].
    rewrite <- (b_reset_eq B n T (bp_cfg e) s b W Hn I), H0. cbn [rmap bind].
    rewrite <- (Forall2_same _ _ _ HA), F1 by exact I. reflexivity.
  Qed.

  Lemma b_penv_step_own_clock (e : bpenv P XB K) ps a k ps' :
    dims (b_t (bp_state ps)) <> [] -> b_penv_step split e ps a k <> Ok ps'.
  Proof.
    intros Dt H. unfold b_penv_step in H.
    apply bind_Ok in H as (? & _ & H). apply bind_Ok in H as (? & _ & H). apply bind_Ok in H as (? & _ & H).
    apply bind_Ok in H as (? & _ & H). apply bind_Ok in H as ([[ac co] xs] & _ & H).
    apply bind_Ok in H as (sim' & Hs & _). unfold b_forward in Hs.
    do 4 (apply bind_Ok in Hs as (? & _ & Hs)). eapply b_apply_own_clock; eauto.
  Qed.
End Step.

(* ---------------- metrics, reward, expert ---------------- *)

Lemma amap2_scalar {A A' C} (op : A -> A' -> C) (x : arr A) (y : arr A') : dims y = [] ->
  exists z, amap2 op x y = Ok z /\ dims z = dims x /\
    forall i, inside (dims x) i -> cell z i = op (cell x i) (cell y []).
Proof.
  intros D. unfold amap2. rewrite D.
  assert (E : bdims (dims x) [] = Some (dims x)).
  { unfold bdims. cbn [rev]. destruct (rev (dims x)) as [|a r] eqn:E; cbn [bdims_rev option_map];
    rewrite <- E, ?rev_involutive; [apply (f_equal (@rev nat)) in E; rewrite rev_involutive in E; rewrite E|]; reflexivity. }
  rewrite E. eexists. split; [reflexivity|]. split; [reflexivity|]. intros i Hi. cbn [cell].
  rewrite bidx_self by exact Hi. f_equal.
Qed.

Section Metrics.
  Context {S : Scalar}.

  (** The results of a batch at batch index [b]: per object for the names in [k], one per
      scenario for the others. *)
  Definition entry_at (k : string -> bool) (b : list nat) (p : string * arr mres) : string * mval :=
    (fst p, if k (fst p) then PerObject (vector (snd p) b) else Scalar0 (cell (snd p) b)).
  Definition shaped (B : list nat) (n : nat) (k : string -> bool) (all : list (string * arr mres)) : Prop :=
    NoDup (map fst all) /\
    forall name v, In (name, v) all -> dims v = B ++ (if k name then [n] else []).

  Lemma dict_set_keys {A} name (a : A) l name' :
    In name' (map fst (dict_set name a l)) -> name' = name \/ In name' (map fst l).
  Proof.
    induction l as [|[m c] l IH]; cbn [dict_set map fst In].
    - intros [H|[]]; auto.
    - destruct (String.eqb_spec name m) as [<-|N]; cbn [map fst In].
      + intros [H|H]; auto.
      + intros [H|H]; auto. destruct (IH H); auto.
  Qed.
  Lemma dict_set_NoDup {A} name (a : A) l : NoDup (map fst l) -> NoDup (map fst (dict_set name a l)).
  Proof.
    induction l as [|[m c] l IH]; cbn [dict_set map fst]; intros H.
    - constructor; [intros []|constructor].
    - inversion H as [|? ? N1 N2]; subst. destruct (String.eqb_spec name m) as [<-|N]; cbn [map fst].
      + now constructor.
      + constructor; [|now apply IH]. intros X. apply dict_set_keys in X. destruct X as [X|X]; auto.
  Qed.
  Lemma dict_set_In {A} name (a : A) l name' v : NoDup (map fst l) ->
    In (name', v) (dict_set name a l) -> (name' = name /\ v = a) \/ (name' <> name /\ In (name', v) l).
  Proof.
    induction l as [|[m c] l IH]; cbn [dict_set map fst In]; intros H.
    - intros [X|[]]. left. now inversion X.
    - inversion H as [|? ? N1 N2]; subst. destruct (String.eqb_spec name m) as [<-|N]; cbn [In].
      + intros [X|X]; [left; now inversion X|]. right. split; [|now right]. intros ->.
        apply N1. change name with (fst (name, v)). now apply in_map.
      + intros [X|X].
        * inversion X; subst. right. split; [congruence|now left].
        * destruct (IH N2 X) as [Y|[Y1 Y2]]; [now left|right; split; auto].
  Qed.
  Lemma lookup_In {A} name (l : list (string * A)) v : lookup name l = Some v -> In (name, v) l.
  Proof.
    induction l as [|[m c] l IH]; cbn [lookup]; [discriminate|].
    destruct (String.eqb_spec name m) as [->|N]; intros H; [injection H as ->; now left|right; auto].
  Qed.

  Lemma entry_lookup (k : string -> bool) b name (l : list (string * arr mres)) :
    lookup name (map (entry_at k b) l)
    = option_map (fun v => if k name then PerObject (vector v b) else Scalar0 (cell v b)) (lookup name l).
  Proof.
    induction l as [|[m a] l IH]; [reflexivity|]. cbn [map lookup entry_at fst snd].
    destruct (String.eqb_spec name m) as [->|N]; [reflexivity|exact IH].
  Qed.

  Lemma entry_set (k : string -> bool) b name (v : arr mres) (l : list (string * arr mres)) :
    dict_set name (if k name then PerObject (vector v b) else Scalar0 (cell v b)) (map (entry_at k b) l)
    = map (entry_at k b) (dict_set name v l).
  Proof.
    induction l as [|[m a] l IH]; [reflexivity|]. cbn [map dict_set entry_at fst snd].
    destruct (String.eqb_spec name m) as [->|N]; cbn [map]; [reflexivity|]. now rewrite IH.
  Qed.

  (** The names without one. *)
  Definition without (k : string -> bool) (name : string) : string -> bool :=
    fun x => k x && negb (String.eqb x name).

  Lemma entry_select k b name (v : arr mres) (l : list (string * arr mres)) : NoDup (map fst l) ->
    dict_set name (Scalar0 (cell v b)) (map (entry_at k b) l)
    = map (entry_at (without k name) b) (dict_set name v l).
  Proof.
    assert (W1 : forall v, entry_at (without k name) b (name, v) = (name, Scalar0 (cell v b))).
    { intros v'. unfold entry_at, without. cbn [fst snd]. rewrite String.eqb_refl, andb_false_r. reflexivity. }
    assert (W2 : forall m (a : arr mres), m <> name -> entry_at (without k name) b (m, a) = entry_at k b (m, a)).
    { intros m a N. unfold entry_at, without. cbn [fst snd]. rewrite (proj2 (String.eqb_neq m name) N), andb_true_r. reflexivity. }
    assert (W3 : forall l : list (string * arr mres), ~ In name (map fst l) ->
      map (entry_at (without k name) b) l = map (entry_at k b) l).
    { intros l' H. apply map_ext_in. intros [m a] Hi. apply W2. intros ->. apply H.
      change name with (fst (name, a)). now apply in_map. }
    induction l as [|[m a] l IH]; intros H; cbn [map dict_set].
    - now rewrite W1.
    - inversion H as [|? ? N1 N2]; subst. cbn [entry_at fst snd].
      destruct (String.eqb_spec name m) as [<-|N]; cbn [map].
      + rewrite W1, W3 by exact N1. reflexivity.
      + rewrite W2 by congruence. cbn [entry_at fst snd]. now rewrite IH.
  Qed.

  Definition named_entry B n s (breg : b_registry) (reg : registry) (k : string -> bool) (name : string) : Prop :=
    exists f g m, lookup name breg = Some f /\ lookup name reg = Some g /\ f s = Ok m /\
      dims m = B ++ (if k name then [n] else []) /\
      forall b, inside B b -> g (scenario s b) = Ok (if k name then PerObject (vector m b) else Scalar0 (cell m b)).

  Lemma b_run_eq B n s breg reg k names : Forall (named_entry B n s breg reg k) names ->
    exists all, b_run_metrics breg s names = Ok all /\ shaped B n k all /\
      (forall name, In name names <-> In name (map fst all)) /\
      forall b, inside B b -> run_metrics reg (scenario s b) names = Ok (map (entry_at k b) all).
  Proof.
    unfold b_run_metrics, run_metrics. intros H.
    assert (G : forall acc, shaped B n k acc ->
      exists all,
        fold_left (fun acc name => let* results := acc in
          match lookup name breg with
          | Some m => let* v := m s in Ok (dict_set name v results)
          | None => Err ValueError end) names (Ok acc) = Ok all /\ shaped B n k all /\
        (forall name, In name names \/ In name (map fst acc) <-> In name (map fst all)) /\
        forall b, inside B b ->
          fold_left (fun acc name => let* results := acc in
            match lookup name reg with
            | Some m => let* v := m (scenario s b) in Ok (dict_set name v results)
            | None => Err ValueError end) names (Ok (map (entry_at k b) acc)) = Ok (map (entry_at k b) all)).
    { induction H as [|name names (f & g & m & Lf & Lg & Hf & Dm & Hg) H IH]; intros acc Ha.
      - exists acc. cbn [fold_left]. split; [reflexivity|]. split; [exact Ha|]. split; [|reflexivity].
        intros name. split; [intros [[]|X]; exact X|now right].
      - cbn [fold_left]. rewrite Lf, Lg. cbn [bind]. rewrite Hf. cbn [bind]. destruct Ha as [Ha1 Ha2].
        destruct (IH (dict_set name m acc)) as (all & H1 & H2 & H3 & H4).
        { split; [now apply dict_set_NoDup|]. intros name' v X. apply dict_set_In in X; [|exact Ha1].
          destruct X as [[-> ->]|[_ X]]; [exact Dm|now apply Ha2]. }
        exists all. split; [exact H1|]. split; [exact H2|]. split.
        + intros name'. rewrite <- H3. split.
          * intros [[E|X]|X]; [right; subst name'|now left|right].
            -- clear. induction acc as [|[m' c] acc IH]; cbn [dict_set map fst In]; auto.
               destruct (String.eqb_spec name m') as [->|N]; cbn [map fst In]; auto.
            -- clear - X. induction acc as [|[m' c] acc IH]; cbn [dict_set map fst In] in *; [easy|].
               destruct (String.eqb_spec name m') as [->|N]; cbn [map fst In]; destruct X; auto.
          * intros [X|X]; [left; now right|]. apply dict_set_keys in X. destruct X as [->|X]; [left; now left|now right].
        + intros b I. rewrite Hg by auto. cbn [bind]. rewrite entry_set. apply H4, I. }
    destruct (G []) as (all & H1 & H2 & H3 & H4).
    { split; [constructor|intros ? ? []]. }
    exists all. split; [exact H1|]. split; [exact H2|]. split; [|exact H4]. intros name. rewrite <- H3. cbn. tauto.
  Qed.

  Lemma b_select_eq B n (v : arr mres) (sel : arr bool) : dims v = B ++ [n] -> dims sel = B ++ [n] ->
    exists r, b_select_metric v sel = Ok r /\ dims r = B /\
      forall b, inside B b -> select_metric (PerObject (vector v b)) (vector sel b) = Ok (Scalar0 (cell r b)).
  Proof.
    intros Dv Ds. unfold b_select_metric.
    destruct (b_onehot_eq (amap mr_value v) sel B n Dv Ds) as (x & H1 & D1 & C1).
    destruct (b_onehot_b_eq (amap mr_valid v) sel B n Dv Ds) as (y & H2 & D2 & C2).
    rewrite H1, H2. cbn [bind]. destruct (amap2_B mkmres x y B D1 D2) as (z & H3 & D3 & C3).
    exists z. split; [exact H3|]. split; [exact D3|]. intros b I. unfold select_metric.
    rewrite <- !vector_amap, C1, C2 by exact I. cbn [bind]. now rewrite C3.
  Qed.

  Lemma shaped_select B n k all name r : shaped B n k all -> dims r = B ->
    shaped B n (without k name) (dict_set name r all).
  Proof.
    intros [N H] Dr. split; [now apply dict_set_NoDup|]. intros name' v X. apply dict_set_In in X; [|exact N].
    unfold without. destruct X as [[-> ->]|[Ne X]].
    - rewrite String.eqb_refl, andb_false_r. now rewrite app_nil_r.
    - rewrite (proj2 (String.eqb_neq _ _) Ne), andb_true_r. now apply H.
  Qed.

  Lemma entry_without k b name l : ~ In name (map fst l) ->
    map (entry_at (without k name) b) l = map (entry_at k b) l.
  Proof.
    intros H. apply map_ext_in. intros [m a] Hi. unfold entry_at, without. cbn [fst snd].
    destruct (String.eqb_spec m name) as [->|N]; [|now rewrite andb_true_r].
    destruct H. change name with (fst (name, a)). now apply in_map.
  Qed.

  Lemma lookup_None {A} name (l : list (string * A)) : lookup name l = None <-> ~ In name (map fst l).
  Proof.
    induction l as [|[m c] l IH]; cbn [lookup map fst In]; [tauto|].
    destruct (String.eqb_spec name m) as [->|N]; [split; [discriminate|tauto]|].
    rewrite IH. split; [intros H [X|X]; [congruence|auto]|tauto].
  Qed.

  Lemma b_entry_eq B n k sel name all : shaped B n k all -> dims sel = B ++ [n] -> k name = true ->
    exists all', b_select_entry sel name all = Ok all' /\ shaped B n (without k name) all' /\
      (forall x, In x (map fst all') <-> In x (map fst all)) /\
      forall b, inside B b ->
        select_entry (vector sel b) name (map (entry_at k b) all) = Ok (map (entry_at (without k name) b) all').
  Proof.
    intros [N H] Ds Hk. unfold b_select_entry. destruct (lookup name all) as [v|] eqn:E.
    - assert (Dv : dims v = B ++ [n]) by (rewrite (H name v (lookup_In _ _ _ E)), Hk; reflexivity).
      destruct (b_select_eq B n v sel Dv Ds) as (r & H1 & D1 & F1). rewrite H1. cbn [bind].
      eexists. split; [reflexivity|]. split; [now apply shaped_select|]. split.
      + intros x. split.
        * intros X. apply dict_set_keys in X. destruct X as [->|X]; [|exact X].
          apply lookup_In in E. change name with (fst (name, v)). now apply in_map.
        * intros X. clear - X. induction all as [|[m' c] acc IH]; cbn [dict_set map fst In] in *; [easy|].
          destruct (String.eqb_spec name m') as [->|Ne]; cbn [map fst In]; destruct X; auto.
      + intros b I. unfold select_entry. rewrite entry_lookup, E. cbn [option_map]. rewrite Hk, F1 by exact I. cbn [bind].
        now rewrite entry_select.
    - exists all. split; [reflexivity|]. apply lookup_None in E. split.
      + split; [exact N|]. intros name' v X. rewrite (H _ _ X). unfold without.
        destruct (String.eqb_spec name' name) as [->|Ne]; [|now rewrite andb_true_r].
        destruct E. change name with (fst (name, v)). now apply in_map.
      + split; [reflexivity|]. intros b I. unfold select_entry. rewrite entry_lookup.
        rewrite (proj2 (lookup_None name all) E). cbn [option_map]. now rewrite entry_without.
  Qed.

  Context {P X XB K : Type}.
  Variable part : XB -> list nat -> X.

  (** The names whose results are per object. *)
  Definition of_objects (name : string) : bool :=
    existsb (String.eqb name) ["log_divergence"; "overlap"; "offroad"; "kinematic_infeasibility"]%string.

  Lemma b_penv_metrics_eq B n T breg reg (e : bpenv P XB K) (f : act -> pt -> res upd) inv (ags : list (actor P X K)) ps :
    running B n T (bp_state ps) ->
    Forall (named_entry B n (bp_state ps) breg reg of_objects) (bp_metrics e) ->
    exists all, b_penv_metrics breg e ps = Ok all /\
      (forall name v, In (name, v) all -> dims v = B) /\
      (forall name, In name (bp_metrics e) <-> In name (map fst all)) /\
      forall b, inside B b ->
        penv_metrics reg (alone f inv e ags) (pscenario part ps b)
        = Ok (map (fun p => (fst p, Scalar0 (cell (snd p) b))) all).
  Proof.
    intros [W Dt] HN. pose proof W as (_ & _ & Dm & _).
    set (sel := amap m_is_sdc (b_meta (bp_state ps))). assert (Ds : dims sel = B ++ [n]) by exact Dm.
    unfold b_penv_metrics. fold sel.
    destruct (b_run_eq B n (bp_state ps) breg reg of_objects (bp_metrics e) HN) as (d0 & H0 & S0 & N0 & F0).
    rewrite H0. cbn [bind].
    destruct (b_entry_eq B n _ sel "log_divergence" d0 S0 Ds eq_refl) as (d1 & H1 & S1 & N1 & F1). rewrite H1. cbn [bind].
    destruct (b_entry_eq B n _ sel "overlap" d1 S1 Ds eq_refl) as (d2 & H2 & S2 & N2 & F2). rewrite H2. cbn [bind].
    destruct (b_entry_eq B n _ sel "offroad" d2 S2 Ds eq_refl) as (d3 & H3 & S3 & N3 & F3). rewrite H3. cbn [bind].
    set (k3 := without (without (without of_objects "log_divergence") "overlap") "offroad") in *.
    set (kin := "kinematic_infeasibility"%string) in *.
    assert (Kf : forall x, without k3 kin x = false).
    { intros x. unfold k3, kin, without, of_objects. cbn [existsb].
      destruct (String.eqb_spec x "log_divergence"); [reflexivity|]. destruct (String.eqb_spec x "overlap"); [reflexivity|].
      destruct (String.eqb_spec x "offroad"); [reflexivity|]. destruct (String.eqb_spec x "kinematic_infeasibility"); reflexivity. }
    assert (Fin : forall all b, map (entry_at (without k3 kin) b) all = map (fun p => (fst p, Scalar0 (cell (snd p) b))) all).
    { intros all b. apply map_ext. intros [m a]. unfold entry_at. cbn [fst snd]. now rewrite Kf. }
    assert (Nn : forall x, In x (bp_metrics e) <-> In x (map fst d3)) by (intros x; rewrite N3, N2, N1; apply N0).
    destruct (existsb (String.eqb kin) (bp_metrics e)) eqn:Ek.
    - apply existsb_exists in Ek as (x & Hx & Ex). apply String.eqb_eq in Ex. subst x.
      apply Nn in Hx. destruct (lookup kin d3) as [v|] eqn:Ev; [|apply lookup_None in Ev; contradiction].
      assert (Dv : dims v = B ++ [n]) by (rewrite (proj2 S3 kin v (lookup_In _ _ _ Ev)); reflexivity).
      set (later := amap (fun t => (Z.of_nat (c_init_steps (bp_cfg e)) - 1 <? t)%Z) (b_t (bp_state ps))).
      assert (Dla : dims later = []) by exact Dt.
      destruct (amap2_scalar (fun v (b : bool) => mkmres (mr_value v * fbool b)%F (mr_valid v && b)) v later Dla) as (mm & H4 & D4 & C4).
      rewrite H4. cbn [bind]. rewrite Dv in D4, C4.
      destruct (b_select_eq B n mm sel D4 Ds) as (r & H5 & D5 & F5). rewrite H5. cbn [bind].
      eexists. split; [reflexivity|]. split.
      + intros name x Hi. pose proof (shaped_select B n k3 d3 kin r S3 D5) as S4. rewrite (proj2 S4 name x Hi), Kf. apply app_nil_r.
      + split.
        * intros x. rewrite Nn. split.
          -- intros Hi. clear - Hi. induction d3 as [|[m' c] acc IH]; cbn [dict_set map fst In] in *; [easy|].
             destruct (String.eqb_spec kin m') as [->|Ne]; cbn [map fst In]; destruct Hi; auto.
          -- intros Hi. apply dict_set_keys in Hi. destruct Hi as [->|Hi]; [exact Hx|exact Hi].
        * intros b I. unfold penv_metrics. cbn [alone pe_metrics pe_cfg pscenario ps_state].
          rewrite F0 by exact I. cbn [bind].
          change (s_meta (scenario (bp_state ps) b)) with (vector (b_meta (bp_state ps)) b). rewrite <- vector_amap. fold sel.
          rewrite F1 by exact I. cbn [bind]. rewrite F2 by exact I. cbn [bind]. rewrite F3 by exact I. cbn [bind].
          replace (existsb (String.eqb "kinematic_infeasibility") (bp_metrics e)) with true.
          2:{ symmetry. apply existsb_exists. exists kin. split; [now apply Nn|reflexivity]. }
          fold kin. rewrite entry_lookup, Ev. cbn [option_map].
          change (k3 kin) with true. cbn iota.
          match goal with |- context [mask_metric ?l ?p] =>
            replace (mask_metric l p) with (PerObject (vector mm b)) end.
          2:{ unfold mask_metric. f_equal. rewrite (vector_eq mm B n [] b D4 I), (vector_eq v B n [] b Dv I), map_tabulate.
              apply tabulate_ext. intros i Hi. rewrite C4 by (apply inside_app; [exact I|now apply inside1]).
              cbn [scenario s_t]. unfold later, clock. rewrite Dt. reflexivity. }
          rewrite F5 by exact I. cbn [bind]. rewrite <- Fin, entry_select by apply S3. reflexivity.
    - assert (Nk : ~ In kin (map fst d3)).
      { intros Hi. apply Nn in Hi. assert (existsb (String.eqb kin) (bp_metrics e) = true) as E; [|rewrite Ek in E; discriminate E].
        apply existsb_exists. exists kin. split; [exact Hi|reflexivity]. }
      exists d3. split; [reflexivity|]. split.
      + intros name v Hi. rewrite (proj2 S3 name v Hi).
        replace (k3 name) with false; [apply app_nil_r|]. symmetry. specialize (Kf name). unfold without in Kf.
        destruct (String.eqb_spec name kin) as [Ee|Ne]; [|now rewrite andb_true_r in Kf].
        destruct Nk. rewrite <- Ee. change name with (fst (name, v)). now apply in_map.
      + split; [exact Nn|]. intros b I. unfold penv_metrics. cbn [alone pe_metrics pe_cfg pscenario ps_state].
        rewrite F0 by exact I. cbn [bind].
        change (s_meta (scenario (bp_state ps) b)) with (vector (b_meta (bp_state ps)) b). rewrite <- vector_amap. fold sel.
        rewrite F1 by exact I. cbn [bind]. rewrite F2 by exact I. cbn [bind]. rewrite F3 by exact I. cbn [bind].
        fold kin. rewrite Ek. f_equal. now rewrite <- Fin, entry_without.
  Qed.
End Metrics.

Section Expert.
  Context {S : Scalar}.

  Lemma zeros_inside B b : inside B b -> inside B (map (fun _ => 0) B).
  Proof. induction 1; cbn [map]; constructor; auto. lia. Qed.

  Lemma b_select_action_eq B n w acts sel : 0 < n -> actions_of B n w acts -> dims sel = B ++ [n] ->
    exists r, b_select_action acts sel = Ok r /\ planner_actions B w r /\
      forall b, inside B b -> select_action_by_onehot (vector acts b) (vector sel b) = Ok (cell r b).
  Proof.
    intros Hn [Da Wa] Ds. unfold b_select_action.
    set (w' := length (a_data (cell acts (map (fun _ => 0) (dims acts))))).
    assert (Ew : forall b, inside B b -> w' = w).
    { intros b I. unfold w'. rewrite Da. apply Wa. apply (zeros_inside (B ++ [n]) (b ++ [0])).
      apply inside_app; [exact I|]. now apply inside1. }
    assert (G : forall js, exists cols,
      mapM (fun j => b_onehot (amap (fun a : act => nth j (a_data a) f0) acts) sel) js = Ok cols /\
      length cols = length js /\
      forall b, inside B b ->
        mapM (fun j => select_by_onehot (map (fun a : act => nth j (a_data a) f0) (vector acts b)) (vector sel b)) js
        = Ok (map (fun c => cell c b) cols)).
    { induction js as [|j js (cols & H1 & L1 & F1)]; [exists []; repeat split|].
      destruct (b_onehot_eq (amap (fun a : act => nth j (a_data a) f0) acts) sel B n Da Ds) as (c & H2 & D2 & F2).
      exists (c :: cols). cbn [mapM]. rewrite H2, H1. cbn [bind]. split; [reflexivity|]. split; [cbn; lia|].
      intros b I. rewrite <- vector_amap, F2, F1 by exact I. reflexivity. }
    destruct (G (seq 0 w')) as (cols & H1 & L1 & F1). rewrite H1. cbn [bind].
    destruct (b_onehot_b_eq (amap a_valid acts) sel B n Da Ds) as (v & H2 & D2 & F2). rewrite H2. cbn [bind].
    eexists. split; [reflexivity|]. split.
    - split; [exact D2|]. intros b I. cbn [cell a_data]. rewrite map_length, L1, seq_length. eapply Ew, I.
    - intros b I. unfold select_action_by_onehot.
      rewrite (vector_length acts B n b Da I), (vector_length sel B n b Ds I), Nat.eqb_refl. cbn [guard bind].
      replace (match vector acts b with a :: _ => length (a_data a) | [] => 0 end) with w'.
      2:{ rewrite (vector_eq acts B n [] b Da I). destruct n as [|n]; [lia|]. unfold tabulate. cbn [seq map].
          rewrite (Ew b I). symmetry. apply Wa. apply inside_app; [exact I|]. apply inside1. lia. }
      rewrite F1 by exact I. cbn [bind]. rewrite <- vector_amap, F2 by exact I. reflexivity.
  Qed.

  Lemma b_planning_expert_eq B n T w bi i s : inverse_of B n w bi i -> running B n T s -> 0 < n -> 0 < T ->
    exists r, b_planning_expert bi s = Ok r /\ planner_actions B w r /\
      forall b u, inside B b -> planning_expert (mkdyn u i) (scenario s b) = Ok (cell r b).
  Proof.
    intros Hi R Hn HT. destruct (b_expert_eq B n T w bi i s Hi R HT) as (acts & H1 & W1 & F1).
    unfold b_planning_expert. rewrite H1. cbn [bind]. pose proof R as [(_ & _ & Dm & _) _].
    destruct (b_select_action_eq B n w acts (amap m_is_sdc (b_meta s)) Hn W1 Dm) as (r & H2 & W2 & F2).
    exists r. split; [exact H2|]. split; [exact W2|]. intros b u I. unfold planning_expert.
    pose proof (F1 b u I) as E. unfold infer_expert_action in E.
    destruct (dynamic_slice _ _ 1) as [p|] eqn:Ep; [|discriminate E]. cbn [bind] in *.
    destruct (dynamic_slice (s_log _) _ 1) as [q|] eqn:Eq; [|discriminate E]. cbn [bind] in *.
    unfold planning_inverse. rewrite E. cbn [bind].
    change (s_meta (scenario s b)) with (vector (b_meta s) b). rewrite <- vector_amap. now apply F2.
  Qed.

  Context {P X XB K : Type}.
  Variable part : XB -> list nat -> X.

  Lemma b_penv_reward_eq B n breg reg (e : bpenv P XB K) (f : act -> pt -> res upd) inv (ags : list (actor P X K)) T ps :
    running B n T (bp_state ps) -> c_controlled (bp_cfg e) = SDC ->
    Forall (named_object B n (bp_state ps) breg reg) (map fst (bp_rewards e)) ->
    exists r, b_penv_reward breg e ps = Ok r /\ dims r = B /\
      forall b, inside B b -> penv_reward reg (alone f inv e ags) (pscenario part ps b) = Ok (cell r b).
  Proof.
    intros [W Dt] Hc HN. pose proof W as (_ & _ & Dm & _). unfold b_penv_reward, penv_reward.
    cbn [alone pe_compute_reward pe_rewards pe_cfg]. rewrite Hc. destruct (bp_compute_reward e).
    - cbn [b_get_control_mask bind].
      destruct (b_reward_eq B n (bp_state ps) breg reg (bp_rewards e) (amap fbool (amap m_is_sdc (b_meta (bp_state ps)))) HN Dm)
        as (r & H1 & D1 & F1). rewrite H1. cbn [bind].
      destruct (b_onehot_eq r (amap m_is_sdc (b_meta (bp_state ps))) B n D1 Dm) as (z & H2 & D2 & F2).
      exists z. split; [exact H2|]. split; [exact D2|]. intros b I. cbn [pscenario ps_state get_control_mask bind].
      change (s_meta (scenario (bp_state ps) b)) with (vector (b_meta (bp_state ps)) b).
      rewrite <- !vector_amap, F1 by exact I. cbn [bind]. now apply F2.
    - eexists. split; [reflexivity|]. split; [exact (batch_shape B n T _ W)|]. reflexivity.
  Qed.
End Expert.
