(** Observations, expert actions, route metrics and agents do not depend on the order of
    the objects or on padding rows (C69). *)
From Coq Require Import Reals String List ZArith Bool Lia.
From Verif.Lib Require Import Base JaxIndex Scalar XR.
From Verif.Model Require Import Operations State Dynamics BaseEnv Geometry Dyn_State Dyn_Delta Dyn_Bicycle Discretizer
  Comfort Metrics Pose Roadgraph Observation Expert Waypoint.
From Verif.Spec Require Import StateSpec ObsSpec MetricSpec MovedSpec EmbedSpec.
From Verif.Proofs Require Import Core P_Actions P_Metrics P_Route P_Observation P_OwnFrame P_Lead P_Reward P_Discretizer P_Embed.
Import ListNotations.
Local Open Scope nat_scope.

Lemma row_of_table {A} n n' T f (m m' : list (list A)) i : rect n T m -> rect n' T m' -> f i < n' -> i < n -> same_table n f m m' ->
  nth_error m' (f i) = nth_error m i.
Proof.
  intros [L1 L2] [L1' L2'] Hf Hi TB. destruct (nth_error m i) as [r|] eqn:E; [|apply nth_error_None in E; lia].
  destruct (nth_error m' (f i)) as [r'|] eqn:E'; [|apply nth_error_None in E'; lia].
  f_equal. apply nth_error_ext_eq. intros t. specialize (TB i t Hi). unfold at2 in TB. now rewrite E, E' in TB.
Qed.

Section Any.
  Context {S : Scalar}.

  Lemma embed_sdc n n' T f s s' i : same_scene n n' T f s s' -> the_sdc (s_meta s) i -> the_sdc (s_meta s') (f i) /\ i < n.
  Proof.
    intros ((L & M & Hn & HT) & (L' & M' & Hn' & _) & (P1 & P2) & TL & SP & TM & SD & _) ((m & Em & Vm) & U).
    assert (Hi : i < n) by (rewrite <- M; eapply nth_error_Some_lt; eauto). split; [|auto]. split.
    - exists m. rewrite TM; auto.
    - intros j m' Ej Vj. assert (Hj : j < n') by (rewrite <- M'; eapply nth_error_Some_lt; eauto).
      destruct (spare_dec n n' f j Hj) as [(k & Hk & <-)|Hs]; [|rewrite (SD _ _ Hs Ej) in Vj; discriminate].
      rewrite TM in Ej by auto. f_equal. eauto.
  Qed.

  Lemma embed_frame_view n n' f fr psdc p v v' : same_sight n n' f v v' ->
    same_sight n n' f (frame_view fr psdc p v) (frame_view fr psdc p v').
  Proof.
    intros SS. assert (TV : forall d, same_sight n n' f (transform_view v d) (transform_view v' d)).
    { intros d. destruct SS as (A & B & C & D & E & F & G). unfold transform_view. rewrite D, E, F, G.
      split; [|split; [|split; [|repeat split]]]; cbn [v_traj v_meta].
      - intros i t Hi. unfold transform_trajectory. now rewrite !at2_map, A.
      - intros j t q Hj Q. unfold transform_trajectory in Q. rewrite at2_map in Q.
        destruct (at2 (v_traj v') j t) as [q0|] eqn:Q0; [|discriminate]. injection Q as <-. cbn. now rewrite (B _ _ _ Hj Q0).
      - exact C. }
    destruct fr; cbn [frame_view]; auto.
  Qed.

  Lemma embed_window n n' T f k t (m m' : traj) (w w' : traj) : same_table n f m m' -> spares_absent n n' f m' -> places n n' f ->
    rect n k w -> rect n' k w' -> (forall j x, j < n -> x < k -> at2 w j x = at2 m j (t + 1 - k + x)) ->
    (forall j x, j < n' -> x < k -> at2 w' j x = at2 m' j (t + 1 - k + x)) ->
    rect n T m -> same_table n f w w' /\ spares_absent n n' f w'.
  Proof.
    intros TB SP (P1 & P2) R R' A A' _. split.
    - intros i x Hi. destruct (Nat.lt_ge_cases x k) as [Hx|Hx]; [rewrite A', A by auto; apply TB; auto|].
      destruct (at2 w' (f i) x) eqn:E; [apply (at2_Some_lt _ _ _ _ _ _ R') in E; lia|].
      destruct (at2 w i x) eqn:E'; [apply (at2_Some_lt _ _ _ _ _ _ R) in E'; lia|reflexivity].
    - intros j x p Hj E. destruct (at2_Some_lt _ _ _ _ _ _ R' E). rewrite A' in E by auto. eapply SP; eauto.
  Qed.

  Lemma embed_obs_wf n n' L T t f s s' : same_episode n n' T f s s' -> obs_wf n L T t s -> obs_wf n' L T t s'.
  Proof.
    intros SE (_ & R & Et & Ht). destruct (episode_wf _ _ _ _ _ _ SE) as [_ W'].
    destruct SE as ((_ & _ & _ & _ & _ & _ & _ & E1 & _) & _ & _ & _ & _ & E2). repeat split; auto; try apply W'; congruence || (rewrite ?E1; apply R).
  Qed.

  Lemma embed_observation n n' L T t f s s' k topk fr rg : same_episode n n' T f s s' -> obs_wf n L T t s -> k <= t + 1 ->
    s_rg s = Some rg -> topk <= length rg -> (fr = FRAME_SDC -> exists i, the_sdc (s_meta s) i) ->
    exists o o', observation_from_state s k topk fr = Ok o /\ observation_from_state s' k topk fr = Ok o' /\
      length o = n /\ length o' = n' /\
      forall i, i < n -> exists v v', nth_error o i = Some v /\ nth_error o' (f i) = Some v' /\ same_sight n n' f v v'.
  Proof.
    intros SE OW Hk Hr Ht HS. pose proof (embed_obs_wf _ _ _ _ _ _ _ _ SE OW) as OW'.
    pose proof SE as (SS & R0 & R0' & TS & SPS & ET). pose proof SS as (W & W' & P & TL & SP & TM & SD & E1 & E2 & E3).
    destruct (observation_spec n L T t s k topk fr rg OW Hk Hr Ht)
      as (o & win & tlw & isdc & psdc & Eo & Lo & Rw & Rt & Aw & At & Ei & Li & Ep & V).
    destruct (observation_spec n' L T t s' k topk fr rg OW' Hk ltac:(congruence) Ht)
      as (o' & win' & tlw' & isdc' & psdc' & Eo' & Lo' & Rw' & Rt' & Aw' & At' & Ei' & Li' & Ep' & V').
    exists o, o'. repeat (split; [assumption|]). intros i Hi. destruct (V i Hi) as (p & rgf & Hp & Hf & Hv).
    destruct (V' (f i) (proj1 P i Hi)) as (p' & rgf' & Hp' & Hf' & Hv').
    rewrite TS in Hp' by auto. rewrite Hp in Hp'. injection Hp' as <-. rewrite Hf in Hf'. apply Ok_inj in Hf'. subst rgf'.
    exists (frame_view fr psdc p (mkview win (is_ego_row n i) zero_pose (s_meta s) rgf tlw no_paths)).
    exists (frame_view fr psdc' p (mkview win' (is_ego_row n' (f i)) zero_pose (s_meta s') rgf tlw' no_paths)).
    split; [exact Hv|]. split; [exact Hv'|].
    assert (tlw' = tlw) as ->.
    { apply (rect_ext L k); auto. intros j x Hj Hx. rewrite At', At, E1 by auto. reflexivity. }
    assert (B : same_sight n n' f (mkview win (is_ego_row n i) zero_pose (s_meta s) rgf tlw no_paths)
                  (mkview win' (is_ego_row n' (f i)) zero_pose (s_meta s') rgf tlw no_paths)).
    { destruct (embed_window n n' T f k t _ _ win win' TS SPS P Rw Rw' Aw Aw' R0) as [B1 B2].
      split; [exact B1|]. split; [exact B2|]. split; [exact TM|]. repeat split. }
    destruct fr; [|exact (embed_frame_view n n' f FRAME_OBJECT psdc p _ _ B)|exact B].
    destruct (HS eq_refl) as (c & Hc). destruct (embed_sdc _ _ _ _ _ _ _ SS Hc) as [Hc' Lc].
    apply the_sdc_index in Hc, Hc'. rewrite Hc in Ei. rewrite Hc' in Ei'. apply Ok_inj in Ei, Ei'. subst isdc isdc'.
    rewrite TS, Ep in Ep' by auto. injection Ep' as <-. now apply embed_frame_view.
  Qed.

  Lemma embed_sdc_observation n n' L T t f s s' k topk fr rg i : same_episode n n' T f s s' -> obs_wf n L T t s -> k <= t + 1 ->
    s_rg s = Some rg -> topk <= length rg -> the_sdc (s_meta s) i ->
    exists v v', sdc_observation_from_state s k topk fr = Ok [v] /\ sdc_observation_from_state s' k topk fr = Ok [v'] /\
      same_sight n n' f v v' /\ same_rows n f (v_is_ego v) (v_is_ego v').
  Proof.
    intros SE OW Hk Hr Ht Hc. pose proof (embed_obs_wf _ _ _ _ _ _ _ _ SE OW) as OW'.
    pose proof SE as (SS & R0 & R0' & TS & SPS & ET). pose proof SS as (W & W' & P & TL & SP & TM & SD & E1 & E2 & E3).
    destruct (sdc_observation_spec n L T t s k topk fr rg OW Hk Hr Ht)
      as (win & tlw & isdc & psdc & rgf & Rw & Rt & Aw & At & Ei & Li & Ep & Hf & V).
    destruct (sdc_observation_spec n' L T t s' k topk fr rg OW' Hk ltac:(congruence) Ht)
      as (win' & tlw' & isdc' & psdc' & rgf' & Rw' & Rt' & Aw' & At' & Ei' & Li' & Ep' & Hf' & V').
    destruct (embed_sdc _ _ _ _ _ _ _ SS Hc) as [Hc' Lc].
    apply the_sdc_index in Hc, Hc'. rewrite Hc in Ei. rewrite Hc' in Ei'. apply Ok_inj in Ei, Ei'. subst isdc isdc'.
    rewrite TS, Ep in Ep' by auto. injection Ep' as <-. rewrite Hf in Hf'. apply Ok_inj in Hf'. subst rgf'.
    assert (tlw' = tlw) as ->.
    { apply (rect_ext L k); auto. intros j x Hj Hx. rewrite At', At, E1 by auto. reflexivity. }
    rewrite E2 in V'. eexists _, _. split; [exact V|]. split; [exact V'|].
    destruct (embed_window n n' T f k t _ _ win win' TS SPS P Rw Rw' Aw Aw' R0) as [B1 B2]. split.
    - apply embed_frame_view. split; [exact B1|]. split; [exact B2|]. split; [exact TM|]. repeat split.
    - assert (X : forall fr p q w, v_is_ego (frame_view fr p q w) = v_is_ego w) by (intros []; reflexivity).
      rewrite !X. cbn [v_is_ego]. intros j Hj. rewrite !nth_error_map, TM; auto.
  Qed.

  (** Expert actions. *)
  Definition inverse_by_row (d : dynamics) : Prop := forall n n' T f s s' t a a', same_scene n n' T f s s' ->
    d_inverse d (s_log s) (s_meta s) t = Ok a -> d_inverse d (s_log s') (s_meta s') t = Ok a' -> same_rows n f a a'.

  Lemma two_by_row {B} (g : pt * pt -> B) n n' T f s s' t ps ps' : same_scene n n' T f s s' ->
    two_frames (s_log s) t = Ok ps -> two_frames (s_log s') t = Ok ps' -> same_rows n f (map g ps) (map g ps').
  Proof.
    intros ((L & _) & (L' & _) & P & TL & _) H H'. destruct (embed_two_frames n n' T f _ _ _ _ _ L L' P TL H H') as (_ & _ & PR & _).
    intros i Hi. rewrite !nth_error_map, PR; auto.
  Qed.

  Lemma state_by_row : inverse_by_row StateDynamics.
  Proof.
    intros n n' T f s s' t a a' ((L & M & Hn & HT) & (L' & _) & P & TL & _) H H'. cbn [d_inverse StateDynamics] in H, H'. unfold state_inverse in H, H'.
    apply bind_Ok in H as (c & Hc & H). apply bind_Ok in H' as (c' & Hc' & H'). injection H as <-. injection H' as <-.
    destruct (embed_index n n' T f _ _ _ _ _ L L' P TL HT Hc Hc') as (_ & _ & CR & _).
    intros i Hi. rewrite !nth_error_map, CR; auto.
  Qed.
  Lemma global_by_row q : inverse_by_row (DeltaGlobal q).
  Proof.
    intros n n' T f s s' t a a' SC H H'. cbn [d_inverse DeltaGlobal] in H, H'. unfold delta_global_inverse in H, H'.
    apply bind_Ok in H as (c & Hc & H). apply bind_Ok in H' as (c' & Hc' & H'). injection H as <-. injection H' as <-.
    eapply (two_by_row (fun pq => delta_global_inverse1 q (fst pq) (snd pq))); eauto.
  Qed.
  Lemma bicycle_by_row q : inverse_by_row (InvertibleBicycleModel q).
  Proof.
    intros n n' T f s s' t a a' SC H H'. cbn [d_inverse InvertibleBicycleModel] in H, H'. unfold bicycle_inverse in H, H'.
    apply bind_Ok in H as (c & Hc & H). apply bind_Ok in H' as (c' & Hc' & H'). injection H as <-. injection H' as <-.
    eapply (two_by_row (fun pq => bicycle_inverse_action q (fst pq) (snd pq))); eauto.
  Qed.
  Lemma local_by_row q : inverse_by_row (DeltaLocal q).
  Proof.
    intros n n' T f s s' t a a' SC H H'. cbn [d_inverse DeltaLocal] in H, H'. unfold delta_local_inverse in H, H'.
    apply bind_Ok in H as (c & Hc & H). apply bind_Ok in H' as (c' & Hc' & H').
    apply bind_Ok in H as (e & He & H). apply bind_Ok in H' as (e' & He' & H'). injection H as <-. injection H' as <-.
    destruct SC as ((L & M & Hn & HT) & (L' & _) & P & TL & _).
    destruct (embed_two_frames n n' T f _ _ _ _ _ L L' P TL Hc Hc') as (_ & _ & PR & _).
    destruct (embed_index n n' T f _ _ _ _ _ L L' P TL HT He He') as (_ & _ & ER & _).
    intros i Hi. rewrite !nth_error_map2, PR, ER; auto.
  Qed.

  Lemma mapM_row {A B} (g : A -> res B) n (f : nat -> nat) l l' r r' : length l = n ->
    mapM g l = Ok r -> mapM g l' = Ok r' -> same_rows n f l l' -> same_rows n f r r'.
  Proof.
    intros L H H' R i Hi. destruct (nth_error l i) as [x|] eqn:E; [|apply nth_error_None in E; lia].
    destruct (mapM_nth _ _ _ i x H E) as (b & Hb & ->). destruct (mapM_nth _ _ _ (f i) x H' ltac:(rewrite R; auto)) as (b' & Hb' & ->). congruence.
  Qed.

  Lemma search_by_row n n' T f s s' t d all ph a a' : dyn_local d -> same_scene n n' T f s s' ->
    inverse_action_by_search (s_log s) (s_meta s) t d all ph = Ok a ->
    inverse_action_by_search (s_log s') (s_meta s') t d all ph = Ok a' -> same_rows n f a a'.
  Proof.
    intros DL SC H H'. unfold inverse_action_by_search in H, H'. cbn [get_control_mask bind] in H, H'.
    apply bind_Ok in H as (vs & Hv & H). apply bind_Ok in H' as (vs' & Hv' & H').
    apply bind_Ok in H as (nx & Hx & H). apply bind_Ok in H' as (nx' & Hx' & H').
    apply bind_Ok in H as (lg & Hl & H). apply bind_Ok in H' as (lg' & Hl' & H'). injection H as <-. injection H' as <-.
    pose proof SC as ((L & M & Hn & HT) & (L' & M' & Hn' & _) & P & TL & SP & TM & SD & _).
    destruct (embed_index n n' T f _ _ _ _ _ L L' P TL HT Hl Hl') as (Ll & Ll' & LR & _).
    pose proof (rect_map n T p_valid _ L) as Lv. pose proof (rect_map n' T p_valid _ L') as Lv'.
    destruct (dynamic_slice_Ok _ _ _ _ _ _ Lv Hv) as [Rv Av]. destruct (dynamic_slice_Ok _ _ _ _ _ _ Lv' Hv') as [Rv' Av'].
    assert (VR : same_rows n f vs vs').
    { intros i Hi. apply (row_of_table n n' 2); auto; [apply P; auto|]. intros j x Hj. destruct (Nat.lt_ge_cases x 2) as [Hx2|Hx2].
      - rewrite Av', Av, !at2_map, TL by (auto; apply P; auto). reflexivity.
      - destruct (at2 vs' (f j) x) eqn:E; [apply (at2_Some_lt _ _ _ _ _ _ Rv') in E; lia|].
        destruct (at2 vs j x) eqn:E'; [apply (at2_Some_lt _ _ _ _ _ _ Rv) in E'; lia|reflexivity]. }
    set (va := map (fun r => nth 0 r false && nth 1 r false) vs) in *. set (va' := map (fun r => nth 0 r false && nth 1 r false) vs') in *.
    assert (VA : same_rows n f va va') by (intros i Hi; unfold va, va'; rewrite !nth_error_map, VR; auto).
    assert (Lva : length va = n) by (unfold va; rewrite map_length; apply Rv).
    assert (Lva' : length va' = n') by (unfold va'; rewrite map_length; apply Rv').
    assert (ONE : forall data o o', search_next d (s_log s) (map m_is_sdc (s_meta s)) va t data = Ok o ->
              search_next d (s_log s') (map m_is_sdc (s_meta s')) va' t data = Ok o' -> same_rows n f o o').
    { intros data o o' Y Y'. unfold search_next in Y, Y'. apply bind_Ok in Y as (sim & Hs & Y). apply bind_Ok in Y' as (sim' & Hs' & Y').
      set (c0 := mkcfg n 0 SDC false). set (c1 := mkcfg n' 0 SDC false).
      set (z := mkstate (s_log s) (s_log s) [] (s_meta s) t None None).
      set (z' := mkstate (s_log s') (s_log s') [] (s_meta s') t None None).
      assert (SE : same_episode n n' T f z z').
      { split; [|split; [exact L|split; [exact L'|split; [exact TL|split; [exact SP|reflexivity]]]]].
        unfold same_scene, wf_scenario; cbn. repeat split; auto; try apply L; try apply L'; apply P. }
      pose proof (embed_step n n' T f d c0 c1 z z' (map (fun v => mkact data v) va) (map (fun v => mkact data v) va')
        (mkstate sim (s_log s) [] (s_meta s) (t + 1) None None) (mkstate sim' (s_log s') [] (s_meta s') (t + 1) None None)) as ST.
      destruct ST as (_ & Q & Q' & QT & _).
      - exact SE.
      - repeat split.
      - exact DL.
      - unfold same_actions; rewrite !map_length. split; [auto|]. split; [auto|]. intros i Hi. rewrite !nth_error_map, VA; auto.
      - unfold env_step. cbn. rewrite Hs. reflexivity.
      - unfold env_step. cbn. rewrite Hs'. reflexivity.
      - cbn [s_sim] in Q, Q', QT. eapply (embed_index n n' T f sim sim'); eauto. }
    intros i Hi. rewrite !nth_error_map2, !nth_error_mapi, VA, LR by auto.
    destruct (nth_error va i) as [v|]; [|reflexivity]. destruct (nth_error lg i) as [l|]; [|reflexivity]. cbn [option_map].
    assert (E : map (fun next => corner_dist (nth (f i) next zero_pt) l) nx' = map (fun next => corner_dist (nth i next zero_pt) l) nx).
    { clear - Hx Hx' ONE Hi. revert nx nx' Hx Hx'. induction all as [|x all IH]; intros nx nx' Hx Hx'; cbn [mapM] in Hx, Hx'.
      - injection Hx as <-. injection Hx' as <-. reflexivity.
      - apply bind_Ok in Hx as (o & Ho & Hx). apply bind_Ok in Hx as (os & Hos & Hx). injection Hx as <-.
        apply bind_Ok in Hx' as (o' & Ho' & Hx'). apply bind_Ok in Hx' as (os' & Hos' & Hx'). injection Hx' as <-.
        cbn [map]. f_equal; [|now apply IH]. pose proof (ONE _ _ _ Ho Ho' i Hi) as E. f_equal.
        rewrite <- (nth_default_eq (f i)), <- (nth_default_eq i). unfold nth_default. now rewrite E. }
    now rewrite E.
  Qed.

  Lemma wrapper_by_row w : dyn_local (dw_cont w) -> inverse_by_row (dw_cont w) -> inverse_by_row (DiscreteActionSpaceWrapper w).
  Proof.
    intros DL IR n n' T f s s' t a a' SC H H'. cbn [d_inverse DiscreteActionSpaceWrapper] in H, H'. unfold dw_inverse in H, H'.
    destruct (dw_bin_inverse w); [|eapply search_by_row; eauto].
    apply bind_Ok in H as (c & Hc & H). apply bind_Ok in H' as (c' & Hc' & H'). pose proof (IR _ _ _ _ _ _ _ _ _ SC Hc Hc') as R.
    intros i Hi. destruct (nth_error c i) as [x|] eqn:E.
    - destruct (mapM_nth _ _ _ i x H E) as (b & Hb & ->). destruct (mapM_nth _ _ _ (f i) x H' ltac:(rewrite R; auto)) as (b' & Hb' & ->). congruence.
    - pose proof (mapM_length _ _ _ H) as LL. pose proof (mapM_length _ _ _ H') as LL'.
      assert (nth_error c' (f i) = None) as E' by (rewrite R; auto). apply nth_error_None in E, E'.
      rewrite (proj2 (nth_error_None a i)), (proj2 (nth_error_None a' (f i))) by lia. reflexivity.
  Qed.

  Lemma embed_expert n n' T f d s s' a a' : inverse_by_row d -> same_episode n n' T f s s' ->
    infer_expert_action d s = Ok a -> infer_expert_action d s' = Ok a' -> same_rows n f a a'.
  Proof.
    intros IR SE H H'. unfold infer_expert_action in H, H'.
    pose proof SE as (((L & M & Hn & HT) & (L' & M' & Hn' & _) & P & TL & SP & TM & SD & _) & R0 & R0' & TS & SPS & ET). rewrite ET in H'.
    apply bind_Ok in H as (u & Hu & H). apply bind_Ok in H as (v & Hv & H). apply bind_Ok in H' as (u' & Hu' & H'). apply bind_Ok in H' as (v' & Hv' & H').
    destruct (dynamic_slice_Ok _ _ _ _ _ _ R0 Hu) as [Ru Au]. destruct (dynamic_slice_Ok _ _ _ _ _ _ R0' Hu') as [Ru' Au'].
    destruct (dynamic_slice_Ok _ _ _ _ _ _ L Hv) as [Rv Av]. destruct (dynamic_slice_Ok _ _ _ _ _ _ L' Hv') as [Rv' Av'].
    assert (PAIR : forall N (x y : traj), rect N 1 x -> rect N 1 y -> rect N 2 (map2 (@app pt) x y) /\
      forall i, i < N -> at2 (map2 (@app pt) x y) i 0 = at2 x i 0 /\ at2 (map2 (@app pt) x y) i 1 = at2 y i 0).
    { intros N x y [X1 X2] [Y1 Y2]. assert (G : forall i, i < N -> exists p q, nth_error x i = Some [p] /\ nth_error y i = Some [q]).
      { intros i Hi. destruct (nth_error x i) as [r|] eqn:E; [|apply nth_error_None in E; lia].
        destruct (nth_error y i) as [r'|] eqn:E'; [|apply nth_error_None in E'; lia].
        pose proof (X2 _ (nth_error_In _ _ E)). pose proof (Y2 _ (nth_error_In _ _ E')).
        destruct r as [|p [|]], r' as [|q [|]]; try discriminate. eauto. }
      assert (LL : length (map2 (@app pt) x y) = N) by (rewrite map2_length; lia).
      split; [split; [exact LL|]|].
      - intros r Hr. apply In_nth_error in Hr as [i Hi]. pose proof (nth_error_Some_lt _ _ _ Hi). rewrite nth_error_map2 in Hi.
        destruct (G i) as (p & q & E & E'); [lia|]. rewrite E, E' in Hi. injection Hi as <-. reflexivity.
      - intros i Hi. unfold at2. rewrite nth_error_map2. destruct (G i Hi) as (p & q & -> & ->). auto. }
    destruct (PAIR n u v Ru Rv) as [RP AP]. destruct (PAIR n' u' v' Ru' Rv') as [RP' AP'].
    set (z := mkstate [] (map2 (@app pt) u v) [] (s_meta s) 0 None None).
    set (z' := mkstate [] (map2 (@app pt) u' v') [] (s_meta s') 0 None None).
    apply (IR n n' 2 f z z' 0%Z a a'); auto. unfold same_scene, wf_scenario, z, z'; cbn [s_log s_meta s_tls s_paths s_rg].
    split; [repeat split; auto; apply RP|]. split; [repeat split; auto; apply RP'|]. split; [exact P|]. split; [|split; [|split; [exact TM|split; [exact SD|auto]]]].
    - intros i x Hi. destruct (AP i Hi) as [A0 A1]. destruct (AP' (f i) (proj1 P i Hi)) as [B0 B1].
      destruct x as [|[|x]].
      + rewrite A0, B0, Au', Au by (auto; apply P; auto). apply TS; auto.
      + rewrite A1, B1, Av', Av by (auto; apply P; auto). apply TL; auto.
      + match goal with |- ?l = ?r => destruct l eqn:E; [apply (at2_Some_lt _ _ _ _ _ _ RP') in E; lia|]; destruct r eqn:E'; [apply (at2_Some_lt _ _ _ _ _ _ RP) in E'; lia|reflexivity] end.
    - intros j x p Hj E. destruct (at2_Some_lt _ _ _ _ _ _ RP' E) as [Hj' Hx]. destruct (AP' j Hj') as [B0 B1].
      destruct x as [|[|x]]; [rewrite B0, Au' in E by (auto; lia); eapply SPS; eauto|rewrite B1, Av' in E by (auto; lia); eapply SP; eauto|lia].
  Qed.
End Any.

(* ---------------- route metrics ---------------- *)

Lemma readable_sdc ms (fr : list (pt (S := XR))) i p : readable ms fr i -> nth_error fr i = Some p ->
  sdc_xy (S := XR) fr ms = Ok (p_x p, p_y p) /\ sdc_valid fr ms = Ok true.
Proof.
  intros (L & U & Fi & q & Hq & Vq) Hp. rewrite Hq in Hp. apply Some_inj in Hp. subst q.
  destruct (Fi p (nth_error_In _ _ Hq)) as (c & X & Y). split.
  - unfold sdc_xy. rewrite X, Y. rewrite (select_onehot_Fin (map p_x fr) ms i (fst c)); [| |exact U| |].
    + cbn [bind]. rewrite (select_onehot_Fin (map p_y fr) ms i (snd c)); [reflexivity| |exact U| |].
      * now rewrite map_length.
      * intros y Hy. apply in_map_iff in Hy as (r & <- & Hr). destruct (Fi r Hr) as (d & _ & E). eauto.
      * rewrite nth_error_map, Hq. cbn. congruence.
    + now rewrite map_length.
    + intros y Hy. apply in_map_iff in Hy as (r & <- & Hr). destruct (Fi r Hr) as (d & E & _). eauto.
    + rewrite nth_error_map, Hq. cbn. congruence.
  - unfold sdc_valid. rewrite (select_onehot_b _ ms i true); auto; rewrite ?map_length; auto.
    rewrite nth_error_map, Hq. cbn. congruence.
Qed.

Lemma embed_sdc_xy n (f : nat -> nat) ms ms' (fr fr' : list (pt (S := XR))) i : i < n -> same_rows n f fr fr' ->
  readable ms fr i -> readable ms' fr' (f i) ->
  exists xy, sdc_xy (S := XR) fr ms = Ok xy /\ sdc_xy fr' ms' = Ok xy /\ sdc_valid fr ms = Ok true /\ sdc_valid fr' ms' = Ok true.
Proof.
  intros Hi R Rd Rd'. pose proof Rd as (_ & _ & _ & p & Hp & _).
  destruct (readable_sdc _ _ _ _ Rd Hp) as [A B]. destruct (readable_sdc _ _ _ _ Rd' (eq_trans (R i Hi) Hp)) as [A' B']. eauto.
Qed.

Lemma embed_log_frame n n' T f (m m' : traj (S := XR)) k c c' : rect n T m -> rect n' T m' -> places n n' f -> same_table n f m m' ->
  log_frame m k = Ok c -> log_frame m' k = Ok c' -> same_rows n f c c'.
Proof.
  intros R R' P TB H H' i Hi. unfold log_frame in H, H'. pose proof (row_of_table n n' T f m m' i R R' (proj1 P i Hi) Hi TB) as E.
  destruct (nth_error m i) as [r|] eqn:Er; [|apply nth_error_None in Er; destruct R; lia].
  destruct (mapM_nth _ _ _ i r H Er) as (b & Hb & ->). destruct (mapM_nth _ _ _ (f i) r H' E) as (b' & Hb' & ->). congruence.
Qed.

Lemma embed_route n n' T f s s' i cur cur' : same_episode (S := XR) n n' T f s s' ->
  current_sim s = Ok cur -> current_sim s' = Ok cur' -> readable (s_meta s) cur i -> readable (s_meta s') cur' (f i) ->
  wrongway_compute s' = wrongway_compute s /\ off_route_compute s' = off_route_compute s /\
  forall fst0 fst0' lst lst',
     log_frame (s_log s) 0 = Ok fst0 -> log_frame (s_log s') 0 = Ok fst0' ->
     log_frame (s_log s) (num_timesteps (s_log s) - 1) = Ok lst ->
     log_frame (s_log s') (num_timesteps (s_log s') - 1) = Ok lst' ->
     readable (s_meta s) fst0 i -> readable (s_meta s') fst0' (f i) ->
     readable (s_meta s) lst i -> readable (s_meta s') lst' (f i) ->
     progression_compute s' = progression_compute s.
Proof.
  intros SE H H' Rd Rd'. destruct (embed_current _ _ _ _ _ _ _ _ SE H H') as (Lc & _ & CR & _).
  assert (Hi : i < n) by (destruct Rd as (_ & _ & _ & p & Hp & _); apply nth_error_Some_lt in Hp; lia).
  destruct (embed_sdc_xy n f _ _ _ _ i Hi CR Rd Rd') as (xy & A & A' & V & V').
  pose proof SE as (((L & M & Hn & HT) & (L' & M' & Hn' & _) & P & TL & SP & TM & SD & _ & EP & _) & _). unfold current_sim in H, H'.
  unfold wrongway_compute, off_route_compute, progression_compute. rewrite EP, H, H'. cbn [bind]. rewrite A, A', V, V'. cbn [bind].
  split; [reflexivity|]. split; [reflexivity|]. intros f0 f0' l0 l0' F F' G G' R1 R1' R2 R2'.
  assert (NT : forall N (m : traj (S := XR)), 0 < N -> rect N T m -> num_timesteps m = T).
  { intros N m HN [Q1 Q2]. destruct m as [|r m]; [cbn in Q1; lia|]. cbn. apply Q2. now left. }
  rewrite (NT n _ Hn L) in *. rewrite (NT n' _ Hn' L') in *.
  destruct (embed_sdc_xy n f _ _ _ _ i Hi (embed_log_frame n n' T f _ _ _ _ _ L L' P TL F F') R1 R1') as (b & B & B' & _).
  destruct (embed_sdc_xy n f _ _ _ _ i Hi (embed_log_frame n n' T f _ _ _ _ _ L L' P TL G G') R2 R2') as (e & E & E' & _).
  rewrite F, F'. cbn [bind]. rewrite B, B'. cbn [bind]. rewrite G, G'. cbn [bind]. rewrite E, E'. reflexivity.
Qed.

(* ---------------- the agents ---------------- *)

Lemma xmin_comm a b : xmin a b = xmin b a.
Proof. destruct a, b; cbn; auto. f_equal. apply Rmin_comm. Qed.
Lemma xmin_assoc a b c : xmin a (xmin b c) = xmin (xmin a b) c.
Proof. destruct a, b, c; cbn; auto. f_equal. apply Rmin_assoc. Qed.
Lemma xmin_idem a : xmin a a = a.
Proof. destruct a; cbn; auto. f_equal. unfold Rmin. destruct (Rle_dec _ _); auto. Qed.
Lemma xmin_PInf a : xmin a PInf = a.
Proof. destruct a; reflexivity. Qed.

Lemma list_min_fold l : list_min (S := XR) l = fold_right xmin PInf l.
Proof.
  destruct l as [|x l]; [reflexivity|]. cbn [list_min fold_right]. unfold fminl. change (@fmin XR) with xmin. change (@F XR) with xr in *.
  revert x. induction l as [|y l IH]; intros x; cbn [fold_left fold_right]; [now rewrite xmin_PInf|].
  rewrite IH. now rewrite xmin_assoc.
Qed.

Lemma fold_min_in l x : In x l -> xmin x (fold_right xmin PInf l) = fold_right xmin PInf l.
Proof.
  induction l as [|y l IH]; [intros []|]. intros [<-|H]; cbn [fold_right].
  - now rewrite xmin_assoc, xmin_idem.
  - rewrite xmin_assoc, (xmin_comm x y), <- xmin_assoc. now rewrite IH.
Qed.
Lemma fold_min_sub l m : (forall x, In x l -> In x m \/ x = PInf) ->
  xmin (fold_right xmin PInf l) (fold_right xmin PInf m) = fold_right xmin PInf m.
Proof.
  induction l as [|y l IH]; intros H; cbn [fold_right]; [rewrite xmin_comm; apply xmin_PInf|].
  rewrite <- xmin_assoc, IH by (intros; apply H; now right).
  destruct (H y (or_introl eq_refl)) as [Hy| ->]; [now apply fold_min_in|]. rewrite xmin_comm. apply xmin_PInf.
Qed.
(** The minimum only depends on which values below infinity are listed. *)
Lemma list_min_same l m : (forall x, In x l -> In x m \/ x = PInf) -> (forall x, In x m -> In x l \/ x = PInf) ->
  list_min (S := XR) l = list_min (S := XR) m.
Proof.
  intros A B. rewrite !list_min_fold. rewrite <- (fold_min_sub _ _ B), xmin_comm. now apply fold_min_sub.
Qed.

(** What object [i] sees ahead. *)
Lemma embed_lead n n' f i (tr cur cur' : list (pt (S := XR))) me : places n n' f -> i < n ->
  length cur = n -> length cur' = n' -> same_rows n f cur cur' ->
  (forall j p, spare n n' f j -> nth_error cur' j = Some p -> p_valid p = false) ->
  object_lead (S := XR) (f i) tr cur' me = object_lead (S := XR) i tr cur me.
Proof.
  intros (P1 & P2) Hi L L' CR SP. unfold object_lead.
  assert (CE : forall j w c, j < n -> collision (S := XR) (f i) w (f j) c = collision i w j c).
  { intros j w c Hj. unfold collision. assert ((f i =? f j) = (i =? j)) as ->; [|reflexivity].
    apply Bool.eq_true_iff_eq. rewrite !Nat.eqb_eq. split; [apply P2; auto|congruence]. }
  assert (CELL : forall k (cu : list (pt (S := XR))) t w, nth_error tr t = Some w ->
    map (fun r => nth t r PInf)
      (map3 (map3 (collision_vels_at (S := XR))) (map (fun c => map (fun _ => obj_speed (S := XR) c) tr) cu)
         (mapi (fun j c => map (fun w0 => collision (S := XR) k w0 j c) tr) cu)
         (map (fun c => map (fun _ => p_valid c) tr) cu))
    = mapi (fun j c => collision_vels_at (S := XR) (obj_speed c) (collision k w j c) (p_valid c)) cu).
  { intros k cu t w Ht. apply nth_error_ext_eq. intros j. rewrite nth_error_map, nth_error_map3, !nth_error_map, !nth_error_mapi.
    destruct (nth_error cu j) as [c|]; [|reflexivity]. cbn [option_map]. f_equal.
    assert (Z : nth_error (map3 (collision_vels_at (S := XR)) (map (fun _ => obj_speed c) tr) (map (fun w0 => collision k w0 j c) tr)
        (map (fun _ => p_valid c) tr)) t = Some (collision_vels_at (S := XR) (obj_speed c) (collision k w j c) (p_valid c))).
    { rewrite nth_error_map3, !nth_error_map, Ht. reflexivity. }
    change (@F XR) with xr in *. rewrite <- (nth_default_eq t). unfold nth_default. now rewrite Z. }
  assert (ANY : forall k (cu : list (pt (S := XR))) t w, nth_error tr t = Some w ->
    existsb (fun r => nth t r false) (mapi (fun j c => map (fun w0 => collision (S := XR) k w0 j c) tr) cu) = true <->
    exists j c, nth_error cu j = Some c /\ collision (S := XR) k w j c = true).
  { intros k cu t w Ht. rewrite existsb_exists. split.
    - intros (r & Hr & E). apply In_nth_error in Hr as [j Hj]. rewrite nth_error_mapi in Hj.
      destruct (nth_error cu j) as [c|] eqn:Ec; [|discriminate]. cbn in Hj. apply Some_inj in Hj. subst r. exists j, c. split; [auto|].
      rewrite <- (nth_default_eq t) in E. unfold nth_default in E. now rewrite nth_error_map, Ht in E.
    - intros (j & c & Ec & E). exists (map (fun w0 => collision (S := XR) k w0 j c) tr). split.
      + apply nth_error_In with j. now rewrite nth_error_mapi, Ec.
      + rewrite <- (nth_default_eq t). unfold nth_default. now rewrite nth_error_map, Ht. }
  apply f_equal2.
  - unfold compute_lead_velocity.
    assert (PT : forall t, In t (seq 0 (length tr)) ->
      list_min (S := XR) (map (fun r => nth t r (finf (Scalar := XR))) (map3 (map3 (collision_vels_at (S := XR)))
        (map (fun c => map (fun _ => obj_speed (S := XR) c) tr) cur')
        (mapi (fun j c => map (fun w => collision (S := XR) (f i) w j c) tr) cur') (map (fun c => map (fun _ => p_valid c) tr) cur')))
      = list_min (S := XR) (map (fun r => nth t r (finf (Scalar := XR))) (map3 (map3 (collision_vels_at (S := XR)))
        (map (fun c => map (fun _ => obj_speed (S := XR) c) tr) cur)
        (mapi (fun j c => map (fun w => collision (S := XR) i w j c) tr) cur) (map (fun c => map (fun _ => p_valid c) tr) cur)))).
    { intros t Ht. apply in_seq in Ht. destruct (nth_error tr t) as [w|] eqn:Ew; [|apply nth_error_None in Ew; lia].
      change (finf (Scalar := XR)) with PInf. rewrite (CELL _ cur' _ _ Ew), (CELL _ cur _ _ Ew). apply list_min_same.
      - intros x Hx. apply In_nth_error in Hx as [j Hj]. rewrite nth_error_mapi in Hj.
        destruct (nth_error cur' j) as [c|] eqn:Ec; [|discriminate]. cbn [option_map] in Hj. apply Some_inj in Hj. subst x.
        assert (Hj : j < n') by (rewrite <- L'; eapply nth_error_Some_lt; eauto).
        destruct (spare_dec n n' f j Hj) as [(k & Hk & <-)|Hs].
        + left. apply nth_error_In with k. rewrite nth_error_mapi. rewrite CR in Ec by auto. rewrite Ec. cbn [option_map]. now rewrite CE.
        + right. rewrite (SP _ _ Hs Ec). reflexivity.
      - intros x Hx. apply In_nth_error in Hx as [j Hj]. rewrite nth_error_mapi in Hj.
        destruct (nth_error cur j) as [c|] eqn:Ec; [|discriminate]. cbn [option_map] in Hj. apply Some_inj in Hj. subst x.
        assert (Hj : j < n) by (rewrite <- L; eapply nth_error_Some_lt; eauto).
        left. apply nth_error_In with (f j). rewrite nth_error_mapi, CR, Ec by auto. cbn [option_map]. now rewrite CE. }
    rewrite (map_ext_in _ _ _ PT). reflexivity.
  - apply (f_equal (fun l => compute_lead_distance (S := XR) tr l me)). apply map_ext_in. intros t Ht. apply in_seq in Ht.
    destruct (nth_error tr t) as [w|] eqn:Ew; [|apply nth_error_None in Ew; lia].
    apply Bool.eq_true_iff_eq. rewrite (ANY _ cur' _ _ Ew), (ANY _ cur _ _ Ew). split.
    + intros (j & c & Ec & E). assert (Hj : j < n') by (rewrite <- L'; eapply nth_error_Some_lt; eauto).
      destruct (spare_dec n n' f j Hj) as [(k & Hk & <-)|Hs].
      * exists k, c. rewrite CR in Ec by auto. rewrite CE in E by auto. auto.
      * unfold collision in E. rewrite (SP _ _ Hs Ec), andb_false_r in E. discriminate.
    + intros (j & c & Ec & E). assert (Hj : j < n) by (rewrite <- L; eapply nth_error_Some_lt; eauto).
      exists (f j), c. rewrite CR, CE by auto. auto.
Qed.

Lemma embed_idm_speed n n' T f p s s' sv sv' : same_episode (S := XR) n n' T f s s' ->
  idm_update_speed p s = Ok sv -> idm_update_speed p s' = Ok sv' -> same_rows n f sv sv'.
Proof.
  intros SE H H'. pose proof H as G. pose proof H' as G'. unfold idm_update_speed in G, G'.
  apply bind_Ok in G as (cur & Hc & _). apply bind_Ok in G' as (cur' & Hc' & _).
  destruct (embed_current _ _ _ _ _ _ _ _ SE Hc Hc') as (Lc & Lc' & CR & SP).
  pose proof SE as (((L & M & Hn & HT) & (L' & M' & Hn' & _) & P & TL & _) & _). intros i Hi.
  destruct (nth_error cur i) as [me|] eqn:Em; [|apply nth_error_None in Em; lia].
  destruct (nth_error (s_log s) i) as [lg|] eqn:El; [|apply nth_error_None in El; destruct L; lia].
  destruct (idm_update_nth _ _ _ _ Hc H i lg me El Em) as (tr & Et & ->).
  destruct (idm_update_nth _ _ _ _ Hc' H' (f i) lg me) as (tr' & Et' & ->); [|rewrite CR; auto|].
  - rewrite <- El. eapply row_of_table; eauto. apply P; auto.
  - rewrite Et in Et'. apply Ok_inj in Et'. subst tr'. unfold object_accel.
    rewrite (embed_lead n n' f i tr cur cur' me P Hi Lc Lc' CR SP). reflexivity.
Qed.

Lemma embed_constant_speed n n' T f v s s' sv sv' : same_episode (S := XR) n n' T f s s' ->
  constant_update_speed v s = Ok sv -> constant_update_speed v s' = Ok sv' -> same_rows n f sv sv'.
Proof.
  intros SE H H'. pose proof SE as (((L & M & Hn & HT) & (L' & M' & Hn' & _) & P & TL & _) & _).
  unfold constant_update_speed in *. apply Ok_inj in H, H'. subst sv sv'. intros i Hi. rewrite !nth_error_map.
  rewrite (row_of_table n n' T f _ _ i L L' (proj1 P i Hi) Hi TL). reflexivity.
Qed.

Lemma embed_waypoint n n' T f b us s s' r r' : same_episode (S := XR) n n' T f s s' ->
  (forall sv sv', us s = Ok sv -> us s' = Ok sv' -> same_rows n f sv sv') ->
  waypoint_update (S := XR) b us s = Ok r -> waypoint_update b us s' = Ok r' ->
  same_rows n f r r' /\ forall j u, spare n n' f j -> nth_error r' j = Some u -> u_valid u = false.
Proof.
  intros SE US H H'. unfold waypoint_update in H, H'.
  apply bind_Ok in H as (sv & Hv & H). apply bind_Ok in H as (cur & Hc & H). apply bind_Ok in H as ([] & Hg & H).
  apply bind_Ok in H' as (sv' & Hv' & H'). apply bind_Ok in H' as (cur' & Hc' & H'). apply bind_Ok in H' as ([] & Hg' & H').
  pose proof (US _ _ Hv Hv') as VR. destruct (embed_current _ _ _ _ _ _ _ _ SE Hc Hc') as (Lc & Lc' & CR & SP).
  pose proof SE as (((L & M & Hn & HT) & (L' & M' & Hn' & _) & P & TL & _) & _).
  apply guard_Ok in Hg, Hg'. apply andb_true_iff in Hg as [_ Hg]. apply andb_true_iff in Hg' as [_ Hg'].
  apply Nat.eqb_eq in Hg, Hg'. split.
  - eapply (mapM_row _ n f); [|exact H|exact H'|].
    + rewrite map3_length. destruct L. lia.
    + intros i Hi. rewrite !nth_error_map3, CR, VR by auto.
      rewrite (row_of_table n n' T f _ _ i L L' (proj1 P i Hi) Hi TL). reflexivity.
  - intros j u Hj E. pose proof (mapM_length _ _ _ H') as LL. pose proof (nth_error_Some_lt _ _ _ E) as Hlt.
    destruct (nth_error (map3 (fun l c v => (l, c, v)) (s_log s') cur' sv') j) as [[[l c] v]|] eqn:X; [|apply nth_error_None in X; lia].
    destruct (mapM_nth _ _ _ j _ H' X) as (u' & Hu & Eu). rewrite E in Eu. apply Some_inj in Eu. subst u'.
    rewrite nth_error_map3 in X. destruct (nth_error (s_log s') j); [|discriminate].
    destruct (nth_error cur' j) as [c0|] eqn:Ec; [|discriminate]. destruct (nth_error sv' j); [|discriminate]. apply Some_inj in X. injection X as -> -> ->.
    apply bind_Ok in Hu as (q & Hq & Hu). apply Ok_inj in Hu. subst u. cbn [u_valid]. unfold next_by_projection in Hq.
    apply bind_Ok in Hq as ([[xy yaw] rch] & _ & Hq). rewrite (SP _ _ Hj Ec), andb_false_r in Hq. apply Ok_inj in Hq. now subst q.
Qed.

(* ---------------- every scene can be listed in every order, with padding ---------------- *)

Definition relist {A} (dflt : A) (n n' : nat) (f : nat -> nat) (l : list A) : list A :=
  map (fun j => match find (fun i => f i =? j) (seq 0 n) with Some i => nth i l dflt | None => dflt end) (seq 0 n').

Lemma relist_length {A} (d : A) n n' f l : length (relist d n n' f l) = n'.
Proof. unfold relist. now rewrite map_length, seq_length. Qed.

Lemma relist_row {A} (d : A) n n' f l i : places n n' f -> length l = n -> i < n ->
  nth_error (relist d n n' f l) (f i) = nth_error l i.
Proof.
  intros (P1 & P2) L Hi. unfold relist. rewrite nth_error_map.
  rewrite (nth_error_nth' (seq 0 n') 0) by (rewrite seq_length; auto). rewrite seq_nth by auto. cbn [option_map Nat.add].
  destruct (find (fun k => f k =? f i) (seq 0 n)) as [k|] eqn:E.
  - apply find_some in E as [Hk E]. apply in_seq in Hk. apply Nat.eqb_eq in E. apply P2 in E; [|lia|lia]. subst k.
    symmetry. apply nth_error_nth'. lia.
  - exfalso. pose proof (find_none _ _ E i ltac:(apply in_seq; lia)) as F. cbn in F. now rewrite Nat.eqb_refl in F.
Qed.

Lemma relist_spare {A} (d : A) n n' f l j : spare n n' f j -> nth_error (relist d n n' f l) j = Some d.
Proof.
  intros (Hj & N). unfold relist. rewrite nth_error_map.
  rewrite (nth_error_nth' (seq 0 n') 0) by (rewrite seq_length; auto). rewrite seq_nth by auto. cbn [option_map Nat.add].
  destruct (find (fun k => f k =? j) (seq 0 n)) as [k|] eqn:E; [|reflexivity].
  apply find_some in E as [Hk E]. apply in_seq in Hk. apply Nat.eqb_eq in E. exfalso. apply (N k); [lia|auto].
Qed.

Lemma relist_rect {A} (x : A) n n' T f m : rect n T m -> rect n' T (relist (repeat x T) n n' f m).
Proof.
  intros [L R]. split; [apply relist_length|]. intros r Hr. unfold relist in Hr. apply in_map_iff in Hr as (j & <- & _).
  destruct (find _ _) as [i|]; [|apply repeat_length]. destruct (nth_in_or_default i m (repeat x T)) as [H| ->]; [auto|apply repeat_length].
Qed.

Lemma every_episode {S : Scalar} n n' T f s : wf_state n T s -> places n n' f ->
  exists s', same_episode n n' T f s s'.
Proof.
  intros (R & L & M & Hn & HT) P. set (row := repeat invalid_pt T).
  exists (mkstate (relist row n n' f (s_sim s)) (relist row n n' f (s_log s)) (s_tls s)
    (relist (mkmeta 0 0 false false false false false) n n' f (s_meta s)) (s_t s) (s_paths s) (s_rg s)).
  assert (TAB : forall tr : traj, rect n T tr -> same_table n f tr (relist row n n' f tr) /\ spares_absent n n' f (relist row n n' f tr)).
  { intros tr [Lt Rt]. split.
    - intros i t Hi. unfold at2. rewrite relist_row; auto.
    - intros j t p Hj E. unfold at2 in E. rewrite relist_spare in E by auto. apply nth_error_In, repeat_spec in E. now subst p. }
  assert (Hn' : 0 < n') by (pose proof (proj1 P 0 Hn); lia).
  unfold same_episode, same_scene, wf_scenario; cbn [s_sim s_log s_tls s_meta s_t s_paths s_rg].
  split; [|split; [auto|split; [now apply relist_rect|split; [now apply TAB|split; [now apply TAB|reflexivity]]]]].
  split; [auto|]. split; [split; [now apply relist_rect|split; [apply relist_length|auto]]|]. split; [auto|].
  split; [now apply TAB|]. split; [now apply TAB|]. split; [|split; [|auto]].
  - intros i Hi. apply relist_row; auto.
  - intros j m Hj E. rewrite relist_spare in E by auto. now injection E as <-.
Qed.

(* ---------------- rewards ---------------- *)

(** The same measurement: per object, or of the whole scene. *)
Definition same_measure {S : Scalar} (n n' : nat) (f : nat -> nat) (v v' : mval) : Prop :=
  match v, v' with
  | PerObject l, PerObject l' => length l = n /\ length l' = n' /\ same_rows n f l l'
  | Scalar0 m, Scalar0 m' => m' = m
  | _, _ => False
  end.

Lemma embed_reward {S : Scalar} n n' f reg rewards s s' (mask mask' : list F) r r' :
  length mask = n -> length mask' = n' -> same_rows n f mask mask' ->
  (forall name g v v', In name (map fst rewards) -> lookup name reg = Some g -> g s = Ok v -> g s' = Ok v' -> same_measure n n' f v v') ->
  linear_reward reg rewards s mask = Ok r -> linear_reward reg rewards s' mask' = Ok r' -> same_rows n f r r'.
Proof.
  intros Lm Lm' MR SM H H'. unfold linear_reward in H, H'.
  apply bind_Ok in H as (all & Ha & H). apply bind_Ok in H' as (all' & Ha' & H').
  destruct (P_Reward.run_metrics_Ok _ _ _ _ Ha) as [_ V]. destruct (P_Reward.run_metrics_Ok _ _ _ _ Ha') as [_ V'].
  assert (LK : forall q, In q rewards -> exists v v', lookup (fst q) all = Some v /\ lookup (fst q) all' = Some v' /\ same_measure n n' f v v').
  { intros q Hq. assert (Hq' : In (fst q) (map fst rewards)) by now apply in_map.
    destruct (V _ Hq') as (g & v & G & E & K). destruct (V' _ Hq') as (g' & v' & G' & E' & K'). rewrite G in G'. injection G' as <-.
    exists v, v'. repeat split; auto. eapply SM; eauto. }
  set (step := fun (all : list (string * mval)) (mask : list F) (acc : res (list F)) (q : string * F) =>
    let* reward := acc in match lookup (fst q) all with
    | None => Err KeyError
    | Some v => let* metric := metric_times_mask v mask in bcast2 fadd reward (map (fun m => fmul m (snd q)) metric) end).
  change (fold_left (step all mask) rewards (Ok (map (fun _ => f0) mask)) = Ok r) in H.
  change (fold_left (step all' mask') rewards (Ok (map (fun _ => f0) mask')) = Ok r') in H'.
  assert (GEN : forall rs acc acc', (forall q, In q rs -> In q rewards) -> length acc = n -> length acc' = n' -> same_rows n f acc acc' ->
    fold_left (step all mask) rs (Ok acc) = Ok r -> fold_left (step all' mask') rs (Ok acc') = Ok r' -> same_rows n f r r').
  { induction rs as [|q rs IH]; intros acc acc' Hin La La' AR G G'; cbn [fold_left] in G, G'.
    - injection G as <-. injection G' as <-. exact AR.
    - destruct (LK q (Hin q (or_introl eq_refl))) as (v & v' & K & K' & SMv).
      assert (TM : exists me me', metric_times_mask v mask = Ok me /\ metric_times_mask v' mask' = Ok me' /\ length me = n /\ length me' = n' /\ same_rows n f me me').
      { destruct v as [l|m], v' as [l'|m']; try contradiction; cbn [metric_times_mask].
        - destruct SMv as (Ll & Ll' & LR). rewrite !P_Discretizer.bcast2_eq by lia. do 2 eexists. split; [reflexivity|]. split; [reflexivity|].
          rewrite !map2_length. split; [lia|]. split; [lia|]. intros i Hi. rewrite !nth_error_map2, LR, MR; auto.
        - cbn in SMv. subst m'. do 2 eexists. split; [reflexivity|]. split; [reflexivity|]. rewrite !map_length. split; [auto|]. split; [auto|].
          intros i Hi. rewrite !nth_error_map, MR; auto. }
      destruct TM as (me & me' & T1 & T2 & L1 & L2 & TR).
      assert (S1 : step all mask (Ok acc) q = Ok (map2 fadd acc (map (fun m => fmul m (snd q)) me))).
      { unfold step. cbn [bind]. rewrite K, T1. cbn [bind]. apply P_Discretizer.bcast2_eq. rewrite map_length. lia. }
      assert (S2 : step all' mask' (Ok acc') q = Ok (map2 fadd acc' (map (fun m => fmul m (snd q)) me'))).
      { unfold step. cbn [bind]. rewrite K', T2. cbn [bind]. apply P_Discretizer.bcast2_eq. rewrite map_length. lia. }
      rewrite S1 in G. rewrite S2 in G'. eapply IH; [| | | |exact G|exact G'].
      + intros; apply Hin; now right.
      + rewrite map2_length, map_length. lia.
      + rewrite map2_length, map_length. lia.
      + intros i Hi. rewrite !nth_error_map2, !nth_error_map, AR, TR; auto. }
  eapply (GEN rewards); [auto| | | |exact H|exact H'].
  - now rewrite map_length.
  - now rewrite map_length.
  - intros i Hi. rewrite !nth_error_map, MR; auto.
Qed.

Lemma sizes {S : Scalar} n T s l : wf_state n T s ->
  log_divergence_compute s = Ok l \/ overlap_compute s = Ok l \/ offroad_compute s = Ok l \/ (exists k, kim_compute k s = Ok l) -> length l = n.
Proof.
  intros (R & RL & _ & Hn & HT). destruct (dynamic_index_total n T (s_sim s) (s_t s) R HT) as (cur & Ec).
  destruct (dynamic_index_Ok _ _ _ _ _ R Ec) as [Lc _]. intros [H|[H|[H|(k & H)]]].
  - unfold log_divergence_compute in H. rewrite Ec in H. cbn [bind] in H. apply bind_Ok in H as (lg & Hl & H). apply Ok_inj in H. subst l.
    destruct (dynamic_index_Ok _ _ _ _ _ RL Hl) as [LL _]. rewrite map2_length. lia.
  - unfold overlap_compute in H. rewrite Ec in H. cbn [bind] in H. apply Ok_inj in H. subst l. unfold compute_overlap. now rewrite mapi_length.
  - unfold offroad_compute in H. rewrite Ec in H. cbn [bind] in H. destruct (s_rg s); [|discriminate]. now rewrite (mapM_length _ _ _ H).
  - unfold kim_compute, compute_kinematics_infeasibility, compute_inverse, two_frames in H.
    apply bind_Ok in H as (a & H1 & H). apply Ok_inj in H. subst l. apply bind_Ok in H1 as (ps & H1 & H). apply Ok_inj in H. subst a.
    apply bind_Ok in H1 as (sl & H1 & H2). destruct (dynamic_slice_Ok _ _ _ _ _ _ R H1) as [[Ls _] _].
    rewrite !map_length, (mapM_length _ _ _ H2). auto.
Qed.
