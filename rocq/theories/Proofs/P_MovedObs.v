(** The same scene in another coordinate frame (C68): observations and driven episodes. *)
From Coq Require Import Reals ZArith List Bool Lia Lra.
From Verif.Lib Require Import Base JaxIndex Scalar XR.
From Verif.Model Require Import Operations State Dynamics BaseEnv Geometry Pose Roadgraph Dyn_State Dyn_Delta
  Dyn_Bicycle Discretizer Comfort Metrics Observation.
From Verif.Spec Require Import StateSpec DynSpec DiscSpec MetricSpec ObsSpec MovedSpec.
From Verif.Proofs Require Import Core P_Angles P_Pose P_Overlap P_Delta P_Bicycle P_Metrics P_Route P_Roadgraph
  P_Observation P_OwnFrame P_Moved P_MovedMetrics.
From Verif.Spec Require Import GeomSpec.
Import ListNotations.
Open Scope R_scope.

Lemma alike_mapM_in {A B} (P : A -> A -> Prop) (Q : A -> A -> B -> B -> Prop) f f' l l' :
  Forall2 P l l' -> (forall a a', P a a' -> alike (Q a a') (f a) (f' a')) ->
  alike (fun bs bs' => length bs = length l /\ length bs' = length l' /\
           forall i a a' b b', nth_error l i = Some a -> nth_error l' i = Some a' ->
             nth_error bs i = Some b -> nth_error bs' i = Some b' -> Q a a' b b') (mapM f l) (mapM f' l').
Proof.
  intros H F. induction H as [|a a' l l' Ha Hl IH]; cbn [mapM].
  - cbn. split; [reflexivity|]. split; [reflexivity|]. intros [|]; discriminate.
  - eapply alike_bind; [apply F, Ha|]. intros b b' Hb. eapply alike_bind; [exact IH|].
    intros bs bs' (L1 & L2 & N). cbn [alike length]. split; [now rewrite L1|]. split; [now rewrite L2|].
    intros [|i] x x' y y' E1 E2 E3 E4; cbn in E1, E2, E3, E4.
    + apply Some_inj in E1, E2, E3, E4. subst. exact Hb.
    + eapply N; eauto.
Qed.

Section G.
  Variable g : motion.

  (* ---------------- nearest map points ---------------- *)

  Lemma restacked_moved p p' : moved_rgpt g p p' -> moved_rgpt g (restacked p) (restacked p').
  Proof.
    intros (Z & DZ & T & I & V & K). unfold restacked, moved_rgpt, rg_kin in *; cbn [rg_z rg_dz rg_type rg_id rg_valid rg_x rg_y rg_dx rg_dy].
    rewrite T, I. auto 10.
  Qed.

  Lemma moved_filter rg rg' p p' topk : Forall2 (moved_rgpt g) rg rg' -> moved_pt g p p' ->
    alike (fun r r' => p_valid p = true -> Forall2 (moved_rgpt g) r r')
      (filter_topk_roadgraph_points rg (p_x p, p_y p) topk) (filter_topk_roadgraph_points rg' (p_x p', p_y p') topk).
  Proof.
    intros H (_ & _ & V & K). destruct (p_valid p) eqn:E.
    2:{ destruct (filter_topk_cases rg (p_x p, p_y p) topk) as (A1 & A2 & _).
        destruct (filter_topk_cases rg' (p_x p', p_y p') topk) as (B1 & B2 & _).
        rewrite <- (Forall2_len _ _ _ H) in B1, B2.
        destruct (Nat.le_gt_cases topk (length rg)) as [L|L].
        - destruct (A1 L) as (r & -> & _), (B1 L) as (r' & -> & _). cbn. discriminate.
        - rewrite A2, B2 by auto. reflexivity. }
    destruct (K eq_refl) as (k & k' & (P1 & P2 & _) & (Q1 & Q2 & _) & M).
    unfold filter_topk_roadgraph_points. rewrite <- (Forall2_len _ _ _ H).
    destruct (length rg <? topk)%nat; [reflexivity|]. destruct (topk <? length rg)%nat; [|cbn; auto].
    cbn [fst snd].
    match goal with |- alike _ (bind (top_k (map fopp ?a) _) _) (bind (top_k (map fopp ?b) _) _) => assert (KE : b = a) end.
    { clear - H P1 P2 Q1 Q2 M. induction H as [|q q' rg rg' Hq H IH]; [reflexivity|]. cbn [map map2]. rewrite IH. f_equal.
      destruct Hq as (_ & _ & _ & _ & Vq & Kq). rewrite Vq. destruct (rg_valid q) eqn:Eq; [|reflexivity].
      destruct (Kq eq_refl) as (_ & c & d & (X & Y & _) & (X' & Y' & _)).
      rewrite P1, P2, Q1, Q2, X, Y, X', Y'. xr. rewrite !norm2_Fin. f_equal.
      pose proof (move_dist g (kx k, ky k) c) as D. rewrite <- (moved_xy g _ _ M) in D. exact D. }
    rewrite KE. apply alike_bind with (R := eq); [apply alike_eq|]. intros idx _ <-.
    apply alike_bind with (R := Forall2 (moved_rgpt g)).
    - unfold take_along. apply alike_mapM with (P := eq).
      + clear. induction idx; constructor; auto.
      + intros i _ <-. destruct (nth_error rg i) as [a|] eqn:Ea.
        * destruct (Forall2_nth1 _ _ _ _ _ H Ea) as (a' & -> & R). exact R.
        * apply nth_error_None in Ea. rewrite (Forall2_len _ _ _ H) in Ea. apply nth_error_None in Ea. rewrite Ea. reflexivity.
    - intros a a' Ha. cbn [alike]. intros _. apply Forall2_map with (1 := Ha). apply restacked_moved.
  Qed.

  (* ---------------- own frame ---------------- *)

  Lemma to_local_moved o o' q : moved_kin g o o' ->
    to_local (kx o') (ky o') (kyaw o') (moved_point g q) = to_local (kx o) (ky o) (kyaw o) q.
  Proof.
    intros M. pose proof (turn_cos g _ _ M) as TC. pose proof (turn_sin g _ _ M) as TS.
    destruct M as (M1 & _). unfold moved_point, move in M1; cbn [fst snd] in M1. injection M1 as X Y.
    unfold to_local, moved_point, move; cbn [fst snd]. rewrite TC, TS, X, Y.
    pose proof (cs1 (mt_turn g)) as C. set (c := cos (mt_turn g)) in *. set (s := sin (mt_turn g)) in *.
    set (a := cos (kyaw o)). set (b := sin (kyaw o)). set (x := fst q - kx o). set (y := snd q - ky o).
    f_equal.
    - transitivity ((a * x + b * y) * (c * c + s * s)); [unfold x, y; ring|]. rewrite C. ring.
    - transitivity ((- b * x + a * y) * (c * c + s * s)); [unfold x, y; ring|]. rewrite C. ring.
  Qed.

  Lemma to_local_turned o o' v : moved_kin g o o' ->
    to_local 0 0 (kyaw o') (moved_vector g v) = to_local 0 0 (kyaw o) v.
  Proof.
    intros M. pose proof (turn_cos g _ _ M) as TC. pose proof (turn_sin g _ _ M) as TS.
    unfold to_local, moved_vector, move; cbn [fst snd]. rewrite TC, TS.
    pose proof (cs1 (mt_turn g)) as C. set (c := cos (mt_turn g)) in *. set (s := sin (mt_turn g)) in *.
    set (a := cos (kyaw o)). set (b := sin (kyaw o)). destruct v as [x y]; cbn [fst snd]. f_equal.
    - transitivity ((a * x + b * y) * (c * c + s * s)); [ring|]. rewrite C. ring.
    - transitivity ((- b * x + a * y) * (c * c + s * s)); [ring|]. rewrite C. ring.
  Qed.

  Lemma own_kin c o p k : has_kin c o -> has_kin p k ->
    has_kin (transform_pt (own_pose c) p)
      (mkkin (fst (to_local (kx o) (ky o) (kyaw o) (kx k, ky k))) (snd (to_local (kx o) (ky o) (kyaw o) (kx k, ky k)))
         (kyaw k - kyaw o) (fst (to_local 0 0 (kyaw o) (kvx k, kvy k))) (snd (to_local 0 0 (kyaw o) (kvx k, kvy k)))).
  Proof.
    intros K (X & Y & A & VX & VY). unfold transform_pt. rewrite X, Y, A, VX, VY.
    change (Fin (kx k), Fin (ky k)) with (finv (kx k, ky k)). rewrite (own_point c o) by auto.
    change (Fin (kvx k), Fin (kvy k)) with (finv (kvx k, kvy k)). rewrite (own_direction c o) by auto.
    rewrite (own_yaw c o) by auto. repeat split.
  Qed.

  Lemma seen_transform c c' p p' : moved_pt g c c' -> p_valid c = true -> moved_pt g p p' ->
    seen_pt (transform_pt (own_pose c) p) (transform_pt (own_pose c') p').
  Proof.
    intros (_ & _ & Vc & Kc) Ec ((S1 & S2 & S3 & S4 & S5) & _ & Vp & Kp).
    destruct (Kc Ec) as (o & o' & O & O' & M).
    split; [repeat split; assumption|].
    assert (VV : p_valid (transform_pt (own_pose c') p') = p_valid (transform_pt (own_pose c) p)).
    { cbn [transform_pt p_valid]. rewrite !own_valid, Vc, Vp. reflexivity. }
    split; [exact VV|]. intros E. assert (Ep : p_valid p = true) by (cbn [transform_pt p_valid] in E; apply andb_true_iff in E; tauto).
    destruct (Kp Ep) as (k & k' & P & P' & N).
    eexists _, _. split; [apply (own_kin c o p k O P)|]. split; [apply (own_kin c' o' p' k' O' P')|].
    cbn [kx ky kvx kvy kyaw]. rewrite (moved_xy g _ _ N), (to_local_moved o o' _ M).
    pose proof N as (_ & N2 & [i N3]). rewrite N2, (to_local_turned o o' _ M).
    repeat split; auto. destruct M as (_ & _ & [j M3]). exists (i - j)%Z. rewrite N3, M3, minus_IZR. ring.
  Qed.

  Lemma seen_rg_transform c c' p p' : moved_pt g c c' -> p_valid c = true -> moved_rgpt g p p' ->
    seen_rgpt (transform_rgpt (own_pose c) p) (transform_rgpt (own_pose c') p').
  Proof.
    intros (_ & _ & Vc & Kc) Ec (Z & DZ & T & I & V & K).
    destruct (Kc Ec) as (o & o' & O & O' & M).
    unfold seen_rgpt. cbn [transform_rgpt rg_valid rg_type rg_id rg_z rg_dz]. rewrite !own_valid, Vc, V, T, I, Z, DZ.
    split; [reflexivity|]. do 4 (split; [reflexivity|]). intros E. apply andb_true_iff in E as [E _].
    destruct (K E) as (_ & q & d & (X & Y & DX & DY) & (X' & Y' & DX' & DY')).
    unfold transform_rgpt; cbn [rg_x rg_y rg_dx rg_dy]. rewrite X, Y, DX, DY, X', Y', DX', DY'.
    change (Fin (fst q), Fin (snd q)) with (finv q). change (Fin (fst d), Fin (snd d)) with (finv d).
    change (Fin (fst (moved_point g q)), Fin (snd (moved_point g q))) with (finv (moved_point g q)).
    change (Fin (fst (moved_vector g d)), Fin (snd (moved_vector g d))) with (finv (moved_vector g d)).
    rewrite !(own_point c o), !(own_direction c o), !(own_point c' o'), !(own_direction c' o') by auto.
    rewrite (to_local_moved o o' _ M), (to_local_turned o o' _ M). auto.
  Qed.

  Lemma seen_tl_transform c c' p p' : moved_pt g c c' -> p_valid c = true -> moved_light g p p' ->
    seen_light (transform_tlight (own_pose c) p) (transform_tlight (own_pose c') p').
  Proof.
    intros (_ & _ & Vc & Kc) Ec (Z & T & I & V & K).
    destruct (Kc Ec) as (o & o' & O & O' & M).
    unfold seen_light. cbn [transform_tlight tl_valid tl_state tl_lane tl_z]. rewrite !own_valid, Vc, V, T, I, Z.
    split; [reflexivity|]. do 3 (split; [reflexivity|]). intros E. apply andb_true_iff in E as [E _].
    destruct (K E) as (q & (X & Y) & (X' & Y')).
    unfold transform_tlight; cbn [tl_x tl_y]. rewrite X, Y, X', Y'.
    change (Fin (fst q), Fin (snd q)) with (finv q).
    change (Fin (fst (moved_point g q)), Fin (snd (moved_point g q))) with (finv (moved_point g q)).
    rewrite !(own_point c o), !(own_point c' o') by auto. rewrite (to_local_moved o o' _ M). auto.
  Qed.

  (** Views in map coordinates. *)
  Definition moved_view (b : bool) (v v' : view (S := XR)) : Prop :=
    moved_traj g (v_traj v) (v_traj v') /\ v_is_ego v' = v_is_ego v /\ v_meta v' = v_meta v /\
    v_pose v = zero_pose /\ v_pose v' = zero_pose /\
    (b = true -> Forall2 (moved_rgpt g) (v_rg v) (v_rg v')) /\
    Forall2 (Forall2 (moved_light g)) (v_tls v) (v_tls v').

  Lemma seen_view v v' c c' : moved_view true v v' -> moved_pt g c c' -> p_valid c = true ->
    same_view (transform_view v (pose_of_pt c)) (transform_view v' (pose_of_pt c')).
  Proof.
    intros (T & E & M & P & P' & R & L) C V. unfold same_view, transform_view. rewrite P, P'.
    cbn [v_traj v_is_ego v_meta v_rg v_tls]. fold (own_pose c) (own_pose c').
    split; [|split; [auto|split; [auto|split]]].
    - apply Forall2_map with (1 := T). intros r r' Hr. apply Forall2_map with (1 := Hr). intros; now apply seen_transform.
    - apply Forall2_map with (1 := R eq_refl). intros; now apply seen_rg_transform.
    - apply Forall2_map with (1 := L). intros r r' Hr. apply Forall2_map with (1 := Hr). intros; now apply seen_tl_transform.
  Qed.

  Lemma Forall2_repeat {A B} (R : A -> B -> Prop) x y n : R x y -> Forall2 R (repeat x n) (repeat y n).
  Proof. intros H. induction n; constructor; auto. Qed.

  Lemma moved_global s s' k n : moved_state g s s' ->
    alike (fun o o' => length o = n /\ Forall2 (moved_view true) o o')
      (global_observation_from_state s k n) (global_observation_from_state s' k n).
  Proof.
    intros (Hs & _ & Ht & Hm & Hti & _ & Hr). unfold global_observation_from_state. rewrite Hti, Hm.
    eapply alike_bind; [apply alike_dynamic_slice, Hs|]. intros tr tr' Htr.
    eapply alike_bind; [apply alike_dynamic_slice, Ht|]. intros tl tl' Htl.
    destruct (s_rg s) as [rg|], (s_rg s') as [rg'|]; try contradiction; [|reflexivity].
    cbn [bind alike]. split; [apply repeat_length|]. apply Forall2_repeat.
    split; [exact Htr|]. split; [reflexivity|]. split; [reflexivity|]. split; [reflexivity|]. split; [reflexivity|].
    split; [intros _; exact Hr|exact Htl].
  Qed.

  Lemma Forall2_combine {A B C D} (P : A -> C -> Prop) (Q : B -> D -> Prop) a b c d :
    Forall2 P a c -> Forall2 Q b d ->
    Forall2 (fun x y => P (fst x) (fst y) /\ Q (snd x) (snd y)) (combine a b) (combine c d).
  Proof.
    intros H. revert b d. induction H; intros b d Hb; [constructor|]. destruct Hb; cbn; constructor; auto.
  Qed.
  Lemma Forall2_same {A} (l : list A) : Forall2 eq l l.
  Proof. induction l; constructor; auto. Qed.

  Lemma nth_combine {A B} (a : list A) (b : list B) i x y :
    nth_error a i = Some x -> nth_error b i = Some y -> nth_error (combine a b) i = Some (x, y).
  Proof.
    revert b i. induction a as [|a0 a IH]; intros [|b0 b] [|i] H1 H2; try discriminate; cbn in *.
    - congruence.
    - auto.
  Qed.

  Lemma moved_observation s s' k topk fr : moved_state g s s' ->
    alike (fun o o' => fr <> FRAME_GLOBAL -> sees_same fr s o o')
      (observation_from_state s k topk fr) (observation_from_state s' k topk fr).
  Proof.
    intros MS. pose proof MS as (Hs & _ & _ & Hm & Hti & _ & _). unfold observation_from_state, current_sim. rewrite Hti.
    pose proof (alike_dynamic_index (moved_pt g) (s_t s) _ _ Hs) as HC.
    destruct (dynamic_index (s_sim s) (s_t s)) as [cur|] eqn:Ec, (dynamic_index (s_sim s') (s_t s)) as [cur'|];
      cbn in HC; try contradiction; [|cbn; auto].
    cbn [bind]. rewrite <- (Forall2_len _ _ _ Hs). set (n := length (s_sim s)).
    assert (Lc : length cur = n) by (unfold dynamic_index in Ec; apply (mapM_length _ _ _ Ec)).
    assert (Lc' : length cur' = n) by (rewrite <- (Forall2_len _ _ _ HC); exact Lc).
    eapply alike_bind; [apply (moved_global s s' k n MS)|]. intros gl gl' (Lg & Hg).
    assert (Lg' : length gl' = n) by (rewrite <- (Forall2_len _ _ _ Hg); exact Lg).
    eapply alike_bind.
    { apply (alike_mapM_in
        (fun x x' => fst x = fst x' /\ (moved_view true (fst (snd x)) (fst (snd x')) /\ moved_pt g (snd (snd x)) (snd (snd x'))))
        (fun x _ v v' => moved_view (p_valid (snd (snd x))) v v')).
      - apply (Forall2_combine eq (fun x y => moved_view true (fst x) (fst y) /\ moved_pt g (snd x) (snd y)));
          [apply Forall2_same|]. apply Forall2_combine; [exact Hg|exact HC].
      - intros (i & v & p) (i' & v' & p') (E & Hv & Hp). cbn [fst snd] in *. subst i'. unfold filter_view.
        destruct Hv as (T & EG & MM & P & P' & R & L).
        eapply alike_bind; [apply (moved_filter _ _ p p' topk (R eq_refl) Hp)|]. intros r r' Hr.
        cbn [alike]. unfold moved_view; cbn [v_traj v_is_ego v_meta v_pose v_rg v_tls]. auto 10. }
    intros gf gf' (L1 & L2 & N).
    rewrite !combine_length, seq_length, Lg, Lc, !Nat.min_id in L1.
    rewrite !combine_length, seq_length, Lg', Lc', !Nat.min_id in L2.
    assert (VW : forall i p v v', nth_error cur i = Some p -> nth_error gf i = Some v -> nth_error gf' i = Some v' ->
               moved_view (p_valid p) v v').
    { intros i p v v' Hp Hv Hv'. assert (Hi : (i < n)%nat) by (rewrite <- Lc; eapply nth_error_Some_lt; eauto).
      destruct (nth_error_lt_Some gl i) as [w Hw]; [lia|]. destruct (nth_error_lt_Some gl' i) as [w' Hw']; [lia|].
      destruct (nth_error_lt_Some cur' i) as [p' Hp']; [lia|].
      assert (Sq : nth_error (seq 0 n) i = Some i) by (rewrite nth_error_seq0; auto).
      exact (N i (i, (w, p)) (i, (w', p')) v v' (nth_combine _ _ _ _ _ Sq (nth_combine _ _ _ _ _ Hw Hp))
               (nth_combine _ _ _ _ _ Sq (nth_combine _ _ _ _ _ Hw' Hp')) Hv Hv'). }
    assert (TR : forall ps ps', length ps = n -> length ps' = n ->
      (forall i ci p c, nth_error cur i = Some p -> centre fr s i ci -> nth_error cur ci = Some c ->
         exists c', moved_pt g c c' /\ nth_error ps i = Some (pose_of_pt c) /\ nth_error ps' i = Some (pose_of_pt c')) ->
      alike (fun o o' => fr <> FRAME_GLOBAL -> sees_same fr s o o') (transform_observation gf ps) (transform_observation gf' ps')).
    { intros ps ps' Lp Lp' HP. unfold transform_observation. rewrite L1, L2, Lp, Lp', Nat.eqb_refl. cbn [guard bind alike].
      intros _. split; [rewrite !map2_length; lia|].
      intros cur0 i p ci c v v' E0 Hp Vp Ctr Hc Vc Hv Hv'. unfold current_sim in E0. rewrite Ec in E0. apply Ok_inj in E0. subst cur0.
      destruct (HP i ci p c Hp Ctr Hc) as (c' & Mc & P1 & P2).
      rewrite nth_error_map2, P1 in Hv. rewrite nth_error_map2, P2 in Hv'.
      destruct (nth_error gf i) as [w|] eqn:Ew; [|discriminate]. destruct (nth_error gf' i) as [w'|] eqn:Ew'; [|discriminate].
      apply Some_inj in Hv, Hv'. subst v v'. apply seen_view; auto. rewrite <- Vp. eapply VW; eauto. }
    destruct fr.
    - rewrite Hm. apply alike_bind with (R := fun i i' => i = i' /\ sdc_index (s_meta s) = Ok i).
      { destruct (sdc_index (s_meta s)); cbn; auto. }
      intros i _ (<- & Ei). destruct (nth_error cur i) as [p|] eqn:Ep.
      + destruct (Forall2_nth1 _ _ _ _ _ HC Ep) as (p' & Ep' & Mp). rewrite Ep'. cbn [bind].
        apply TR; rewrite ?repeat_length; auto.
        intros j cj q c Hq Ctr Hc. assert (cj = i) as ->.
        { destruct Ctr as [[A _]|[[_ A]|(_ & A & ->)]]; [discriminate| |].
          - apply the_sdc_index in A. rewrite Ei in A. now apply Ok_inj in A.
          - apply no_sdc_index in A; [rewrite Ei in A; now apply Ok_inj in A|]. intros Em. rewrite Em in Ei. discriminate. }
        rewrite Ep in Hc. apply Some_inj in Hc. subst c. exists p'. split; [exact Mp|].
        assert (Hj : (j < n)%nat) by (rewrite <- Lc; eapply nth_error_Some_lt; eauto).
        split; apply nth_error_repeat_lt; auto.
      + apply nth_error_None in Ep. rewrite (Forall2_len _ _ _ HC) in Ep. apply nth_error_None in Ep. rewrite Ep. reflexivity.
    - apply TR; rewrite ?map_length; auto. intros i ci p c Hp Ctr Hc.
      destruct Ctr as [[_ ->]|[[A _]|(A & _)]]; try discriminate. rewrite Hp in Hc. apply Some_inj in Hc. subst c.
      destruct (Forall2_nth1 _ _ _ _ _ HC Hp) as (p' & Ep' & Mp). exists p'. rewrite !nth_error_map, Hp, Ep'. auto.
    - cbn [alike]. congruence.
  Qed.

  Lemma moved_sdc_observation s s' k topk fr i c cur : moved_state g s s' -> fr <> FRAME_GLOBAL ->
    current_sim s = Ok cur -> the_sdc (s_meta s) i -> nth_error cur i = Some c -> p_valid c = true ->
    alike (Forall2 same_view) (sdc_observation_from_state s k topk fr) (sdc_observation_from_state s' k topk fr).
  Proof.
    intros MS Hf Ec Hi Hc Vc. pose proof MS as (Hs & _ & _ & Hm & Hti & _ & _).
    unfold sdc_observation_from_state, current_sim in *. rewrite Hti, Hm.
    pose proof (alike_dynamic_index (moved_pt g) (s_t s) _ _ Hs) as HC. rewrite Ec in *.
    destruct (dynamic_index (s_sim s') (s_t s)) as [cur'|]; [|contradiction]. cbn in HC. cbn [bind].
    rewrite (the_sdc_index _ _ Hi). cbn [bind]. rewrite Hc.
    destruct (Forall2_nth1 _ _ _ _ _ HC Hc) as (c' & Hc' & Mc). rewrite Hc'. cbn [bind].
    eapply alike_bind; [apply (moved_global s s' k 1 MS)|]. intros gl gl' (Lg & Hg).
    eapply alike_bind.
    { apply alike_mapM with (P := moved_view true) (Q := moved_view true); [exact Hg|].
      intros v v' (T & EG & MM & P & P' & R & L).
      eapply alike_bind; [apply (moved_filter _ _ c c' topk (R eq_refl) Mc)|]. intros r r' Hr.
      cbn [alike]. unfold moved_view; cbn [v_traj v_is_ego v_meta v_pose v_rg v_tls]. auto 10. }
    intros gf gf' HF.
    assert (TR : alike (Forall2 same_view) (transform_observation gf [pose_of_pt c]) (transform_observation gf' [pose_of_pt c'])).
    { unfold transform_observation. rewrite <- (Forall2_len _ _ _ HF). destruct HF as [|v v' a a' Hv HF]; [reflexivity|].
      destruct HF; [|reflexivity]. cbn. constructor; [|constructor]. now apply seen_view. }
    destruct fr; [exact TR|exact TR|congruence].
  Qed.

  (* ---------------- driven episodes ---------------- *)

  Lemma moved_driven d c k topk drv : equivariant g same_if d -> c_allow_new_objects c = false ->
    own_frame_driver drv -> forall n s s', moved_state g s s' ->
    alike (moved_state g) (driven d c k topk drv n s) (driven d c k topk drv n s').
  Proof.
    intros EQ CI (D1 & D2) n. induction n as [|n IH]; intros s s' MS; [exact MS|]. cbn [driven].
    eapply alike_bind; [apply (moved_observation s s' k topk FRAME_OBJECT MS)|].
    intros o o' HO. specialize (HO ltac:(discriminate)). destruct HO as (LO & HO).
    eapply alike_bind; [|apply IH].
    apply moved_step with (A := same_if); auto. split; [now rewrite !map_length|].
    intros cur i p a a' Ecur Hp Ha Ha'. rewrite nth_error_map in Ha, Ha'.
    destruct (nth_error o i) as [v|] eqn:Ev; [|discriminate]. destruct (nth_error o' i) as [v'|] eqn:Ev'; [|discriminate].
    cbn [option_map] in Ha, Ha'. apply Some_inj in Ha, Ha'. subst a a'. split; [apply D2|].
    intros Vp. assert (SV : same_view v v') by (eapply (HO cur i p i p); eauto; left; auto).
    split; [now apply D1|apply D2].
  Qed.

  (* ---------------- given episodes ---------------- *)

  Lemma moved_steps A d c : equivariant g A d -> c_allow_new_objects c = false ->
    forall al al' s s', moved_state g s s' ->
    Forall2 (Forall2 (fun a a' => forall p, A p a a')) al al' ->
    alike (moved_state g) (env_steps d c s al) (env_steps d c s' al').
  Proof.
    intros EQ CI al al' s s' MS H. revert s s' MS. induction H as [|a a' al al' Ha H IH]; intros s s' MS; [exact MS|].
    cbn [env_steps]. eapply alike_bind; [|apply IH]. apply moved_step with (A := A); auto.
    split; [symmetry; eapply Forall2_len; eauto|].
    intros cur i p x y _ _ Hx Hy. exact (proj2 (proj1 (Forall2_nth _ _ _) Ha) i x y Hx Hy p).
  Qed.

  (* ---------------- every scene has a description in the other frame ---------------- *)

  Lemma Forall_exists2 {A} (P : A -> Prop) (R : A -> A -> Prop) l : (forall a, P a -> exists b, R a b) ->
    Forall P l -> exists m, Forall2 R l m.
  Proof.
    intros H F. induction F as [|a l Ha F (m & IH)]; [exists []; constructor|].
    destruct (H a Ha) as [b Hb]. exists (b :: m). constructor; auto.
  Qed.

  Lemma pt_exists p : tame_pt p -> exists p', moved_pt g p p'.
  Proof.
    intros (Z & K). destruct (p_valid p) eqn:V.
    - destruct (K eq_refl) as (k & P).
      set (xy := moved_point g (kx k, ky k)). set (v := moved_vector g (kvx k, kvy k)).
      exists (mkpt (S := XR) (Fin (fst xy)) (Fin (snd xy)) (p_z p) (Fin (fst v)) (Fin (snd v)) (Fin (kyaw k + mt_turn g)) true
                (p_ts p) (p_len p) (p_wid p) (p_hei p)).
      split; [repeat split|]. split; [exact Z|]. split; [now rewrite V|]. intros _.
      exists k, (mkkin (fst xy) (snd xy) (kyaw k + mt_turn g) (fst v) (snd v)).
      split; [exact P|]. split; [repeat split|]. split; [|split]; cbn [kx ky kvx kvy kyaw].
      + symmetry. apply surjective_pairing.
      + symmetry. apply surjective_pairing.
      + apply same_angle_refl.
    - exists p. split; [repeat split|]. split; [exact Z|]. split; [reflexivity|]. congruence.
  Qed.

  Lemma moved_exists s : tame s -> exists s', moved_state g s s'.
  Proof.
    intros (S1 & S2 & S3 & S4 & S5).
    destruct (Forall_exists2 _ (Forall2 (moved_pt g)) _ (fun l => Forall_exists2 _ _ l pt_exists) S1) as (sim & H1).
    destruct (Forall_exists2 _ (Forall2 (moved_pt g)) _ (fun l => Forall_exists2 _ _ l pt_exists) S2) as (lg & H2).
    assert (TL : forall p : tlight (S := XR), (tl_valid p = true -> exists c, tl_at p c) -> exists p', moved_light g p p').
    { intros p Hp. destruct (tl_valid p) eqn:V.
      - destruct (Hp eq_refl) as (c & C). set (m := moved_point g c).
        exists (mktl (S := XR) (Fin (fst m)) (Fin (snd m)) (tl_z p) (tl_state p) (tl_lane p) true).
        unfold moved_light; cbn. rewrite V. do 4 (split; [reflexivity|]). intros _. exists c. split; [exact C|]. split; reflexivity.
      - exists p. unfold moved_light. rewrite V. do 4 (split; [reflexivity|]). discriminate. }
    destruct (Forall_exists2 _ (Forall2 (moved_light g)) _ (fun l => Forall_exists2 _ _ l TL) S3) as (tls & H3).
    assert (PP : forall q : pathpt (S := XR), (pp_valid q = true -> exists c, path_xy q c) -> exists q', moved_pathpt g q q').
    { intros p Hp. destruct (pp_valid p) eqn:V.
      - destruct (Hp eq_refl) as (c & C). set (m := moved_point g c).
        exists (mkpp (S := XR) (Fin (fst m)) (Fin (snd m)) (pp_z p) (pp_id p) true (pp_arc p)).
        unfold moved_pathpt; cbn. rewrite V. do 4 (split; [reflexivity|]). intros _. exists c. split; [exact C|]. split; reflexivity.
      - exists p. unfold moved_pathpt. rewrite V. do 4 (split; [reflexivity|]). discriminate. }
    assert (PA : forall pa : path (S := XR), Forall (fun q => pp_valid q = true -> exists c, path_xy q c) (path_pts pa) ->
              exists pa', moved_path g pa pa').
    { intros pa Hp. destruct (Forall_exists2 _ _ _ PP Hp) as (m & Hm). exists (mkpath m (path_on_route pa)). split; [reflexivity|exact Hm]. }
    assert (H4 : exists ps, opt_rel (Forall2 (moved_path g)) (s_paths s) ps).
    { destruct (s_paths s) as [ps|]; [|exists None; exact I]. destruct (Forall_exists2 _ _ _ PA S4) as (m & Hm). exists (Some m). exact Hm. }
    assert (RG : forall p : rgpt (S := XR), (rg_valid p = true -> (exists z, rg_z p = Fin z) /\ exists c d, rg_kin p c d) -> exists p', moved_rgpt g p p').
    { intros p Hp. destruct (rg_valid p) eqn:V.
      - destruct (Hp eq_refl) as (Z & c & d & C). set (m := moved_point g c). set (v := moved_vector g d).
        exists (mkrg (S := XR) (Fin (fst m)) (Fin (snd m)) (rg_z p) (Fin (fst v)) (Fin (snd v)) (rg_dz p) (rg_type p) (rg_id p) true).
        unfold moved_rgpt; cbn. rewrite V. do 5 (split; [reflexivity|]). intros _. split; [exact Z|].
        exists c, d. split; [exact C|]. repeat split.
      - exists p. unfold moved_rgpt. rewrite V. do 5 (split; [reflexivity|]). discriminate. }
    assert (H5 : exists rg, opt_rel (Forall2 (moved_rgpt g)) (s_rg s) rg).
    { destruct (s_rg s) as [rg|]; [|exists None; exact I]. destruct (Forall_exists2 _ _ _ RG S5) as (m & Hm). exists (Some m). exact Hm. }
    destruct H4 as (ps & H4), H5 as (rg & H5).
    exists (mkstate sim lg tls (s_meta s) (s_t s) ps rg).
    repeat split; assumption.
  Qed.
End G.
