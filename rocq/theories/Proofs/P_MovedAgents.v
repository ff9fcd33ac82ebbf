(** Planning episodes with sim agents in another coordinate frame (C73): the agents. *)
From Coq Require Import Reals ZArith List Bool Lia Lra.
From Verif.Lib Require Import Base JaxIndex Scalar XR.
From Verif.Model Require Import Operations State Dynamics BaseEnv Geometry Dyn_State Dyn_Delta
  Dyn_Bicycle Discretizer Comfort Metrics Observation Expert Actor PlanningEnv Waypoint.
From Verif.Spec Require Import StateSpec GeomSpec DynSpec MetricSpec ObsSpec WaypointSpec MovedSpec MovedPlanSpec.
From Verif.Proofs Require Import Core P_Angles P_Pose P_Overlap P_Delta P_Bicycle P_Metrics P_IDM P_Lead P_IDMRun P_Waypoint
  P_Moved P_MovedMetrics P_MovedObs P_MovedPlan.
From Verif.Spec Require Import GeomSpec.
Import ListNotations.
Open Scope R_scope.

Lemma map_ext_nth {A B} (f f' : A -> B) l l' : length l' = length l ->
  (forall i a a', nth_error l i = Some a -> nth_error l' i = Some a' -> f' a' = f a) -> map f' l' = map f l.
Proof.
  intros L H. apply nth_error_ext_eq. intros i. rewrite !nth_error_map.
  destruct (nth_error l i) as [a|] eqn:E, (nth_error l' i) as [a'|] eqn:E'; cbn; auto.
  - f_equal. eapply H; eauto.
  - apply nth_error_None in E'. apply nth_error_Some_lt in E. lia.
  - apply nth_error_None in E. apply nth_error_Some_lt in E'. lia.
Qed.

Section G.
  Variable g : motion.

  Lemma moved_speed p p' : moved_pt g p p' -> obj_speed (S := XR) p' = obj_speed (S := XR) p.
  Proof.
    intros (_ & _ & V & K). unfold obj_speed. rewrite V. destruct (p_valid p) eqn:E; [|reflexivity].
    destruct (K eq_refl) as (k & k' & (_ & _ & _ & A1 & A2) & (_ & _ & _ & B1 & B2) & M).
    rewrite A1, A2, B1, B2, !norm2_Fin. f_equal. exact (move_speed g k k' M).
  Qed.

  Lemma speed_Fin (p : pt (S := XR)) k : p_valid p = true -> has_kin p k -> obj_speed (S := XR) p = Fin (speed k).
  Proof. intros V (_ & _ & _ & A1 & A2). unfold obj_speed. rewrite V, A1, A2, norm2_Fin. reflexivity. Qed.

  Lemma moved_dist3 p p' q q' : moved_pt g p p' -> moved_pt g q q' -> p_valid p = true -> p_valid q = true ->
    pt_dist3 (S := XR) p' q' = pt_dist3 (S := XR) p q.
  Proof.
    intros ((Z1 & _) & (z & _ & _ & Ez & _) & _ & K) ((Z2 & _) & (y & _ & _ & Ey & _) & _ & K') Vp Vq.
    destruct (K Vp) as (k & k' & (A1 & A2 & _) & (B1 & B2 & _) & (M & _)).
    destruct (K' Vq) as (l & l' & (C1 & C2 & _) & (D1 & D2 & _) & (N & _)).
    unfold pt_dist3. rewrite Z1, Z2 in *. rewrite A1, A2, B1, B2, C1, C2, D1, D2, Ez, Ey, !fsub_Fin, !norm3_Fin.
    f_equal. f_equal. f_equal.
    unfold moved_point, move in M, N; cbn [fst snd] in M, N. injection M as -> ->. injection N as -> ->.
    pose proof (cs1 (mt_turn g)) as E. set (c := cos _) in *. set (s := sin _) in *.
    transitivity (((kx k - kx l) * (kx k - kx l) + (ky k - ky l) * (ky k - ky l)) * (c * c + s * s)); [ring|]. rewrite E. ring.
  Qed.

  (* ---------------- waypoints ahead ---------------- *)

  (** The waypoints of an object in the two frames: as many, and for an object in the
      scene the same ones. *)
  Definition ways (c : pt (S := XR)) (tr tr' : list (pt (S := XR))) : Prop :=
    length tr' = length tr /\ (p_valid c = true -> Forall2 (moved_pt g) tr tr').

  Lemma ref_dists c c' log log' : moved_pt g c c' -> p_valid c = true -> Forall2 (moved_pt g) log log' ->
    map (fun w => if p_valid w then pt_dist3 (S := XR) c' w else finf (Scalar := XR)) log'
    = map (fun w => if p_valid w then pt_dist3 (S := XR) c w else finf (Scalar := XR)) log.
  Proof.
    intros Hc V H. apply map_rel_eq' with (1 := H). intros w w' Hw.
    pose proof Hw as (_ & _ & Vw & _). rewrite Vw. destruct (p_valid w) eqn:E; [|reflexivity]. now apply moved_dist3.
  Qed.

  Lemma moved_reference c c' log log' n : moved_pt g c c' -> Forall2 (moved_pt g) log log' ->
    alike (ways c) (reference_traj c log n) (reference_traj c' log' n).
  Proof.
    intros Hc H. unfold reference_traj. destruct (p_valid c) eqn:V.
    - rewrite (ref_dists c c' log log' Hc V H). eapply alike_mono; [apply alike_slice, H|].
      intros tr tr' F. split; [symmetry; eapply Forall2_len; eauto|auto].
    - unfold dyn_slice. rewrite <- (Forall2_len _ _ _ H).
      destruct (n <=? length log)%nat eqn:L; [|reflexivity]. apply Nat.leb_le in L. cbn [alike]. split; [|congruence].
      rewrite !firstn_length, !skipn_length, <- (Forall2_len _ _ _ H).
      pose proof (norm_start_fit (Z.of_nat (argmin (S := XR) (map (fun w => if p_valid w then pt_dist3 (S := XR) c w else finf (Scalar := XR)) log))) (length log) n).
      pose proof (norm_start_fit (Z.of_nat (argmin (S := XR) (map (fun w => if p_valid w then pt_dist3 (S := XR) c' w else finf (Scalar := XR)) log'))) (length log) n).
      lia.
  Qed.

  Lemma moved_headway D N k p p' : (N <> 0)%nat -> moved_pt g p p' ->
    moved_pt g (headway_point (Fin D) N p k) (headway_point (Fin D) N p' k).
  Proof.
    intros HN (S0 & Z & V & K). split; [exact S0|]. split; [exact Z|]. split; [exact V|]. cbn [headway_point p_valid]. intros E.
    destruct (K E) as (m & m' & (A1 & A2 & A3 & A4 & A5) & (B1 & B2 & B3 & B4 & B5) & M).
    set (t := D * INR k / INR N).
    exists (mkkin (cos (kyaw m) * t + kx m) (sin (kyaw m) * t + ky m) (kyaw m) (kvx m) (kvy m)).
    exists (mkkin (cos (kyaw m') * t + kx m') (sin (kyaw m') * t + ky m') (kyaw m') (kvx m') (kvy m')).
    unfold headway_point. rewrite !spacing_Fin by auto. fold t. rewrite A1, A2, A3, A4, A5, B1, B2, B3, B4, B5.
    split; [repeat split; cbn [p_x p_y kx ky]; xr; reflexivity|]. split; [repeat split; cbn [p_x p_y kx ky]; xr; reflexivity|].
    pose proof (turn_cos g _ _ M) as TC. pose proof (turn_sin g _ _ M) as TS. destruct M as (M1 & M2 & M3).
    split; [|split; [exact M2|exact M3]]. cbn [kx ky]. injection M1 as X Y.
    unfold moved_point, move in *; cbn [fst snd] in *. rewrite TC, TS, X, Y. f_equal; ring.
  Qed.

  Lemma ways_headway D N c tr tr' : (N <> 0)%nat -> ways c tr tr' ->
    ways c (add_headway_waypoints (Fin D) N tr) (add_headway_waypoints (Fin D) N tr').
  Proof.
    intros HN (L & F). unfold add_headway_waypoints, ways.
    destruct (rev tr) as [|x r] eqn:E, (rev tr') as [|x' r'] eqn:E';
      try (apply (f_equal (@length _)) in E, E'; rewrite rev_length in E, E'; cbn in E, E'; exfalso; lia).
    { split; [reflexivity|]. intros _. constructor. }
    rewrite !app_length, !map_length, L. split; [reflexivity|]. intros V. specialize (F V).
    apply Forall2_app; [exact F|].
    assert (Hx : moved_pt g x x').
    { assert (FR : Forall2 (moved_pt g) (rev tr) (rev tr')).
      { clear -F. induction F; cbn; [constructor|]. apply Forall2_app; [assumption|]. constructor; auto. }
      rewrite E, E' in FR. now inversion FR. }
    apply Forall2_map with (Q := eq).
    - clear. generalize 1%nat. induction N as [|N IH]; intros a; cbn; constructor; auto.
    - intros k _ <-. now apply moved_headway.
  Qed.

  Lemma moved_lookahead (p : idm_params (S := XR)) D log log' c c' : additional_lookahead_distance p = Fin D ->
    moved_pt g c c' -> Forall2 (moved_pt g) log log' ->
    alike (ways c) (lookahead_traj p log c) (lookahead_traj p log' c').
  Proof.
    intros HD Hc Hl. unfold lookahead_traj.
    apply alike_bind with (R := ways c).
    - destruct (lookahead_from_current_position p); apply moved_reference; auto.
    - intros tr tr' W. rewrite HD. destruct (0 <? additional_headway_points p)%nat eqn:E; [|exact W].
      apply Nat.ltb_lt in E. cbn [alike]. apply ways_headway; [lia|exact W].
  Qed.

  (* ---------------- the leader ---------------- *)

  Lemma moved_collision i j w w' c c' : moved_pt g w w' -> moved_pt g c c' ->
    collision (S := XR) i w' j c' = collision (S := XR) i w j c.
  Proof.
    intros Hw Hc. pose proof Hw as (_ & _ & Vw & _). pose proof Hc as (_ & _ & Vc & _).
    unfold collision. rewrite Vw, Vc. destruct (p_valid w && p_valid c && negb (i =? j)%nat) eqn:E; [|reflexivity].
    apply andb_true_iff in E as [E _]. apply andb_true_iff in E as [E1 E2]. now apply moved_has_overlap with (g := g).
  Qed.

  Lemma mapi_ext_nth {A B} (f f' : nat -> A -> B) l l' : length l' = length l ->
    (forall i a a', nth_error l i = Some a -> nth_error l' i = Some a' -> f' i a' = f i a) -> mapi f' l' = mapi f l.
  Proof.
    intros L H. apply nth_error_ext_eq. intros i. rewrite !nth_error_mapi.
    destruct (nth_error l i) as [a|] eqn:E, (nth_error l' i) as [a'|] eqn:E'; cbn; auto.
    - f_equal. eapply H; eauto.
    - apply nth_error_None in E'. apply nth_error_Some_lt in E. lia.
    - apply nth_error_None in E. apply nth_error_Some_lt in E'. lia.
  Qed.

  Lemma moved_lead i tr tr' cur cur' me me' : Forall2 (moved_pt g) tr tr' -> Forall2 (moved_pt g) cur cur' ->
    moved_pt g me me' -> p_valid me = true ->
    object_lead (S := XR) i tr' cur' me' = object_lead (S := XR) i tr cur me.
  Proof.
    intros Ht Hc Hm V. unfold object_lead.
    pose proof (Forall2_len _ _ _ Ht) as Lt. pose proof (Forall2_len _ _ _ Hc) as Lc.
    assert (EC : mapi (fun j c => map (fun w => collision (S := XR) i w j c) tr') cur'
               = mapi (fun j c => map (fun w => collision (S := XR) i w j c) tr) cur).
    { apply mapi_ext_nth; [auto|]. intros j c c' Ej Ej'.
      pose proof (proj2 (proj1 (Forall2_nth _ _ _) Hc) _ _ _ Ej Ej') as Mc.
      apply map_rel_eq' with (1 := Ht). intros w w' Hw. now apply moved_collision. }
    assert (ES : map (fun c => map (fun _ => obj_speed (S := XR) c) tr') cur'
               = map (fun c => map (fun _ => obj_speed (S := XR) c) tr) cur).
    { apply map_rel_eq' with (1 := Hc). intros c c' Mc. rewrite (moved_speed _ _ Mc). apply map_rel_eq' with (1 := Ht). auto. }
    assert (EV : map (fun c : pt (S := XR) => map (fun _ : pt (S := XR) => p_valid c) tr') cur'
               = map (fun c : pt (S := XR) => map (fun _ : pt (S := XR) => p_valid c) tr) cur).
    { apply map_rel_eq' with (1 := Hc). intros c c' (_ & _ & Vc & _). rewrite Vc. apply map_rel_eq' with (1 := Ht). auto. }
    rewrite EC, ES, EV, <- Lt. f_equal. unfold compute_lead_distance.
    set (coll := mapi _ cur). set (any := map _ (seq 0 (length tr))).
    assert (ED : map2 (fun p (c : bool) => if c then pt_dist3 (S := XR) me' p else finf (Scalar := XR)) tr' any
               = map2 (fun p (c : bool) => if c then pt_dist3 (S := XR) me p else finf (Scalar := XR)) tr any).
    { apply nth_error_ext_eq. intros t. rewrite !nth_error_map2.
      destruct (nth_error tr t) as [w|] eqn:Ew.
      2:{ apply nth_error_None in Ew. rewrite (proj2 (nth_error_None tr' t)) by lia. reflexivity. }
      destruct (Forall2_nth1 _ _ _ _ _ Ht Ew) as (w' & Ew' & Mw). rewrite Ew'.
      destruct (nth_error any t) as [b|] eqn:Eb; [|reflexivity]. f_equal. destruct b; [|reflexivity].
      apply moved_dist3; auto.
      unfold any in Eb. rewrite nth_error_map in Eb. destruct (nth_error (seq 0 (length tr)) t) as [t0|] eqn:Es; [|discriminate].
      assert (t0 = t).
      { apply nth_error_nth with (d := O) in Es. rewrite seq_nth in Es; [exact (eq_sym Es)|]. eapply nth_error_Some_lt; eauto. }
      subst t0. cbn in Eb. apply Some_inj in Eb. apply existsb_exists in Eb as (r & Hr & Hrt).
      unfold coll in Hr. apply In_nth_error in Hr as [j Hr]. rewrite nth_error_mapi in Hr.
      destruct (nth_error cur j) as [c|]; [|discriminate]. cbn in Hr. apply Some_inj in Hr. subst r.
      assert (EE : nth t (map (fun w => collision (S := XR) i w j c) tr) false = collision (S := XR) i w j c)
        by (apply nth_error_nth; rewrite nth_error_map, Ew; reflexivity).
      rewrite EE in Hrt.
      unfold collision in Hrt. destruct (p_valid w); [reflexivity|discriminate]. }
    now rewrite ED.
  Qed.

  (* ---------------- speeds ---------------- *)

  Definition speeds_alike (cur : list (pt (S := XR))) (sv sv' : list (F (Scalar := XR) * bool)) : Prop :=
    length sv' = length sv /\
    forall i c, nth_error cur i = Some c -> p_valid c = true -> nth_error sv' i = nth_error sv i /\
      forall v, nth_error sv i = Some v -> snd v = true /\ exists r, fst v = Fin r.

  Lemma combine_rel {A B} (R : A -> A -> Prop) (Q : B -> B -> Prop) l l' m m' : Forall2 R l l' -> Forall2 Q m m' ->
    Forall2 (fun x y => R (fst x) (fst y) /\ Q (snd x) (snd y)) (combine l m) (combine l' m').
  Proof. intros H. revert m m'. induction H; intros m m' K; [constructor|]. destruct K; cbn; constructor; auto. Qed.

  Lemma moved_idm_speed p v0 s0 th a b delta D s s' : idm_real p v0 s0 th a b delta ->
    additional_lookahead_distance p = Fin D -> moved_state g s s' ->
    alike (fun sv sv' => forall cur, current_sim s = Ok cur -> speeds_alike cur sv sv')
      (idm_update_speed p s) (idm_update_speed p s').
  Proof.
    intros HI HD (Hs & Hl & _ & _ & Hti & _).
    pose proof (alike_dynamic_index (moved_pt g) (s_t s) _ _ Hs) as HC.
    unfold idm_update_speed, current_sim. rewrite Hti.
    destruct (dynamic_index (s_sim s) _) as [cur|] eqn:Ec, (dynamic_index (s_sim s') _) as [cur'|] eqn:Ec';
      cbn in HC; try contradiction; [|now subst]. cbn [bind].
    rewrite <- (Forall2_len _ _ _ HC), <- (Forall2_len _ _ _ Hl).
    destruct (length cur =? length (s_log s))%nat eqn:G; [|reflexivity]. apply Nat.eqb_eq in G. cbn [guard bind].
    eapply alike_bind with (R := fun trs trs' => length trs = length cur /\ Forall2 (fun (x y : list (pt (S := XR)) * pt (S := XR)) => ways (snd x) (fst x) (fst y) /\ moved_pt g (snd x) (snd y)) (combine trs cur) (combine trs' cur')).
    { pose proof (combine_rel _ _ _ _ _ _ Hl HC) as HQ.
      clear -HC Hl HD G. revert G. revert cur cur' HC.
      induction Hl as [|l l' log log' Hr Hl IH]; intros cur cur' HC G.
      { destruct HC; [|discriminate]. cbn. split; [reflexivity|constructor]. }
      destruct HC as [|c c' cur cur' Hc HC]; [discriminate|]. cbn [combine mapM].
      eapply alike_bind; [apply (moved_lookahead p D l l' c c' HD Hc Hr)|]. intros tr tr' W. cbn [fst snd] in W.
      eapply alike_bind; [apply (IH cur cur' HC); now injection G|]. intros trs trs' (L & F).
      cbn [alike combine length]. split; [now rewrite L|]. constructor; [split; assumption|exact F]. }
    intros trs trs' (L & F). cbn [alike]. intros cur0 E. apply Ok_inj in E. subst cur0.
    pose proof (Forall2_len _ _ _ F) as LF.
    split; [now rewrite !mapi_length|]. intros i c Hc Vc. rewrite !nth_error_mapi.
    destruct (nth_error (combine trs cur) i) as [[tr me]|] eqn:E.
    2:{ apply nth_error_None in E. rewrite combine_length in E. apply nth_error_Some_lt in Hc. lia. }
    assert (Eme : me = c).
    { clear -E Hc. revert i cur E Hc. induction trs as [|t trs IH]; intros [|i] [|x cur] E Hc; try discriminate.
      - cbn in *. congruence.
      - cbn in *. eauto. }
    subst me. destruct (Forall2_nth1 _ _ _ _ _ F E) as ([tr' c'] & E' & ((_ & W) & Mc)). cbn [fst snd] in *. rewrite E'. cbn [option_map fst snd].
    unfold object_accel. rewrite (moved_lead i tr tr' cur cur' c c' (W Vc) HC Mc Vc), (moved_speed _ _ Mc). split; [reflexivity|].
    intros v Ev. apply Some_inj in Ev. subst v. split; [reflexivity|]. cbn [fst].
    destruct Mc as (_ & _ & _ & K). destruct (K Vc) as (k & _ & HK & _).
    destruct (@lead_finite i tr cur c) as (u & d & ->). rewrite (speed_Fin c k Vc HK).
    destruct (idm_bounds p v0 s0 th a b delta (speed k) u d HI) as (r & E1 & _); [apply sqrt_pos|]. eauto.
  Qed.

  (* ---------------- projection on the route ---------------- *)

  Lemma moved_wp_dists q log log' : Forall2 (moved_pt g) log log' ->
    wp_dists (moved_point g q) log' = wp_dists q log.
  Proof.
    intros H. unfold wp_dists. apply map_rel_eq' with (1 := H). intros w w' (_ & _ & V & K). rewrite V.
    destruct (p_valid w) eqn:E; [|reflexivity]. destruct (K eq_refl) as (k & k' & (A1 & A2 & _) & (B1 & B2 & _) & (M & _)).
    rewrite A1, A2, B1, B2, !fsub_Fin, !norm2_Fin. f_equal.
    pose proof (move_dist g (kx k, ky k) q) as D. rewrite <- M in D. exact D.
  Qed.

  Lemma moved_vidx log log' : Forall2 (moved_pt g) log log' -> vidx log' = vidx log.
  Proof.
    intros H. unfold vidx. apply mapi_ext_nth; [symmetry; eapply Forall2_len; eauto|]. intros i a a' Ha Ha'.
    destruct (proj2 (proj1 (Forall2_nth _ _ _) H) _ _ _ Ha Ha') as (_ & _ & -> & _). reflexivity.
  Qed.

  Lemma moved_way p p' : moved_pt g p p' -> p_valid p = true -> exists w, is_way p w.
  Proof.
    intros (_ & _ & _ & K) V. destruct (K V) as (k & _ & (A1 & A2 & A3 & _) & _). exists (mkway (kx k) (ky k) (kyaw k)). repeat split; auto.
  Qed.

  (** The projection with extrapolation, of related points on related routes. *)
  Lemma moved_project q log log' : Forall2 (moved_pt g) log log' -> (exists p, In p log /\ p_valid p = true) ->
    exists x y x' y' w w' reached,
      project_point (S := XR) true (Fin (fst q), Fin (snd q)) log = Ok ((Fin x, Fin y), Fin w, reached) /\
      project_point (S := XR) true (Fin (fst (moved_point g q)), Fin (snd (moved_point g q))) log' = Ok ((Fin x', Fin y'), Fin w', reached) /\
      (x', y') = moved_point g (x, y) /\ same_angle w' (w + mt_turn g).
  Proof.
    intros H (p0 & I0 & V0). apply In_nth_error in I0 as [k0 H0].
    assert (W : forall j p, nth_error log j = Some p -> p_valid p = true -> exists w, is_way p w).
    { intros j p Hj V. destruct (Forall2_nth1 _ _ _ _ _ H Hj) as (p' & _ & Mp). eapply moved_way; eauto. }
    destruct (nearest_idx log q W k0 p0 H0 V0) as (p & w & Hp & Vp & Hw & Hd & _).
    destruct (last_idx_valid log k0 p0 H0 V0) as (pl & Hl & Vl & _).
    destruct (Forall2_nth1 _ _ _ _ _ H Hp) as (p' & Hp' & Mp). destruct (Forall2_nth1 _ _ _ _ _ H Hl) as (pl' & Hl' & Ml).
    destruct Mp as (_ & _ & _ & Kp). destruct (Kp Vp) as (k & k' & (A1 & A2 & A3 & _) & (B1 & B2 & B3 & _) & M).
    destruct Ml as (_ & _ & _ & Kl). destruct (Kl Vl) as (l & l' & (C1 & C2 & _) & (D1 & D2 & _) & N).
    assert (U : forall (q : R * R) (log : list (pt (S := XR))) p pl d, nth_error log (argmin (S := XR) (wp_dists q log)) = Some p ->
      nth_error (wp_dists q log) (argmin (S := XR) (wp_dists q log)) = Some (Fin d) ->
      nth_error log (argmaxn (vidx log)) = Some pl -> forall k l, 
      p_x p = Fin (kx k) -> p_y p = Fin (ky k) -> p_yaw p = Fin (kyaw k) -> p_x pl = Fin (kx l) -> p_y pl = Fin (ky l) ->
      let inner := cos (kyaw k) * (fst q - kx k) + sin (kyaw k) * (snd q - ky k) in
      project_point (S := XR) true (Fin (fst q), Fin (snd q)) log
      = Ok ((Fin (cos (kyaw k) * inner + kx k), Fin (sin (kyaw k) * inner + ky k)), Fin (kyaw k),
            Rltb (dist (kx l, ky l) (kx k, ky k)) (5 / 100) || Rltb (5 / 1) d)).
    { clear. intros q log p pl d H1 H2 H3 k l X1 X2 X3 Y1 Y2 inner. unfold project_point. cbn [fst snd].
      change (map (fun w1 => if p_valid w1 then norm2 (S := XR) (fsub (Scalar := XR) (p_x w1) (Fin (fst q)))
         (fsub (Scalar := XR) (p_y w1) (Fin (snd q))) else finf (Scalar := XR)) log) with (wp_dists q log).
      change (mapi (fun i w0 => if p_valid w0 then i else 0%nat) log) with (vidx log).
      rewrite H1, H3. change (@F XR) with xr in *. rewrite H2. rewrite X1, X2, X3, Y1, Y2. cbn [negb andb].
      unfold reached_end_threshold, distance_to_ref_threshold. rewrite !flit_Fin, !fsub_Fin, norm2_Fin, !fltb_Fin, fcos_Fin, fsin_Fin.
      rewrite !fmul_Fin, !fadd_Fin, !fmul_Fin, !fadd_Fin. reflexivity. }
    pose proof (U q log p pl _ Hp Hd Hl k l A1 A2 A3 C1 C2) as E.
    rewrite <- (moved_wp_dists q _ _ H) in Hp', Hd. rewrite <- (moved_vidx _ _ H) in Hl'.
    pose proof (U (moved_point g q) log' p' pl' _ Hp' Hd Hl' k' l' B1 B2 B3 D1 D2) as E'.
    cbn zeta in E, E'.
    assert (DD : dist (kx l', ky l') (kx k', ky k') = dist (kx l, ky l) (kx k, ky k)).
    { rewrite (moved_xy g _ _ M), (moved_xy g _ _ N). apply move_dist. }
    rewrite DD in E'. do 7 eexists. split; [exact E|]. split; [exact E'|]. split; [|exact (proj2 (proj2 M))].
    pose proof (turn_cos g _ _ M) as TC. pose proof (turn_sin g _ _ M) as TS. destruct M as (M1 & _ & _). injection M1 as X Y.
    rewrite TC, TS, X, Y. unfold moved_point, move; cbn [fst snd].
    pose proof (cs1 (mt_turn g)) as CS. set (c := cos (mt_turn g)) in *. set (s := sin (mt_turn g)) in *.
    set (ck := cos (kyaw k)). set (sk := sin (kyaw k)). destruct q as [qx qy]; cbn [fst snd].
    set (a := qx - kx k). set (b := qy - ky k).
    assert (I : (ck * c - sk * s) * (qx * c - qy * s + mt_dx g - (kx k * c - ky k * s + mt_dx g))
              + (sk * c + ck * s) * (qx * s + qy * c + mt_dy g - (kx k * s + ky k * c + mt_dy g)) = ck * a + sk * b).
    { transitivity ((ck * a + sk * b) * (c * c + s * s)); [unfold a, b; ring|]. rewrite CS. ring. }
    f_equal.
    - transitivity ((ck * c - sk * s) * (ck * a + sk * b) + (kx k * c - ky k * s + mt_dx g)); [rewrite <- I; ring|ring].
    - transitivity ((sk * c + ck * s) * (ck * a + sk * b) + (kx k * s + ky k * c + mt_dy g)); [rewrite <- I; ring|ring].
  Qed.

  Lemma moved_next log log' c c' r : Forall2 (moved_pt g) log log' -> (exists p, In p log /\ p_valid p = true) ->
    moved_pt g c c' -> p_valid c = true ->
    exists p p' k k', next_by_projection (S := XR) false default_time_delta log c (Fin r) true = Ok p /\
      next_by_projection (S := XR) false default_time_delta log' c' (Fin r) true = Ok p' /\
      has_kin p k /\ has_kin p' k' /\ moved_kin g k k' /\ p_valid p = true /\ p_valid p' = true.
  Proof.
    intros H HV Mc Vc. pose proof Mc as (_ & _ & V' & K). rewrite Vc in V'.
    destruct (K Vc) as (k & k' & Hk & Hk' & M). pose proof (speed_Fin c k Vc Hk) as Es.
    pose proof (speed_Fin c' k' V' Hk') as Es'. rewrite (move_speed g _ _ M) in Es'.
    destruct Hk as (A1 & A2 & A3 & A4 & A5), Hk' as (B1 & B2 & B3 & B4 & B5).
    set (t := (r + speed k) / 2 * (1 / 10)).
    set (q := (kx k + t * cos (kyaw k), ky k + t * sin (kyaw k))).
    assert (Q : moved_point g q = (kx k' + t * cos (kyaw k'), ky k' + t * sin (kyaw k'))).
    { pose proof (turn_cos g _ _ M) as TC. pose proof (turn_sin g _ _ M) as TS. destruct M as (M1 & _). injection M1 as X Y.
      rewrite TC, TS, X, Y. unfold q, moved_point, move; cbn [fst snd]. f_equal; ring. }
    destruct (moved_project q log log' H HV) as (x & y & x' & y' & w & w' & reached & E & E' & XY & W).
    assert (N : forall (lg : list (pt (S := XR))) cc kk q xx yy ww, p_valid cc = true -> obj_speed (S := XR) cc = Fin (speed k) ->
      p_x cc = Fin (kx kk) -> p_y cc = Fin (ky kk) -> p_yaw cc = Fin (kyaw kk) ->
      q = (kx kk + t * cos (kyaw kk), ky kk + t * sin (kyaw kk)) ->
      project_point (S := XR) true (Fin (fst q), Fin (snd q)) lg = Ok ((Fin xx, Fin yy), Fin ww, reached) ->
      next_by_projection (S := XR) false default_time_delta lg cc (Fin r) true
      = Ok (mkpt (Fin xx) (Fin yy) (p_z cc) (if reached then p_vx cc else Fin (r * cos (kyaw kk)))
              (if reached then p_vy cc else Fin (r * sin (kyaw kk))) (Fin ww) true (p_ts cc) (p_len cc) (p_wid cc) (p_hei cc))).
    { clear. intros lg cc kk q xx yy ww V S X1 X2 X3 -> HP. unfold next_by_projection. rewrite S, X1, X2, X3.
      unfold default_time_delta. rewrite flit_Fin, f2_Fin, fadd_Fin, fdiv_Fin, fmul_Fin, fcos_Fin, fsin_Fin by lra.
      rewrite !fmul_Fin, !fadd_Fin. cbn [fst snd] in HP. cbn [negb].
      fold t. match goal with |- bind _ ?f = _ => refine (eq_trans (f_equal (fun z => bind z f) HP) _) end. cbn [bind fst snd]. rewrite V. reflexivity. }
    rewrite Q in E'.
    eexists _, _, (mkkin x y w (if reached then kvx k else r * cos (kyaw k)) (if reached then kvy k else r * sin (kyaw k))),
      (mkkin x' y' w' (if reached then kvx k' else r * cos (kyaw k')) (if reached then kvy k' else r * sin (kyaw k'))).
    split; [apply (N log c k q x y w Vc Es A1 A2 A3 eq_refl E)|].
    split; [refine (N log' c' k' _ x' y' w' V' Es' B1 B2 B3 eq_refl E')|].
    split; [repeat split; cbn [p_vx p_vy kvx kvy]; destruct reached; auto|].
    split; [repeat split; cbn [p_vx p_vy kvx kvy]; destruct reached; auto|].
    split; [|auto]. split; [exact XY|]. split; [|exact W]. cbn [kvx kvy].
    destruct reached; [exact (proj1 (proj2 M))|].
    rewrite (turn_cos g _ _ M), (turn_sin g _ _ M). unfold moved_vector, move; cbn [fst snd]. f_equal; ring.
  Qed.

  (* ---------------- the agents ---------------- *)

  Context {P X K : Type}.

  Lemma idm_frame_free (none : X) c p v0 s0 th a b delta D : same_objects g c ->
    idm_real p v0 s0 th a b delta -> additional_lookahead_distance p = Fin D -> idm_invalidate_on_end p = false ->
    frame_free g (fun _ => True) (idm_actor (P := P) (K := K) none c p).
  Proof.
    intros HC HI HD HE. split; [intros; reflexivity|].
    intros prm s s' x key MS OR _. unfold idm_actor, sim_agent; cbn [ac_select]. rewrite (HC s s' MS).
    unfold idm_policy. rewrite HE.
    apply alike_bind with (R := fun us us' => length us' = length us /\
      forall cur i q u u', current_sim s = Ok cur -> nth_error cur i = Some q -> p_valid q = true ->
        nth_error us i = Some u -> nth_error us' i = Some u' ->
        exists k k', upd_kin u k /\ upd_kin u' k' /\ moved_kin g k k' /\ u_valid u' = u_valid u).
    - unfold waypoint_update.
      eapply alike_bind; [eapply moved_idm_speed; eauto|]. intros sv sv' HS.
      pose proof MS as (Hs & Hl & _ & _ & Hti & _).
      pose proof (alike_dynamic_index (moved_pt g) (s_t s) _ _ Hs) as HCU. unfold current_sim in *. rewrite Hti.
      unfold on_record in OR.
      destruct (dynamic_index (s_sim s) _) as [cur|] eqn:Ec, (dynamic_index (s_sim s') _) as [cur'|] eqn:Ec';
        cbn in HCU; try contradiction; [|now subst]. cbn [bind].
      destruct (HS cur eq_refl) as (LS & HV). rewrite <- (Forall2_len _ _ _ HCU), <- (Forall2_len _ _ _ Hl), LS.
      destruct ((length cur =? length (s_log s)) && (length sv =? length cur))%nat eqn:G; [|reflexivity].
      apply andb_true_iff in G as [G1 G2]. apply Nat.eqb_eq in G1, G2. cbn [guard bind].
      assert (CR : forall i q, nth_error cur i = Some q -> p_valid q = true ->
        forall l, nth_error (s_log s) i = Some l -> exists y, In y l /\ p_valid y = true).
      { intros i q Hq Vq l Hl'. destruct (dynamic_index_row _ _ _ _ _ Ec Hq) as (rw & Hrw & Iq). eapply OR; eauto. }
      eapply alike_mono.
      2:{ intros us us' HH. exact HH. }
      clear HS Ec Ec' Hs OR MS Hti. revert cur cur' HCU sv sv' LS HV G1 G2 CR.
      induction Hl as [|l l' log log' Hr Hl IH]; intros cur cur' HCU sv sv' LS HV G1 G2 CR.
      { destruct HCU; [|discriminate]. cbn. split; [reflexivity|]. intros ? [|] ? ? ? E; apply Ok_inj in E; subst; discriminate. }
      destruct HCU as [|q q' cur cur' Hq HCU]; [discriminate|]. destruct sv as [|v sv]; [discriminate|].
      destruct sv' as [|v' sv']; [discriminate|]. cbn [map3 mapM].
      apply alike_bind with (R := fun u u' => p_valid q = true ->
        exists k k', upd_kin u k /\ upd_kin u' k' /\ moved_kin g k k' /\ u_valid u' = u_valid u).
      { destruct (p_valid q) eqn:Vq.
        - destruct (HV 0%nat q eq_refl Vq) as (EV & FV). cbn in EV. apply Some_inj in EV. subst v'.
          destruct (FV v eq_refl) as (V1 & r & V2). rewrite V1. change (@F XR) with xr in *. rewrite V2.
          destruct (moved_next l l' q q' r Hr) as (n & n' & k & k' & E & E' & KN & KN' & M & Vn & Vn'); auto.
          { eapply (CR 0%nat); [reflexivity|exact Vq|reflexivity]. }
          rewrite E, E'. cbn [bind alike]. intros _. exists k, k'.
          destruct KN as (A1 & A2 & A3 & A4 & A5), KN' as (B1 & B2 & B3 & B4 & B5).
          split; [repeat split; assumption|]. split; [repeat split; assumption|]. split; [exact M|]. cbn [u_valid]. congruence.
        - assert (T : forall (lg : list (pt (S := XR))) cc z zb, lg <> [] -> exists n, next_by_projection (S := XR) false default_time_delta lg cc z zb = Ok n).
          { clear. intros lg cc z zb Hn. unfold next_by_projection. set (xy := (_, _)) in *.
            destruct (project_total (S := XR) (negb false) xy lg Hn) as ([[? ?] ?] & ->). cbn [bind].
            destruct (_ && _); eauto. }
          destruct Hr as [|w w' l l' Hw Hr].
          + reflexivity.
          + destruct (T (w :: l) q (fst v) (snd v)) as (n & ->); [discriminate|].
            destruct (T (w' :: l') q' (fst v') (snd v')) as (n' & ->); [discriminate|]. cbn [bind alike]. discriminate. }
      intros u u' HU. eapply alike_bind.
      { apply (IH cur cur' HCU sv sv'); [now injection LS| |now injection G1|now injection G2|].
        - intros i. apply (HV (S i)).
        - intros i. apply (CR (S i)). }
      intros us us' (LU & HUS). cbn [alike length]. split; [now rewrite LU|].
      intros cur0 i y z z' E. apply Ok_inj in E. subst cur0. destruct i as [|i]; cbn [nth_error].
      + intros E1 Vy E2 E3. apply Some_inj in E1, E2, E3. subst. auto.
      + intros. eapply HUS; eauto.
    - intros us us' (LU & HU). cbn [alike]. unfold same_choice; cbn [o_state o_controlled o_action].
      split; [reflexivity|]. split; [reflexivity|]. split; [now rewrite !map_length|].
      split; [apply Forall_forall; intros y Hy; apply in_map_iff in Hy as (u & <- & _); reflexivity|].
      split; [apply Forall_forall; intros y Hy; apply in_map_iff in Hy as (u & <- & _); reflexivity|].
      intros cur i q y y' Ec Hq Vq _ Hy Hy'. rewrite nth_error_map in Hy, Hy'.
      destruct (nth_error us i) as [u|] eqn:Eu; [|discriminate]. destruct (nth_error us' i) as [u'|] eqn:Eu'; [|discriminate].
      cbn in Hy, Hy'. apply Some_inj in Hy, Hy'. subst y y'.
      destruct (HU cur i q u u' Ec Hq Vq Eu Eu') as (k & k' & (A1 & A2 & A3 & A4 & A5) & (B1 & B2 & B3 & B4 & B5) & M & VV).
      exists k, k'. split; [exact M|]. unfold as_action; cbn [a_data a_valid].
      rewrite A1, A2, A3, A4, A5, B1, B2, B3, B4, B5. auto.
  Qed.

  (* ---------------- constant speed and expert actors ---------------- *)

  Lemma two_frames_next {A} (f : bool -> A -> A) ctrl (t0 : list A) :
    dynamic_index (map2 (fun c p => [p; f c p]) ctrl t0) (0 + 1) = Ok (map2 f ctrl t0).
  Proof.
    unfold dynamic_index. revert t0. induction ctrl as [|c ctrl IH]; intros [|p t0]; try reflexivity.
    cbn [map2 mapM]. rewrite IH. reflexivity.
  Qed.

  Definition act_of_pt (p : pt (S := XR)) : act (S := XR) := mkact [p_x p; p_y p; p_yaw p; p_vx p; p_vy p] (p_valid p).

  Lemma act_of_moved p p' : moved_pt g p p' -> p_valid p = true -> moved_action g (act_of_pt p) (act_of_pt p').
  Proof.
    intros (_ & _ & V & K0) E. destruct (K0 E) as (k & k' & (A1 & A2 & A3 & A4 & A5) & (B1 & B2 & B3 & B4 & B5) & M).
    exists k, k'. split; [exact M|]. unfold act_of_pt; cbn [a_data a_valid].
    rewrite A1, A2, A3, A4, A5, B1, B2, B3, B4, B5. auto.
  Qed.

  Lemma moved_constant_next sp b p p' : (sp = None \/ exists v, sp = Some (Fin v)) -> moved_pt g p p' ->
    p_valid p = true ->
    moved_action g (act_of_pt (constant_speed_next (S := XR) sp b p)) (act_of_pt (constant_speed_next (S := XR) sp b p')).
  Proof.
    intros HS (_ & _ & V & K0) E. destruct (K0 E) as (k & k' & (A1 & A2 & A3 & A4 & A5) & (B1 & B2 & B3 & B4 & B5) & M).
    pose proof (turn_cos g _ _ M) as TC. pose proof (turn_sin g _ _ M) as TS. destruct M as (M1 & M2 & M3).
    unfold moved_point, moved_vector, move in M1, M2; cbn [fst snd] in M1, M2. injection M1 as X1 Y1. injection M2 as X2 Y2.
    set (vx := match sp with None => kvx k | Some (Fin v) => v * cos (kyaw k) | _ => 0 end).
    set (vy := match sp with None => kvy k | Some (Fin v) => v * sin (kyaw k) | _ => 0 end).
    set (vx' := match sp with None => kvx k' | Some (Fin v) => v * cos (kyaw k') | _ => 0 end).
    set (vy' := match sp with None => kvy k' | Some (Fin v) => v * sin (kyaw k') | _ => 0 end).
    exists (mkkin (kx k + vx * (1 / 10)) (ky k + vy * (1 / 10)) (kyaw k) vx vy).
    exists (mkkin (kx k' + vx' * (1 / 10)) (ky k' + vy' * (1 / 10)) (kyaw k') vx' vy').
    assert (VV : (vx', vy') = moved_vector g (vx, vy)).
    { unfold vx, vy, vx', vy', moved_vector, move; cbn [fst snd].
      destruct HS as [->|[v ->]]; [rewrite X2, Y2; f_equal; ring|rewrite TC, TS; f_equal; ring]. }
    assert (EX : forall (q : pt (S := XR)) (l : kin) ux uy, p_x q = Fin (kx l) -> p_y q = Fin (ky l) -> p_yaw q = Fin (kyaw l) ->
      match sp with None => p_vx q = Fin ux /\ p_vy q = Fin uy | Some (Fin v) => ux = v * cos (kyaw l) /\ uy = v * sin (kyaw l) | _ => False end ->
      a_data (act_of_pt (constant_speed_next (S := XR) sp b q))
      = [Fin (kx l + ux * (1 / 10)); Fin (ky l + uy * (1 / 10)); Fin (kyaw l); Fin ux; Fin uy]).
    { clear. intros q l ux uy Q1 Q2 Q3 Q. unfold act_of_pt, constant_speed_next, time_interval; cbn [a_data p_x p_y p_yaw p_vx p_vy].
      rewrite Q1, Q2, Q3, flit_Fin. destruct sp as [v|].
      - destruct v as [v| | |]; try contradiction. destruct Q as [-> ->]. rewrite fcos_Fin, fsin_Fin, !fmul_Fin, !fadd_Fin. reflexivity.
      - destruct Q as [-> ->]. rewrite !fmul_Fin, !fadd_Fin. reflexivity. }
    split.
    - split; [|split; [exact VV|exact M3]]. cbn [kx ky]. unfold moved_vector, move in VV; cbn [fst snd] in VV. injection VV as V1 V2.
      rewrite V1, V2, X1, Y1. unfold moved_point, move; cbn [fst snd]. f_equal; ring.
    - cbn [kx ky kyaw kvx kvy]. split; [|split].
      + apply (EX p k vx vy); auto. unfold vx, vy. destruct HS as [->|[v ->]]; auto.
      + apply (EX p' k' vx' vy'); auto. unfold vx', vy'. destruct HS as [->|[v ->]]; auto.
      + cbn [act_of_pt a_valid constant_speed_next p_valid]. now rewrite V.
  Qed.

  Lemma constant_speed_frame_free (none : X) c sp : same_objects g c -> (sp = None \/ exists v, sp = Some (Fin v)) ->
    frame_free g (fun _ => True) (constant_speed_actor (P := P) (K := K) none StateDynamics c sp).
  Proof.
    intros HC HS. split; [intros; reflexivity|].
    intros prm s s' x key MS _ _. unfold constant_speed_actor; cbn [ac_select d_inverse StateDynamics].
    pose proof MS as (Hs & _ & _ & _ & Hti & _). pose proof (alike_dynamic_index (moved_pt g) (s_t s) _ _ Hs) as HCU.
    rewrite Hti, (HC s s' MS).
    destruct (dynamic_index (s_sim s) _) as [cur|] eqn:Ec, (dynamic_index (s_sim s') _) as [cur'|] eqn:Ec';
      cbn in HCU; try contradiction; [|now subst]. cbn [bind]. rewrite <- (Forall2_len _ _ _ HCU).
    apply alike_bind with (R := eq); [apply alike_guard|]. intros _ _ _.
    unfold state_inverse. rewrite !two_frames_next. cbn [bind alike].
    change (fun p : pt (S := XR) => mkact [p_x p; p_y p; p_yaw p; p_vx p; p_vy p] (p_valid p)) with act_of_pt.
    unfold same_choice; cbn [o_state o_controlled o_action].
    split; [reflexivity|]. split; [reflexivity|]. split; [rewrite !map_length, !map2_length, (Forall2_len _ _ _ HCU); reflexivity|].
    split; [apply Forall_forall; intros y Hy; apply in_map_iff in Hy as (u & <- & _); reflexivity|].
    split; [apply Forall_forall; intros y Hy; apply in_map_iff in Hy as (u & <- & _); reflexivity|].
    intros cur0 i q y y' E Hq Vq _ Hy Hy'. unfold current_sim in E. rewrite Ec in E. apply Ok_inj in E. subst cur0.
    rewrite nth_error_map, nth_error_map2, Hq in Hy. destruct (Forall2_nth1 _ _ _ _ _ HCU Hq) as (q' & Hq' & Mq).
    rewrite nth_error_map, nth_error_map2, Hq' in Hy'. destruct (nth_error (c s) i) as [b|]; [|discriminate].
    cbn in Hy, Hy'. apply Some_inj in Hy, Hy'. subst y y'. now apply moved_constant_next.
  Qed.

  Lemma frozen_frame_free (none : X) c : same_objects g c ->
    frame_free g (fun _ => True) (sim_agent (P := P) (K := K) none c frozen_update).
  Proof.
    intros HC. split; [intros; reflexivity|].
    intros prm s s' x key MS _ _. unfold sim_agent, frozen_update, current_sim; cbn [ac_select].
    pose proof MS as (Hs & _ & _ & _ & Hti & _). pose proof (alike_dynamic_index (moved_pt g) (s_t s) _ _ Hs) as HCU.
    rewrite Hti, (HC s s' MS).
    destruct (dynamic_index (s_sim s) _) as [cur|] eqn:Ec, (dynamic_index (s_sim s') _) as [cur'|] eqn:Ec';
      cbn in HCU; try contradiction; [|now subst]. cbn [bind alike]. rewrite !map_map.
    unfold same_choice; cbn [o_state o_controlled o_action].
    split; [reflexivity|]. split; [reflexivity|]. split; [rewrite !map_length, (Forall2_len _ _ _ HCU); reflexivity|].
    split; [apply Forall_forall; intros y Hy; apply in_map_iff in Hy as (u & <- & _); reflexivity|].
    split; [apply Forall_forall; intros y Hy; apply in_map_iff in Hy as (u & <- & _); reflexivity|].
    intros cur0 i q y y' E Hq Vq _ Hy Hy'. unfold current_sim in E. rewrite Ec in E. apply Ok_inj in E. subst cur0.
    destruct (Forall2_nth1 _ _ _ _ _ HCU Hq) as (q' & Hq' & Mq). rewrite nth_error_map, Hq in Hy. rewrite nth_error_map, Hq' in Hy'.
    cbn in Hy, Hy'. apply Some_inj in Hy, Hy'. subst y y'. exact (act_of_moved _ _ Mq Vq).
  Qed.

  Lemma expert_frame_free (none : X) c : same_objects g c ->
    frame_free g no_traffic (expert_actor (P := P) (K := K) none StateDynamics c).
  Proof.
    intros HC. split; [intros; reflexivity|].
    intros prm s s' x key MS OR NT. unfold expert_actor, infer_expert_action; cbn [ac_select d_inverse StateDynamics].
    pose proof MS as (Hs & Hl & _ & _ & Hti & _). rewrite Hti, (HC s s' MS).
    pose proof (alike_dynamic_slice (moved_pt g) (s_t s) 1 _ _ Hs) as HP.
    pose proof (alike_dynamic_slice (moved_pt g) (s_t s + 1) 1 _ _ Hl) as HN.
    destruct (dynamic_slice (s_sim s) _ _) as [prev|] eqn:Ep, (dynamic_slice (s_sim s') _ _) as [prev'|]; cbn in HP;
      try contradiction; [|now subst]. cbn [bind].
    destruct (dynamic_slice (s_log s) _ _) as [next|] eqn:En, (dynamic_slice (s_log s') _ _) as [next'|]; cbn in HN;
      try contradiction; [|now subst]. cbn [bind].
    assert (HB : moved_traj g (map2 (@app _) prev next) (map2 (@app _) prev' next')).
    { clear -HP HN. revert next next' HN. induction HP as [|a a' prev prev' Ha HP IH]; intros next next' HN; [constructor|].
      destruct HN as [|b b' next next' Hb HN]; cbn [map2]; constructor; [now apply Forall2_app|now apply IH]. }
    unfold state_inverse. pose proof (alike_dynamic_index (moved_pt g) (0 + 1) _ _ HB) as HI.
    destruct (dynamic_index (map2 _ prev next) _) as [nx|] eqn:Ex, (dynamic_index (map2 _ prev' next') _) as [nx'|]; cbn in HI;
      try contradiction; [|now subst]. cbn [bind alike].
    change (fun p : pt (S := XR) => mkact [p_x p; p_y p; p_yaw p; p_vx p; p_vy p] (p_valid p)) with act_of_pt.
    unfold same_choice; cbn [o_state o_controlled o_action].
    split; [reflexivity|]. split; [reflexivity|]. split; [rewrite !map_length, (Forall2_len _ _ _ HI); reflexivity|].
    split; [apply Forall_forall; intros y Hy; apply in_map_iff in Hy as (u & <- & _); reflexivity|].
    split; [apply Forall_forall; intros y Hy; apply in_map_iff in Hy as (u & <- & _); reflexivity|].
    intros cur i q y y' E Hq Vq _ Hy Hy'. rewrite nth_error_map in Hy, Hy'.
    destruct (nth_error nx i) as [n|] eqn:Hn; [|discriminate]. destruct (Forall2_nth1 _ _ _ _ _ HI Hn) as (n' & Hn' & Mn).
    rewrite Hn' in Hy'. cbn in Hy, Hy'. apply Some_inj in Hy, Hy'. subst y y'. apply act_of_moved; [exact Mn|].
    destruct (nth_error_lt_Some (map2 (@app _) prev next) i) as [r Hr].
    { rewrite <- (mapM_length _ _ _ Ex). eapply nth_error_Some_lt; eauto. }
    destruct (mapM_nth _ _ _ _ _ Ex Hr) as (n0 & Ei & En0). rewrite Hn in En0. apply Some_inj in En0. subst n0.
    rewrite nth_error_map2 in Hr. destruct (nth_error prev i) as [a|] eqn:Ea; [|discriminate].
    destruct (nth_error next i) as [b|] eqn:Eb; [|discriminate]. apply Some_inj in Hr. subst r.
    destruct (nth_error_lt_Some (s_sim s) i) as [ra Hra].
    { unfold dynamic_slice in Ep. rewrite <- (mapM_length _ _ _ Ep). eapply nth_error_Some_lt; eauto. }
    destruct (nth_error_lt_Some (s_log s) i) as [rb Hrb].
    { unfold dynamic_slice in En. rewrite <- (mapM_length _ _ _ En). eapply nth_error_Some_lt; eauto. }
    destruct (mapM_nth _ _ _ _ _ Ep Hra) as (a0 & Sa & Ea0). rewrite Ea in Ea0. apply Some_inj in Ea0. subst a0.
    destruct (mapM_nth _ _ _ _ _ En Hrb) as (b0 & Sb & Eb0). rewrite Eb in Eb0. apply Some_inj in Eb0. subst b0.
    assert (L1 : forall t (l m : list (pt (S := XR))), dyn_slice t 1 l = Ok m -> exists z, m = [z]).
    { clear. intros t l m H. unfold dyn_slice in H. destruct (1 <=? length l)%nat eqn:L; [|discriminate]. apply Nat.leb_le in L.
      apply Ok_inj in H. pose proof (norm_start_fit t (length l) 1 ltac:(lia)) as F. 
      assert (LL : length m = 1%nat) by (rewrite <- H, firstn_length, skipn_length; lia).
      destruct m as [|z [|]]; try discriminate. eauto. }
    destruct (L1 _ _ _ Sa) as (za & ->), (L1 _ _ _ Sb) as (zb & ->). cbn in Ei. apply Ok_inj in Ei. subst n.
    assert (Ib : In zb rb) by (eapply dyn_slice_In; [exact Sb|now left]).
    unfold current_sim in E. destruct (dynamic_index_row _ _ _ _ _ E Hq) as (rq & Hrq & Iq).
    destruct (OR i rq rb Hrq Hrb) as (p0 & I0 & V0); [eauto|].
    eapply (NT rb p0 zb); eauto. eapply nth_error_In; eauto.
  Qed.
End G.

(* ---------------- a planner that looks from the SDC ---------------- *)

Lemma dyn_index_update {A} t (a : A) l m : dyn_update t [a] l = Ok m -> dyn_index t m = Ok a.
Proof.
  unfold dyn_update. cbn [length]. destruct (1 <=? length l)%nat eqn:L; [|discriminate]. apply Nat.leb_le in L.
  intros H. apply Ok_inj in H. subst m. unfold dyn_index, splice. cbn [length].
  pose proof (norm_start_fit t (length l) 1 L) as F. set (k := norm_start t (length l) 1) in *.
  assert (E : length (firstn k l ++ [a] ++ skipn (k + 1) l) = length l).
  { rewrite !app_length, firstn_length, skipn_length. cbn [length]. lia. }
  rewrite E. fold k. rewrite nth_error_app2; rewrite firstn_length, Nat.min_l by lia; [|lia]. now rewrite Nat.sub_diag.
Qed.

Lemma update_column {A} t (m m' : list (list A)) col : update_by_slice_in_dim m (map (fun p => [p]) col) t (Some 0%Z) (Some 1%nat) = Ok m' ->
  length col = length m -> dynamic_index m' t = Ok col.
Proof.
  unfold update_by_slice_in_dim, dynamic_index. revert m m'. induction col as [|c col IH]; intros [|r m] m' H L; try discriminate.
  - apply Ok_inj in H. now subst.
  - cbn [map update_rows] in H. apply bind_Ok in H as (r1 & H1 & H). apply bind_Ok in H as (rs & H2 & H). apply Ok_inj in H. subst m'.
    cbn [mapM]. unfold update_row in H1. apply bind_Ok in H1 as (w & Hw & H1). cbn in Hw. apply Ok_inj in Hw. subst w.
    rewrite (dyn_index_update _ _ _ _ H1). cbn [bind]. rewrite (IH m rs H2) by (now injection L). reflexivity.
Qed.

Lemma merge_keeps {P X K} s able (ags : list (actor (S := XR) P X K)) xs ps ks act ctrl act' ctrl' xs' i :
  merge_sim_agents s able ags xs ps ks act ctrl = Ok (act', ctrl', xs') -> nth_error ctrl i = Some true ->
  forall b, nth_error ctrl' i = Some b -> b = true.
Proof.
  revert xs ps ks act ctrl act' ctrl' xs'. induction ags as [|ag ags IH]; intros xs ps ks act ctrl act' ctrl' xs' H Hi b Hb.
  { cbn in H. apply Ok_inj in H. injection H as _ <- _. congruence. }
  destruct xs as [|x xs]; [cbn in H; apply Ok_inj in H; injection H as _ <- _; congruence|].
  destruct ps as [|p ps]; [cbn in H; apply Ok_inj in H; injection H as _ <- _; congruence|].
  destruct ks as [|k ks]; [cbn in H; apply Ok_inj in H; injection H as _ <- _; congruence|].
  cbn [merge_sim_agents] in H. apply bind_Ok in H as (o & _ & H). apply bind_Ok in H as (_ & _ & H).
  apply bind_Ok in H as (a1 & _ & H). apply bind_Ok in H as ([[a2 c2] x2] & H2 & H). apply Ok_inj in H.
  injection H as _ <- _.
  destruct (nth_error (map2 orb ctrl (map2 andb (o_controlled o) able)) i) as [b0|] eqn:E0.
  - eapply IH; [exact H2| |exact Hb]. rewrite E0. f_equal. rewrite nth_error_map2, Hi in E0.
    destruct (nth_error (map2 andb _ _) i); [|discriminate]. apply Some_inj in E0. now subst b0.
  - exfalso. apply nth_error_None in E0. apply nth_error_Some_lt in Hb.
    assert (G : forall ags xs ps ks act ctrl act' ctrl' xs', merge_sim_agents s able (ags : list (actor (S := XR) P X K)) xs ps ks act ctrl = Ok (act', ctrl', xs') ->
      (length ctrl' <= length ctrl)%nat).
    { clear. induction ags as [|ag ags IH]; intros xs ps ks act ctrl act' ctrl' xs' H.
      { cbn in H. apply Ok_inj in H. injection H as _ <- _. auto. }
      destruct xs as [|x xs]; [cbn in H; apply Ok_inj in H; injection H as _ <- _; auto|].
      destruct ps as [|p ps]; [cbn in H; apply Ok_inj in H; injection H as _ <- _; auto|].
      destruct ks as [|k ks]; [cbn in H; apply Ok_inj in H; injection H as _ <- _; auto|].
      cbn [merge_sim_agents] in H. apply bind_Ok in H as (o & _ & H). apply bind_Ok in H as (_ & _ & H).
      apply bind_Ok in H as (a1 & _ & H). apply bind_Ok in H as ([[a2 c2] x2] & H2 & H). apply Ok_inj in H.
      injection H as _ <- _. specialize (IH _ _ _ _ _ _ _ _ H2). rewrite map2_length in IH. lia. }
    specialize (G _ _ _ _ _ _ _ _ _ H2). lia.
Qed.

(** The SDC stays in the scene. *)
Definition sdc_here (i : nat) (s : state (S := XR)) : Prop :=
  the_sdc (s_meta s) i /\ exists cur c, current_sim s = Ok cur /\ nth_error cur i = Some c /\ p_valid c = true.

Lemma sdc_stays {P X K} split (e : penv (S := XR) P X K) ps a rng ps1 i :
  c_allow_new_objects (pe_cfg e) = false -> penv_step split e ps a rng = Ok ps1 -> sdc_here i (ps_state ps) -> sdc_here i (ps_state ps1).
Proof.
  intros CI H (HI & cur & c & Ec & Hc & Vc). unfold penv_step in H. rewrite CI in H. rewrite Ec in H. cbn [bind] in H.
  apply bind_Ok in H as (us0 & _ & H). apply bind_Ok in H as (ov & _ & H).
  apply bind_Ok in H as (_ & _ & H). apply bind_Ok in H as ([[act ctrl] xs] & HM & H).
  apply bind_Ok in H as (sim & Hf & H). apply Ok_inj in H. subst ps1. split; [exact HI|]. cbn [ps_state].
  unfold current_sim in *; cbn [s_sim s_t].
  unfold forward in Hf. apply bind_Ok in Hf as (? & G & Hf). apply guard_Ok in G.
  apply andb_true_iff in G as [G G3]. apply andb_true_iff in G as [G1 G2]. apply Nat.eqb_eq in G1, G2, G3.
  rewrite Ec in Hf. cbn [bind] in Hf. apply bind_Ok in Hf as (us & _ & Hf).
  unfold apply_trajectory_update_to_state in Hf. rewrite Ec in Hf. cbn [bind] in Hf.
  apply bind_Ok in Hf as (nx & Hn & Hf). apply bind_Ok in Hf as (? & GG & Hf). apply guard_Ok in GG.
  apply andb_true_iff in GG as [GG1 GG2]. apply Nat.eqb_eq in GG1, GG2.
  assert (Lc : length cur = length (s_sim (ps_state ps))) by (unfold dynamic_index in Ec; apply (mapM_length _ _ _ Ec)).
  exists (map4 (next_pt false false) us cur nx ctrl).
  pose proof (nth_error_Some_lt _ _ _ Hc) as Hi.
  destruct (nth_error_lt_Some us i) as [u Hu]; [lia|]. destruct (nth_error_lt_Some nx i) as [n Hnx]; [lia|].
  destruct (nth_error_lt_Some ctrl i) as [b Hb]; [lia|].
  exists (next_pt false false u c n b). split; [|split].
  - apply (update_column _ _ _ _ Hf). rewrite map4_length. lia.
  - rewrite nth_error_map4, Hu, Hc, Hnx, Hb. reflexivity.
  - assert (B : b = true).
    { eapply merge_keeps; [exact HM| |exact Hb]. rewrite nth_error_map.
      destruct HI as ((m & Em & Es) & _). rewrite Em. cbn. now rewrite Es. }
    subst b. cbn [next_pt p_valid]. unfold next_valid. now rewrite Vc.
Qed.

Lemma moved_planned {P X K} g split (e : penv (S := XR) P X K) (ok : traj (S := XR) -> Prop) k topk pl i :
  planned g (pe_dyn e) same_action -> Forall (frame_free g ok) (pe_agents e) -> c_allow_new_objects (pe_cfg e) = false ->
  own_frame_planner pl -> forall keys ps ps', moved_pstate g ps ps' -> on_record (ps_state ps) -> ok (s_log (ps_state ps)) ->
  markers_alike (ps_state ps) (ps_state ps') -> sdc_here i (ps_state ps) ->
  alike (moved_pstate g) (planned_episode split e k topk pl keys ps) (planned_episode split e k topk pl keys ps').
Proof.
  intros HD HA CI (D1 & D2). induction keys as [|rng keys IH]; intros ps ps' MP OR HO MA HS; [exact MP|].
  cbn [planned_episode]. pose proof HS as (HI & cur & c & Ec & Hc & Vc).
  eapply alike_bind; [apply (moved_sdc_observation g _ _ k topk FRAME_SDC i c cur (proj1 MP) ltac:(discriminate) Ec HI Hc Vc)|].
  intros o o' Ho. rewrite (D1 o o' Ho).
  pose proof (moved_penv_step g split e ok same_action HD HA CI ps ps' (pl o) (pl o) rng MP OR HO MA (conj eq_refl (D2 o))) as ST.
  destruct (penv_step split e ps (pl o) rng) as [p1|] eqn:E, (penv_step split e ps' (pl o) rng) as [p1'|] eqn:E'; cbn in ST;
    try contradiction; [|now subst]. cbn [bind].
  destruct (penv_step_on_record _ _ _ _ _ _ CI E OR) as (O1 & L1 & _).
  assert (L1' : s_log (ps_state p1') = s_log (ps_state ps')).
  { clear - E'. unfold penv_step in E'.
    apply bind_Ok in E' as (cur & _ & H). apply bind_Ok in H as (us & _ & H). apply bind_Ok in H as (ov & _ & H).
    apply bind_Ok in H as (_ & _ & H). apply bind_Ok in H as ([[act ctrl] xs] & _ & H).
    apply bind_Ok in H as (sim & Hf & H). apply Ok_inj in H. now subst p1'. }
  apply IH; auto; [congruence|eapply markers_log; eauto|eapply sdc_stays; eauto].
Qed.
