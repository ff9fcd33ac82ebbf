(** Proofs for C39: coordinates in observations. *)
From Coq Require Import Reals ZArith List Bool Lra Lia.
From Verif.Lib Require Import Base JaxIndex Scalar XR.
From Verif.Model Require Import Operations State Geometry Pose Roadgraph Observation.
From Verif.Spec Require Import StateSpec GeomSpec DynSpec MetricSpec ObsSpec.
From Verif.Proofs Require Import Core P_Metrics P_Pose P_Roadgraph P_Observation.
Import ListNotations.
Local Open Scope R_scope.

Lemma zero_pose_Fin : zero_pose (S := XR) = from_center_and_yaw (Fin 0, Fin 0) (Fin 0) true.
Proof. unfold zero_pose. rewrite f0_Fin. reflexivity. Qed.

Definition own_pose (c : pt (S := XR)) : pose2d := combine_two_object_pose_2d zero_pose (pose_of_pt c).

Lemma own_pose_mat c o : has_kin c o ->
  ps_mat (own_pose c)
  = rigid (cos (kyaw o)) (- sin (kyaw o)) (- (cos (kyaw o) * kx o + sin (kyaw o) * ky o))
      (sin (kyaw o) * kx o - cos (kyaw o) * ky o).
Proof.
  intros (X & Y & A & _ & _). unfold own_pose, pose_of_pt. rewrite X, Y, A, zero_pose_Fin.
  transitivity (mat3_mul (ps_mat (from_center_and_yaw (Fin (kx o), Fin (ky o)) (Fin (kyaw o)) (p_valid c)))
    (mat3_inv (ps_mat (from_center_and_yaw (Fin 0, Fin 0) (Fin 0) true)))); [reflexivity|].
  pose proof (comb_mat_eq 0 0 0 (kx o) (ky o) (kyaw o) true (p_valid c)) as E. cbv zeta in E. rewrite E.
  rewrite Rminus_0_r. f_equal; ring.
Qed.

Lemma own_point c o (g : R * R) : has_kin c o ->
  transform_point (ps_mat (own_pose c)) (finv g) = finv (to_local (kx o) (ky o) (kyaw o) g).
Proof.
  intros K. rewrite (own_pose_mat c o K). unfold transform_point, rigid, finv, to_local.
  cbn [m3_00 m3_01 m3_02 m3_10 m3_11 m3_12 fst snd]. xr. f_equal; f_equal; ring.
Qed.

Lemma own_direction c o (g : R * R) : has_kin c o ->
  transform_direction (ps_mat (own_pose c)) (finv g) = finv (to_local 0 0 (kyaw o) g).
Proof.
  intros K. rewrite (own_pose_mat c o K). unfold transform_direction, rotate_point, rigid, finv, to_local.
  cbn [m3_00 m3_01 m3_02 m3_10 m3_11 m3_12 m2_00 m2_01 m2_10 m2_11 fst snd]. xr. f_equal; f_equal; ring.
Qed.

Lemma own_yaw c o a : has_kin c o -> fadd (Scalar := XR) (Fin a) (ps_dyaw (own_pose c)) = Fin (a - kyaw o).
Proof.
  intros (_ & _ & A & _). unfold own_pose, pose_of_pt. rewrite A, zero_pose_Fin.
  unfold combine_two_object_pose_2d, from_transformation, from_center_and_yaw, pose_from_xy_yaw. cbn [ps_dyaw].
  xr. f_equal. ring.
Qed.

Lemma own_valid c : ps_valid (own_pose c) = p_valid c.
Proof. unfold own_pose, combine_two_object_pose_2d, from_transformation, pose_of_pt, zero_pose, from_center_and_yaw. simpl. apply andb_true_r. Qed.

Lemma to_local_components x y a g :
  components a (fst g - x, snd g - y) (fst (to_local x y a g)) (snd (to_local x y a g)).
Proof.
  pose proof (f_equal fst (to_global_local x y a g)) as E1.
  pose proof (f_equal snd (to_global_local x y a g)) as E2.
  unfold to_global in E1, E2. cbn [fst snd] in E1, E2. unfold components. cbn [fst snd]. split; lra.
Qed.

Lemma own_pt c o p g : has_kin c o -> has_kin p g ->
  exists l, has_kin (transform_pt (own_pose c) p) l /\ seen_as o g l /\
    p_valid (transform_pt (own_pose c) p) = p_valid p && p_valid c /\
    same_static p (transform_pt (own_pose c) p) /\
    (kx l, ky l) = to_local (kx o) (ky o) (kyaw o) (kx g, ky g).
Proof.
  intros K (X & Y & A & VX & VY).
  set (xy := to_local (kx o) (ky o) (kyaw o) (kx g, ky g)).
  set (v := to_local 0 0 (kyaw o) (kvx g, kvy g)).
  exists (mkkin (fst xy) (snd xy) (kyaw g - kyaw o) (fst v) (snd v)).
  unfold transform_pt. rewrite X, Y, A, VX, VY, own_valid.
  change (Fin (kx g), Fin (ky g)) with (finv (kx g, ky g)). rewrite (own_point c o) by auto.
  change (Fin (kvx g), Fin (kvy g)) with (finv (kvx g, kvy g)). rewrite (own_direction c o) by auto.
  rewrite (own_yaw c o) by auto. cbv zeta. fold xy v.
  split; [repeat split|]. split; [|split; [reflexivity|split; [repeat split|destruct xy; reflexivity]]].
  unfold seen_as. cbn [kx ky kyaw kvx kvy]. split; [|split; [|lra]].
  - apply (to_local_components (kx o) (ky o) (kyaw o) (kx g, ky g)).
  - pose proof (to_local_components 0 0 (kyaw o) (kvx g, kvy g)) as C. cbn [fst snd] in C.
    rewrite !Rminus_0_r in C. exact C.
Qed.

Lemma own_rgpt c o p g d : has_kin c o -> rg_kin p g d ->
  exists l e, rg_kin (transform_rgpt (own_pose c) p) l e /\ seen_at o g l /\ components (kyaw o) d (fst e) (snd e).
Proof.
  intros K (X & Y & DX & DY).
  exists (to_local (kx o) (ky o) (kyaw o) g), (to_local 0 0 (kyaw o) d).
  unfold transform_rgpt, rg_kin. rewrite X, Y, DX, DY.
  change (Fin (fst g), Fin (snd g)) with (finv g). rewrite (own_point c o) by auto.
  change (Fin (fst d), Fin (snd d)) with (finv d). rewrite (own_direction c o) by auto.
  cbv zeta. split; [repeat split|]. split; [apply to_local_components|].
  pose proof (to_local_components 0 0 (kyaw o) d) as C. rewrite !Rminus_0_r in C. destruct d. exact C.
Qed.

Lemma own_tl c o p g : has_kin c o -> tl_at p g ->
  exists l, tl_at (transform_tlight (own_pose c) p) l /\ seen_at o g l.
Proof.
  intros K (X & Y). exists (to_local (kx o) (ky o) (kyaw o) g).
  unfold transform_tlight, tl_at. rewrite X, Y.
  change (Fin (fst g), Fin (snd g)) with (finv g). rewrite (own_point c o) by auto.
  split; [split; reflexivity | apply to_local_components].
Qed.

Lemma the_sdc_index ms i : the_sdc ms i -> sdc_index ms = Ok i.
Proof.
  intros ((m & E & V) & U). unfold sdc_index. destruct ms as [|m0 ms]; [destruct i; discriminate|].
  assert (G : forall l k j, nth_error l j = Some m -> (forall j' m', nth_error l j' = Some m' -> m_is_sdc m' = true -> j' = j) ->
            first_sdc k l = Some (k + j)%nat).
  { clear E U. induction l as [|a l IH]; intros k [|j] E U; simpl in *; try discriminate.
    - injection E as ->. rewrite V. f_equal. lia.
    - destruct (m_is_sdc a) eqn:Va; [specialize (U 0%nat a eq_refl Va); discriminate|].
      rewrite (IH (S k) j); auto; [f_equal; lia|]. intros j' m' E' V'. specialize (U (S j') m' E' V'). lia. }
  rewrite (G _ 0%nat i E U). reflexivity.
Qed.

Lemma no_sdc_index ms : ms <> [] -> (forall m, In m ms -> m_is_sdc m = false) -> sdc_index ms = Ok 0%nat.
Proof.
  intros N H. unfold sdc_index. destruct ms as [|m0 ms]; [congruence|].
  assert (G : forall l k, (forall m, In m l -> m_is_sdc m = false) -> first_sdc k l = None).
  { induction l as [|a l IH]; intros k Hl; simpl; auto. rewrite (Hl a) by (now left). apply IH. intros m Hm. apply Hl. now right. }
  rewrite G; auto.
Qed.

(** Object and SDC frames of observation_from_state. *)
Lemma obs_own n L T t (s : state (S := XR)) k topk fr rg o i v ci c oc :
  obs_wf n L T t s -> (k <= t + 1)%nat -> s_rg s = Some rg -> (topk <= length rg)%nat ->
  observation_from_state s k topk fr = Ok o -> nth_error o i = Some v ->
  centre fr s i ci -> at2 (s_sim s) ci t = Some c -> has_kin c oc ->
  (forall j x p g, (x < k)%nat -> at2 (s_sim s) j (t + 1 - k + x) = Some p -> has_kin p g ->
     exists q l, at2 (v_traj v) j x = Some q /\ has_kin q l /\ seen_as oc g l /\
       p_valid q = p_valid p && p_valid c /\ same_static p q /\
       (kx l, ky l) = to_local (kx oc) (ky oc) (kyaw oc) (kx g, ky g)) /\
  (forall j x p g, (x < k)%nat -> at2 (s_tls s) j (t + 1 - k + x) = Some p -> tl_at p g ->
     exists q l, at2 (v_tls v) j x = Some q /\ tl_at q l /\ seen_at oc g l /\
       tl_state q = tl_state p /\ tl_lane q = tl_lane p /\ tl_z q = tl_z p /\
       tl_valid q = tl_valid p && p_valid c) /\
  exists pi rgf, at2 (s_sim s) i t = Some pi /\
    filter_topk_roadgraph_points rg (p_x pi, p_y pi) topk = Ok rgf /\ length (v_rg v) = length rgf /\
    forall a p g d, nth_error rgf a = Some p -> rg_kin p g d ->
      exists q l e, nth_error (v_rg v) a = Some q /\ rg_kin q l e /\ seen_at oc g l /\
        components (kyaw oc) d (fst e) (snd e) /\
        rg_type q = rg_type p /\ rg_id q = rg_id p /\ rg_valid q = rg_valid p && p_valid c.
Proof.
  intros W Hk Hr Hkk Ho Hv Hc Ec Kc.
  destruct (observation_spec n L T t s k topk fr rg W Hk Hr Hkk)
    as (o' & win & tlw & isdc & psdc & E & Lo & R1 & R2 & F1 & F2 & Ei & Li & Ep & N).
  rewrite Ho in E. apply Ok_inj in E. subst o'.
  assert (Hi : (i < n)%nat) by (rewrite <- Lo; eapply nth_error_Some_lt; eauto).
  destruct (N i Hi) as (p & rgf & E1 & E2 & E3). rewrite Hv in E3. apply Some_inj in E3.
  assert (V : v = transform_view (mkview win (is_ego_row n i) zero_pose (s_meta s) rgf tlw no_paths) (pose_of_pt c)).
  { destruct Hc as [[-> ->]|[[-> Hs]|(-> & Hs & ->)]]; simpl in E3.
    - rewrite E1 in Ec. apply Some_inj in Ec. congruence.
    - apply the_sdc_index in Hs. rewrite Ei in Hs. apply Ok_inj in Hs. subst isdc. rewrite Ep in Ec. apply Some_inj in Ec. congruence.
    - apply no_sdc_index in Hs; [|destruct W as ((_ & _ & Lm & Hn & _) & _); intros Em; rewrite Em in Lm; simpl in Lm; lia].
      rewrite Ei in Hs. apply Ok_inj in Hs. subst isdc. rewrite Ep in Ec. apply Some_inj in Ec. congruence. }
  rewrite V. unfold transform_view; cbn [v_pose v_traj v_tls v_rg]. fold (own_pose c).
  split; [|split].
  - intros j x q g Hx Eq Kq.
    assert (Hj : (j < n)%nat) by (destruct W as ((A1 & _) & _); eapply at2_Some_lt in Eq; [|eassumption]; tauto).
    unfold transform_trajectory. rewrite at2_map, F1 by auto. rewrite Eq. simpl option_map.
    destruct (own_pt c oc q g Kc Kq) as (l & L1 & L2 & L3 & L4 & L5). eexists _, l. split; [reflexivity|]. auto.
  - intros j x q g Hx Eq Kq.
    assert (Hj : (j < L)%nat) by (destruct W as (_ & A1 & _); eapply at2_Some_lt in Eq; [|eassumption]; tauto).
    rewrite at2_map, F2 by auto. rewrite Eq. simpl option_map.
    destruct (own_tl c oc q g Kc Kq) as (l & L1 & L2). eexists _, l. split; [reflexivity|]. split; auto. split; auto.
    cbn [transform_tlight tl_state tl_lane tl_z tl_valid]. rewrite own_valid. auto.
  - exists p, rgf. split; auto. split; auto. split; [apply map_length|].
    intros a q g d Eq Kq. rewrite nth_error_map, Eq. simpl option_map.
    destruct (own_rgpt c oc q g d Kc Kq) as (l & e & L1 & L2 & L3). eexists _, l, e. split; [reflexivity|].
    split; auto. split; auto. split; auto. cbn [transform_rgpt rg_type rg_id rg_valid]. rewrite own_valid. auto.
Qed.

Lemma obs_own_view n L T t (s : state (S := XR)) k topk fr rg o i v ci c oc :
  obs_wf n L T t s -> (k <= t + 1)%nat -> s_rg s = Some rg -> (topk <= length rg)%nat ->
  observation_from_state s k topk fr = Ok o -> nth_error o i = Some v ->
  centre fr s i ci -> at2 (s_sim s) ci t = Some c -> has_kin c oc ->
  (forall j x p g, (x < k)%nat -> at2 (s_sim s) j (t + 1 - k + x) = Some p -> has_kin p g ->
     exists q l, at2 (v_traj v) j x = Some q /\ has_kin q l /\ seen_as oc g l /\
       p_valid q = p_valid p && p_valid c /\ same_static p q) /\
  (forall j x p g, (x < k)%nat -> at2 (s_tls s) j (t + 1 - k + x) = Some p -> tl_at p g ->
     exists q l, at2 (v_tls v) j x = Some q /\ tl_at q l /\ seen_at oc g l /\
       tl_state q = tl_state p /\ tl_lane q = tl_lane p /\ tl_z q = tl_z p /\
       tl_valid q = tl_valid p && p_valid c) /\
  exists pi rgf, at2 (s_sim s) i t = Some pi /\
    filter_topk_roadgraph_points rg (p_x pi, p_y pi) topk = Ok rgf /\ length (v_rg v) = length rgf /\
    forall a p g d, nth_error rgf a = Some p -> rg_kin p g d ->
      exists q l e, nth_error (v_rg v) a = Some q /\ rg_kin q l e /\ seen_at oc g l /\
        components (kyaw oc) d (fst e) (snd e) /\
        rg_type q = rg_type p /\ rg_id q = rg_id p /\ rg_valid q = rg_valid p && p_valid c.
Proof.
  intros W Hk Hr Hkk Ho Hv Hc Ec Kc. destruct (obs_own n L T t s k topk fr rg o i v ci c oc) as (A & B); auto.
  split; [|exact B]. intros j x p g Hx Ep Kp. destruct (A j x p g Hx Ep Kp) as (q & l & E1 & E2 & E3 & E4 & E5 & _).
  exists q, l. auto.
Qed.

(** The own frame: an observer is at its own origin, facing its own x axis. *)
Lemma obs_self n L T t (s : state (S := XR)) k topk rg o i v c oc :
  obs_wf n L T t s -> (1 <= k <= t + 1)%nat -> s_rg s = Some rg -> (topk <= length rg)%nat ->
  observation_from_state s k topk FRAME_OBJECT = Ok o -> nth_error o i = Some v ->
  at2 (s_sim s) i t = Some c -> has_kin c oc ->
  exists q l, at2 (v_traj v) i (k - 1) = Some q /\ has_kin q l /\ kx l = 0 /\ ky l = 0 /\ kyaw l = 0 /\
    p_valid q = p_valid c.
Proof.
  intros W Hk Hr Hkk Ho Hv Ec Kc.
  destruct (obs_own n L T t s k topk FRAME_OBJECT rg o i v i c oc) as (A & _); auto; [lia | left; auto |].
  destruct (A i (k - 1)%nat c oc) as (q & l & E1 & E2 & E3 & E4 & _ & E5); auto; [lia | |].
  { replace (t + 1 - k + (k - 1))%nat with t by lia. auto. }
  exists q, l. split; auto. split; auto. rewrite to_local_self in E5. injection E5 as X Y.
  destruct E3 as (_ & _ & E3). split; auto. split; auto. split; [lra|]. rewrite E4. apply andb_diag.
Qed.

(** Distances between any two observed frames are those of the scene. *)
Lemma obs_distances n L T t (s : state (S := XR)) k topk fr rg o i v ci c oc j1 x1 p1 g1 j2 x2 p2 g2 :
  obs_wf n L T t s -> (k <= t + 1)%nat -> s_rg s = Some rg -> (topk <= length rg)%nat ->
  observation_from_state s k topk fr = Ok o -> nth_error o i = Some v ->
  centre fr s i ci -> at2 (s_sim s) ci t = Some c -> has_kin c oc ->
  (x1 < k)%nat -> at2 (s_sim s) j1 (t + 1 - k + x1) = Some p1 -> has_kin p1 g1 ->
  (x2 < k)%nat -> at2 (s_sim s) j2 (t + 1 - k + x2) = Some p2 -> has_kin p2 g2 ->
  exists q1 l1 q2 l2, at2 (v_traj v) j1 x1 = Some q1 /\ has_kin q1 l1 /\
    at2 (v_traj v) j2 x2 = Some q2 /\ has_kin q2 l2 /\
    dist (kx l1, ky l1) (kx l2, ky l2) = dist (kx g1, ky g1) (kx g2, ky g2).
Proof.
  intros W Hk Hr Hkk Ho Hv Hc Ec Kc X1 E1 K1 X2 E2 K2.
  destruct (obs_own n L T t s k topk fr rg o i v ci c oc) as (A & _); auto.
  destruct (A j1 x1 p1 g1 X1 E1 K1) as (q1 & l1 & A1 & A2 & _ & _ & _ & A3).
  destruct (A j2 x2 p2 g2 X2 E2 K2) as (q2 & l2 & B1 & B2 & _ & _ & _ & B3).
  exists q1, l1, q2, l2. split; auto. split; auto. split; auto. split; auto.
  rewrite A3, B3. apply to_local_dist.
Qed.

(** The SDC's own observation. *)
Lemma sdc_obs_own n L T t (s : state (S := XR)) k topk fr rg i c oc :
  obs_wf n L T t s -> (k <= t + 1)%nat -> s_rg s = Some rg -> (topk <= length rg)%nat ->
  fr = FRAME_OBJECT \/ fr = FRAME_SDC ->
  the_sdc (s_meta s) i -> at2 (s_sim s) i t = Some c -> has_kin c oc ->
  exists v, sdc_observation_from_state s k topk fr = Ok [v] /\
  (forall j, nth_error (v_is_ego v) j = Some true <-> j = i) /\ length (v_is_ego v) = n /\
  (forall j x p g, (x < k)%nat -> at2 (s_sim s) j (t + 1 - k + x) = Some p -> has_kin p g ->
     exists q l, at2 (v_traj v) j x = Some q /\ has_kin q l /\ seen_as oc g l /\
       p_valid q = p_valid p && p_valid c /\ same_static p q) /\
  (forall j x p g, (x < k)%nat -> at2 (s_tls s) j (t + 1 - k + x) = Some p -> tl_at p g ->
     exists q l, at2 (v_tls v) j x = Some q /\ tl_at q l /\ seen_at oc g l /\
       tl_state q = tl_state p /\ tl_lane q = tl_lane p /\ tl_z q = tl_z p /\
       tl_valid q = tl_valid p && p_valid c) /\
  (exists rgf, filter_topk_roadgraph_points rg (p_x c, p_y c) topk = Ok rgf /\ length (v_rg v) = length rgf /\
    forall a p g d, nth_error rgf a = Some p -> rg_kin p g d ->
      exists q l e, nth_error (v_rg v) a = Some q /\ rg_kin q l e /\ seen_at oc g l /\
        components (kyaw oc) d (fst e) (snd e) /\
        rg_type q = rg_type p /\ rg_id q = rg_id p /\ rg_valid q = rg_valid p && p_valid c) /\
  (forall ps, s_paths s = Some ps -> v_paths v = ps).
Proof.
  intros W Hk Hr Hkk Hf Hs Ec Kc.
  destruct (sdc_observation_spec n L T t s k topk fr rg W Hk Hr Hkk)
    as (win & tlw & isdc & psdc & rgf & R1 & R2 & F1 & F2 & Ei & Li & Ep & E2 & E).
  pose proof (the_sdc_index _ _ Hs) as Ei'. rewrite Ei in Ei'. apply Ok_inj in Ei'. subst isdc.
  rewrite Ep in Ec. apply Some_inj in Ec. subst psdc.
  set (v0 := mkview _ _ _ _ _ _ _) in E.
  exists (transform_view v0 (pose_of_pt c)).
  split; [rewrite E; destruct Hf as [-> | ->]; reflexivity|].
  unfold v0, transform_view; cbn [v_pose v_traj v_tls v_rg v_is_ego v_paths]. fold (own_pose c).
  split; [|split; [|split; [|split; [|split]]]].
  - intros j. rewrite nth_error_map. destruct Hs as ((m & Em & Vm) & U). split.
    + destruct (nth_error (s_meta s) j) as [m'|] eqn:E'; [|discriminate]. simpl. intros H. apply Some_inj in H. eauto.
    + intros ->. rewrite Em. simpl. congruence.
  - rewrite map_length. apply W.
  - intros j x q g Hx Eq Kq.
    assert (Hj : (j < n)%nat) by (destruct W as ((A1 & _) & _); eapply at2_Some_lt in Eq; [|eassumption]; tauto).
    unfold transform_trajectory. rewrite at2_map, F1 by auto. rewrite Eq. simpl option_map.
    destruct (own_pt c oc q g Kc Kq) as (l & L1 & L2 & L3 & L4 & L5). eexists _, l. split; [reflexivity|]. auto.
  - intros j x q g Hx Eq Kq.
    assert (Hj : (j < L)%nat) by (destruct W as (_ & A1 & _); eapply at2_Some_lt in Eq; [|eassumption]; tauto).
    rewrite at2_map, F2 by auto. rewrite Eq. simpl option_map.
    destruct (own_tl c oc q g Kc Kq) as (l & L1 & L2). eexists _, l. split; [reflexivity|]. split; auto. split; auto.
    cbn [transform_tlight tl_state tl_lane tl_z tl_valid]. rewrite own_valid. auto.
  - exists rgf. split; auto. split; [apply map_length|].
    intros a q g d Eq Kq. rewrite nth_error_map, Eq. simpl option_map.
    destruct (own_rgpt c oc q g d Kc Kq) as (l & e & L1 & L2 & L3). eexists _, l, e. split; [reflexivity|].
    split; auto. split; auto. split; auto. cbn [transform_rgpt rg_type rg_id rg_valid]. rewrite own_valid. auto.
  - intros ps ->. reflexivity.
Qed.

Section Generic.
  Context {S : Scalar}.

  Lemma obs_global n L T t (s : state) k topk rg o i v :
    obs_wf n L T t s -> (k <= t + 1)%nat -> s_rg s = Some rg -> (topk <= length rg)%nat ->
    observation_from_state s k topk FRAME_GLOBAL = Ok o -> nth_error o i = Some v ->
    (forall j x, (j < n)%nat -> (x < k)%nat -> at2 (v_traj v) j x = at2 (s_sim s) j (t + 1 - k + x)) /\
    (forall j x, (j < L)%nat -> (x < k)%nat -> at2 (v_tls v) j x = at2 (s_tls s) j (t + 1 - k + x)) /\
    v_meta v = s_meta s /\
    exists p, at2 (s_sim s) i t = Some p /\
      filter_topk_roadgraph_points rg (p_x p, p_y p) topk = Ok (v_rg v).
  Proof.
    intros W Hk Hr Hkk Ho Hv.
    destruct (observation_spec n L T t s k topk FRAME_GLOBAL rg W Hk Hr Hkk)
      as (o' & win & tlw & isdc & psdc & E & Lo & R1 & R2 & F1 & F2 & Ei & Li & Ep & N).
    rewrite Ho in E. injection E as <-.
    assert (Hi : (i < n)%nat) by (rewrite <- Lo; eapply nth_error_Some_lt; eauto).
    destruct (N i Hi) as (p & rgf & E1 & E2 & E3). rewrite Hv in E3. injection E3 as ->. simpl.
    split; auto. split; auto. split; auto. eauto.
  Qed.

  (** In every coordinate frame the timestamps, heights and sizes are those of
      the last [k] simulated steps in order. *)
  Lemma obs_window n L T t (s : state) k topk fr rg o i v j x :
    obs_wf n L T t s -> (k <= t + 1)%nat -> s_rg s = Some rg -> (topk <= length rg)%nat ->
    observation_from_state s k topk fr = Ok o -> nth_error o i = Some v ->
    (j < n)%nat -> (x < k)%nat ->
    exists p q, at2 (s_sim s) j (t + 1 - k + x) = Some p /\ at2 (v_traj v) j x = Some q /\
      p_ts q = p_ts p /\ p_z q = p_z p /\ p_len q = p_len p /\ p_wid q = p_wid p /\ p_hei q = p_hei p /\
      (p_valid q = true -> p_valid p = true).
  Proof.
    intros W Hk Hr Hkk Ho Hv Hj Hx.
    destruct (observation_spec n L T t s k topk fr rg W Hk Hr Hkk)
      as (o' & win & tlw & isdc & psdc & E & Lo & R1 & R2 & F1 & F2 & Ei & Li & Ep & N).
    rewrite Ho in E. injection E as <-.
    assert (Hi : (i < n)%nat) by (rewrite <- Lo; eapply nth_error_Some_lt; eauto).
    destruct (N i Hi) as (p0 & rgf & E1 & E2 & E3). rewrite Hv in E3. injection E3 as ->.
    destruct W as ((A1 & _) & _ & _ & Ht).
    destruct (rect_at2 n T (s_sim s) j (t + 1 - k + x) A1) as [p Hp]; [auto|lia|]. exists p.
    destruct fr; simpl; unfold transform_trajectory; rewrite ?at2_map, F1, Hp by auto; simpl;
      eexists; split; auto; split; auto; repeat split; auto; simpl; intros V; apply andb_prop in V; tauto.
  Qed.

  Lemma is_ego_spec n L T t (s : state) k topk fr rg o i v j :
    obs_wf n L T t s -> (k <= t + 1)%nat -> s_rg s = Some rg -> (topk <= length rg)%nat ->
    observation_from_state s k topk fr = Ok o -> nth_error o i = Some v -> (j < n)%nat ->
    exists b, nth_error (v_is_ego v) j = Some b /\ (b = true <-> i = 1%nat /\ j = 1%nat).
  Proof.
    intros W Hk Hr Hkk Ho Hv Hj.
    destruct (observation_spec n L T t s k topk fr rg W Hk Hr Hkk)
      as (o' & win & tlw & isdc & psdc & E & Lo & R1 & R2 & F1 & F2 & Ei & Li & Ep & N).
    rewrite Ho in E. injection E as <-.
    assert (Hi : (i < n)%nat) by (rewrite <- Lo; eapply nth_error_Some_lt; eauto).
    destruct (N i Hi) as (p0 & rgf & E1 & E2 & E3). rewrite Hv in E3. injection E3 as ->.
    assert (Ev : v_is_ego (frame_view fr psdc p0 (mkview win (is_ego_row n i) zero_pose (s_meta s) rgf tlw no_paths)) = is_ego_row n i)
      by (destruct fr; reflexivity).
    rewrite Ev. unfold is_ego_row. rewrite nth_error_map, nth_error_seq0 by auto. simpl.
    eexists. split; [reflexivity|]. rewrite Nat.eqb_eq. destruct (Nat.eqb_spec i j); lia.
  Qed.
End Generic.
