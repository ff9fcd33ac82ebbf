(** Re-expressing an observation in another frame (C39). *)
From Coq Require Import Reals ZArith List Bool Lia Lra Nsatz.
From Verif.Lib Require Import Base JaxIndex Scalar XR.
From Verif.Model Require Import Operations State Geometry Pose Roadgraph Observation.
From Verif.Spec Require Import StateSpec GeomSpec DynSpec MetricSpec ObsSpec.
From Verif.Proofs Require Import Core P_Angles P_Pose P_Metrics P_Observation P_OwnFrame.
Import ListNotations.
Open Scope R_scope.

Lemma cs1' a : cos a * cos a + sin a * sin a = 1.
Proof. pose proof (sin2_cos2 a) as H. unfold Rsqr in H. lra. Qed.

Lemma components_inv a g u v : components a g u v ->
  u = cos a * fst g + sin a * snd g /\ v = cos a * snd g - sin a * fst g.
Proof.
  intros [E1 E2]. pose proof (cs1' a) as E. rewrite E1, E2.
  set (c := cos a) in *. set (s := sin a) in *. clearbody c s. clear E1 E2. split; nsatz.
Qed.

Definition rel_pose (c c2 : pt (S := XR)) : pose2d :=
  combine_two_object_pose_2d (pose_of_pt c) (pose_of_pt c2).

Lemma rel_mat c o c2 o2 : has_kin c o -> has_kin c2 o2 ->
  ps_mat (rel_pose c c2) = rigid (cos (kyaw o2 - kyaw o)) (- sin (kyaw o2 - kyaw o))
    (cos (kyaw o2) * (kx o - kx o2) + sin (kyaw o2) * (ky o - ky o2))
    (cos (kyaw o2) * (ky o - ky o2) - sin (kyaw o2) * (kx o - kx o2)).
Proof.
  intros (X & Y & A & _ & _) (X2 & Y2 & A2 & _ & _). unfold rel_pose, pose_of_pt.
  rewrite X, Y, A, X2, Y2, A2.
  exact (comb_mat_eq (kx o) (ky o) (kyaw o) (kx o2) (ky o2) (kyaw o2) (p_valid c) (p_valid c2)).
Qed.

Lemma rel_yaw c o c2 o2 a : has_kin c o -> has_kin c2 o2 ->
  fadd (Scalar := XR) (Fin a) (ps_dyaw (rel_pose c c2)) = Fin (a + kyaw o - kyaw o2).
Proof.
  intros (_ & _ & A & _) (_ & _ & A2 & _). unfold rel_pose, pose_of_pt. rewrite A, A2.
  unfold combine_two_object_pose_2d, from_transformation, from_center_and_yaw, pose_from_xy_yaw. cbn [ps_dyaw].
  xr. f_equal. ring.
Qed.

Lemma rel_valid c c2 : ps_valid (rel_pose c c2) = p_valid c2 && p_valid c.
Proof. reflexivity. Qed.

Lemma rel_point c o c2 o2 g l : has_kin c o -> has_kin c2 o2 -> seen_at o g l ->
  exists l2, transform_point (ps_mat (rel_pose c c2)) (finv l) = finv l2 /\ seen_at o2 g l2.
Proof.
  intros K K2 H. rewrite (rel_mat c o c2 o2 K K2). unfold seen_at in *.
  apply components_inv in H as [E1 E2]. cbn [fst snd] in E1, E2.
  unfold transform_point, rigid, finv. cbn [m3_00 m3_01 m3_02 m3_10 m3_11 m3_12 fst snd]. xr.
  eexists (_, _). cbn [fst snd]. split; [reflexivity|].
  rewrite E1, E2, cos_minus, sin_minus. clear E1 E2.
  pose proof (cs1' (kyaw o)) as E. pose proof (cs1' (kyaw o2)) as E'. unfold components. cbn [fst snd].
  set (a := cos (kyaw o)) in *. set (b := sin (kyaw o)) in *. set (a' := cos (kyaw o2)) in *.
  set (b' := sin (kyaw o2)) in *. clearbody a b a' b'. split; nsatz.
Qed.

Lemma rel_direction c o c2 o2 g l : has_kin c o -> has_kin c2 o2 -> components (kyaw o) g (fst l) (snd l) ->
  exists l2, transform_direction (ps_mat (rel_pose c c2)) (finv l) = finv l2 /\ components (kyaw o2) g (fst l2) (snd l2).
Proof.
  intros K K2 H. rewrite (rel_mat c o c2 o2 K K2).
  apply components_inv in H as [E1 E2].
  unfold transform_direction, rotate_point, rigid, finv.
  cbn [m3_00 m3_01 m3_02 m3_10 m3_11 m3_12 m2_00 m2_01 m2_10 m2_11 fst snd]. xr.
  eexists (_, _). cbn [fst snd]. split; [reflexivity|].
  rewrite E1, E2, cos_minus, sin_minus. clear E1 E2.
  pose proof (cs1' (kyaw o)) as E. pose proof (cs1' (kyaw o2)) as E'. unfold components. cbn [fst snd].
  set (a := cos (kyaw o)) in *. set (b := sin (kyaw o)) in *. set (a' := cos (kyaw o2)) in *.
  set (b' := sin (kyaw o2)) in *. clearbody a b a' b'. split; nsatz.
Qed.

Lemma rel_pt c o c2 o2 p g l : has_kin c o -> has_kin c2 o2 -> has_kin p l -> seen_as o g l ->
  exists l2, has_kin (transform_pt (rel_pose c c2) p) l2 /\ seen_as o2 g l2.
Proof.
  intros K K2 (X & Y & A & VX & VY) (S1 & S2 & S3).
  destruct (rel_point c o c2 o2 (kx g, ky g) (kx l, ky l) K K2 S1) as ([x y] & P1 & P2).
  destruct (rel_direction c o c2 o2 (kvx g, kvy g) (kvx l, kvy l) K K2 S2) as ([vx vy] & D1 & D2).
  exists (mkkin x y (kyaw l + kyaw o - kyaw o2) vx vy).
  unfold transform_pt. rewrite X, Y, A, VX, VY.
  change (Fin (kx l), Fin (ky l)) with (finv (kx l, ky l)). rewrite P1.
  change (Fin (kvx l), Fin (kvy l)) with (finv (kvx l, kvy l)). rewrite D1.
  rewrite (rel_yaw c o c2 o2) by auto. split; [repeat split|].
  split; [exact P2|]. split; [exact D2|]. cbn [kyaw]. lra.
Qed.

(** The view of one observer is the global view transformed to the centre's pose. *)
Lemma obs_view_eq n L T t (s : state (S := XR)) k topk fr rg o i v ci c :
  obs_wf n L T t s -> (k <= t + 1)%nat -> s_rg s = Some rg -> (topk <= length rg)%nat ->
  observation_from_state s k topk fr = Ok o -> nth_error o i = Some v ->
  centre fr s i ci -> at2 (s_sim s) ci t = Some c ->
  v_pose v = pose_of_pt c.
Proof.
  intros W Hk Hr Hkk Ho Hv Hc Ec.
  destruct (observation_spec n L T t s k topk fr rg W Hk Hr Hkk)
    as (o' & win & tlw & isdc & psdc & E & Lo & R1 & R2 & F1 & F2 & Ei & Li & Ep & N).
  rewrite Ho in E. apply Ok_inj in E. subst o'.
  assert (Hi : (i < n)%nat) by (rewrite <- Lo; eapply nth_error_Some_lt; eauto).
  destruct (N i Hi) as (p & rgf & E1 & E2 & E3). rewrite Hv in E3. apply Some_inj in E3.
  assert (V : v = transform_view (mkview win (is_ego_row n i) zero_pose (s_meta s) rgf tlw no_paths) (pose_of_pt c)).
  { destruct Hc as [[-> ->]|[[-> Hs]|(-> & Hs & ->)]]; simpl in E3.
    - rewrite E1 in Ec. apply Some_inj in Ec. congruence.
    - apply the_sdc_index in Hs. rewrite Ei in Hs. apply Ok_inj in Hs. subst isdc. rewrite Ep in Ec. apply Some_inj in Ec. congruence.
    - apply no_sdc_index in Hs; [|destruct W as ((_ & _ & Lm & Hn & _) & _); intros Em; rewrite Em in Lm; simpl in Lm; lia].
      rewrite Ei in Hs. apply Ok_inj in Hs. subst isdc. rewrite Ep in Ec. apply Some_inj in Ec. congruence. }
  rewrite V. reflexivity.
Qed.

Lemma reframe_view n L T t (s : state (S := XR)) k topk fr rg o i v ci c oc ps o2 v2 c2 oc2 :
  obs_wf n L T t s -> (k <= t + 1)%nat -> s_rg s = Some rg -> (topk <= length rg)%nat ->
  observation_from_state s k topk fr = Ok o -> nth_error o i = Some v ->
  centre fr s i ci -> at2 (s_sim s) ci t = Some c -> has_kin c oc ->
  has_kin c2 oc2 -> nth_error ps i = Some (pose_of_pt c2) ->
  transform_observation o ps = Ok o2 -> nth_error o2 i = Some v2 ->
  v_pose v2 = pose_of_pt c2 /\
  (forall j x p g, (x < k)%nat -> at2 (s_sim s) j (t + 1 - k + x) = Some p -> has_kin p g ->
     exists q l, at2 (v_traj v2) j x = Some q /\ has_kin q l /\ seen_as oc2 g l /\
       p_valid q = p_valid p && p_valid c && p_valid c2 /\ same_static p q) /\
  (forall j x p g, (x < k)%nat -> at2 (s_tls s) j (t + 1 - k + x) = Some p -> tl_at p g ->
     exists q l, at2 (v_tls v2) j x = Some q /\ tl_at q l /\ seen_at oc2 g l /\
       tl_state q = tl_state p /\ tl_lane q = tl_lane p /\
       tl_valid q = tl_valid p && p_valid c && p_valid c2).
Proof.
  intros W Hk Hr Hkk Ho Hv Hc Ec Kc K2 Hp H2 Hv2.
  pose proof (obs_view_eq n L T t s k topk fr rg o i v ci c W Hk Hr Hkk Ho Hv Hc Ec) as EP.
  destruct (obs_own_view n L T t s k topk fr rg o i v ci c oc W Hk Hr Hkk Ho Hv Hc Ec Kc) as (A & B & _).
  unfold transform_observation in H2. apply bind_Ok in H2 as (u & _ & H2). apply Ok_inj in H2. subst o2.
  rewrite nth_error_map2, Hv, Hp in Hv2. apply Some_inj in Hv2. subst v2.
  unfold transform_view. rewrite EP. cbn [v_pose v_traj v_tls]. fold (rel_pose c c2).
  split; [reflexivity|]. split.
  - intros j x p g Hx Ep Kp. destruct (A j x p g Hx Ep Kp) as (q & l & E1 & E2 & E3 & E4 & E5).
    destruct (rel_pt c oc c2 oc2 q g l Kc K2 E2 E3) as (l2 & F1 & F2).
    unfold transform_trajectory. rewrite at2_map, E1. eexists _, l2. split; [reflexivity|]. split; [exact F1|].
    split; [exact F2|]. split; [|destruct E5 as (? & ? & ? & ? & ?); unfold same_static; cbn [transform_pt p_z p_ts p_len p_wid p_hei]; auto].
    cbn [transform_pt p_valid]. rewrite rel_valid, E4. destruct (p_valid p), (p_valid c), (p_valid c2); reflexivity.
  - intros j x p g Hx Ep Kp. destruct (B j x p g Hx Ep Kp) as (q & l & E1 & (E2x & E2y) & E3 & E4 & E5 & E6 & E7).
    destruct (rel_point c oc c2 oc2 g l Kc K2 E3) as (l2 & F1 & F2).
    rewrite at2_map, E1. eexists _, l2. split; [reflexivity|].
    unfold tl_at, transform_tlight. rewrite E2x, E2y. change (Fin (fst l), Fin (snd l)) with (finv l). rewrite F1.
    cbn [tl_x tl_y tl_state tl_lane tl_valid fst snd finv].
    split; [split; reflexivity|]. split; [exact F2|]. split; [exact E4|]. split; [exact E5|].
    rewrite rel_valid, E7. destruct (tl_valid p), (p_valid c), (p_valid c2); reflexivity.
Qed.
