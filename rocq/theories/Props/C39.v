(** C39: observations in the observer's own frame. *)
From Coq Require Import Reals ZArith List Bool Lia Lra.
From Verif.Lib Require Import Base JaxIndex Scalar XR.
From Verif.Model Require Import Operations State Geometry Pose Roadgraph Observation.
From Verif.Spec Require Import StateSpec GeomSpec DynSpec MetricSpec ObsSpec.
From Verif.Proofs Require Import P_Metrics P_Observation P_OwnFrame P_ObsEpisode P_Reframe.
From Verif.Props Require Import ExM.
Import ListNotations.
Open Scope R_scope.

(** In the object frame observer i sees everything from its own current pose; in the
    SDC frame everybody sees everything from the SDC's current pose (object 0's when
    there is no SDC).  Positions and velocities are the components of the global ones
    along and across the centre's heading, headings are differences, sizes and times
    are unchanged, and entries are valid when they and the centre are.  Lights and the
    kept map points likewise; each observer's map is filtered around itself. *)
Theorem C39_own_frame n L T t (s : state (S := XR)) k topk fr rg o i v ci c oc :
  obs_wf n L T t s -> (k <= t + 1)%nat -> s_rg s = Some rg -> (topk <= length rg)%nat ->
  observation_from_state s k topk fr = Ok o -> nth_error o i = Some v ->
  centre fr s i ci -> at2 (s_sim s) ci t = Some c -> has_kin c oc ->
  (forall j x p g, (x < k)%nat -> at2 (s_sim s) j (t + 1 - k + x) = Some p -> has_kin p g ->
     exists q l, at2 (v_traj v) j x = Some q /\ has_kin q l /\ seen_as oc g l /\
       p_valid q = p_valid p && p_valid c /\ same_static p q) /\
  (forall j x p g, (x < k)%nat -> at2 (s_tls s) j (t + 1 - k + x) = Some p -> tl_at p g ->
     exists q l, at2 (v_tls v) j x = Some q /\ tl_at q l /\ seen_at oc g l /\
       tl_state q = tl_state p /\ tl_lane q = tl_lane p /\ tl_z q = tl_z p /\
       tl_valid q = tl_valid p && p_valid c) /\
  exists pi rgf, at2 (s_sim s) i t = Some pi /\
    filter_topk_roadgraph_points rg (p_x pi, p_y pi) topk = Ok rgf /\ length (v_rg v) = length rgf /\
    forall a p g d, nth_error rgf a = Some p -> rg_kin p g d ->
      exists q l e, nth_error (v_rg v) a = Some q /\ rg_kin q l e /\ seen_at oc g l /\
        components (kyaw oc) d (fst e) (snd e) /\
        rg_type q = rg_type p /\ rg_id q = rg_id p /\ rg_valid q = rg_valid p && p_valid c.
Proof. exact (obs_own_view n L T t s k topk fr rg o i v ci c oc). Qed.

(** Each observer is at its own origin with heading 0 at the current step. *)
Theorem C39_self n L T t (s : state (S := XR)) k topk rg o i v c oc :
  obs_wf n L T t s -> (1 <= k <= t + 1)%nat -> s_rg s = Some rg -> (topk <= length rg)%nat ->
  observation_from_state s k topk FRAME_OBJECT = Ok o -> nth_error o i = Some v ->
  at2 (s_sim s) i t = Some c -> has_kin c oc ->
  exists q l, at2 (v_traj v) i (k - 1) = Some q /\ has_kin q l /\ kx l = 0 /\ ky l = 0 /\ kyaw l = 0 /\
    p_valid q = p_valid c.
Proof. exact (obs_self n L T t s k topk rg o i v c oc). Qed.

(** Distances between any two observed entries are those of the global scene. *)
Theorem C39_distances n L T t (s : state (S := XR)) k topk fr rg o i v ci c oc j1 x1 p1 g1 j2 x2 p2 g2 :
  obs_wf n L T t s -> (k <= t + 1)%nat -> s_rg s = Some rg -> (topk <= length rg)%nat ->
  observation_from_state s k topk fr = Ok o -> nth_error o i = Some v ->
  centre fr s i ci -> at2 (s_sim s) ci t = Some c -> has_kin c oc ->
  (x1 < k)%nat -> at2 (s_sim s) j1 (t + 1 - k + x1) = Some p1 -> has_kin p1 g1 ->
  (x2 < k)%nat -> at2 (s_sim s) j2 (t + 1 - k + x2) = Some p2 -> has_kin p2 g2 ->
  exists q1 l1 q2 l2, at2 (v_traj v) j1 x1 = Some q1 /\ has_kin q1 l1 /\
    at2 (v_traj v) j2 x2 = Some q2 /\ has_kin q2 l2 /\
    dist (kx l1, ky l1) (kx l2, ky l2) = dist (kx g1, ky g1) (kx g2, ky g2).
Proof. exact (obs_distances n L T t s k topk fr rg o i v ci c oc j1 x1 p1 g1 j2 x2 p2 g2). Qed.

(** Every view records the frame it is expressed in: position, heading and validity
    of the centre, in global coordinates. *)
Theorem C39_frame_recorded n L T t (s : state (S := XR)) k topk fr rg o i v ci c :
  obs_wf n L T t s -> (k <= t + 1)%nat -> s_rg s = Some rg -> (topk <= length rg)%nat ->
  observation_from_state s k topk fr = Ok o -> nth_error o i = Some v ->
  centre fr s i ci -> at2 (s_sim s) ci t = Some c ->
  ps_xy (v_pose v) = (p_x c, p_y c) /\ ps_yaw (v_pose v) = p_yaw c /\ ps_valid (v_pose v) = p_valid c.
Proof.
  intros W Hk Hr Hkk Ho Hv Hc Ec. rewrite (obs_view_eq n L T t s k topk fr rg o i v ci c W Hk Hr Hkk Ho Hv Hc Ec).
  auto.
Qed.

(** An observation can be re-expressed in a third frame without the state: moving an
    observation to the poses [ps] shows what an observer at those poses sees, whatever
    frame it was in before; entries are valid when they and both centres are. *)
Theorem C39_reframe n L T t (s : state (S := XR)) k topk fr rg o i v ci c oc ps o2 v2 c2 oc2 :
  obs_wf n L T t s -> (k <= t + 1)%nat -> s_rg s = Some rg -> (topk <= length rg)%nat ->
  observation_from_state s k topk fr = Ok o -> nth_error o i = Some v ->
  centre fr s i ci -> at2 (s_sim s) ci t = Some c -> has_kin c oc ->
  has_kin c2 oc2 ->
  nth_error ps i = Some (from_center_and_yaw (p_x c2, p_y c2) (p_yaw c2) (p_valid c2)) ->
  transform_observation o ps = Ok o2 -> nth_error o2 i = Some v2 ->
  (forall j x p g, (x < k)%nat -> at2 (s_sim s) j (t + 1 - k + x) = Some p -> has_kin p g ->
     exists q l, at2 (v_traj v2) j x = Some q /\ has_kin q l /\ seen_as oc2 g l /\
       p_valid q = p_valid p && p_valid c && p_valid c2 /\ same_static p q) /\
  (forall j x p g, (x < k)%nat -> at2 (s_tls s) j (t + 1 - k + x) = Some p -> tl_at p g ->
     exists q l, at2 (v_tls v2) j x = Some q /\ tl_at q l /\ seen_at oc2 g l /\
       tl_state q = tl_state p /\ tl_lane q = tl_lane p /\
       tl_valid q = tl_valid p && p_valid c && p_valid c2).
Proof.
  intros W Hk Hr Hkk Ho Hv Hc Ec Kc K2 Hp H2 Hv2.
  destruct (reframe_view n L T t s k topk fr rg o i v ci c oc ps o2 v2 c2 oc2) as (_ & A); auto.
Qed.

(** The single SDC observation: the SDC's frame, the SDC marked as ego and nobody
    else, and the routes as given. *)
Theorem C39_sdc_observation n L T t (s : state (S := XR)) k topk fr rg i c oc :
  obs_wf n L T t s -> (k <= t + 1)%nat -> s_rg s = Some rg -> (topk <= length rg)%nat ->
  fr = FRAME_OBJECT \/ fr = FRAME_SDC ->
  the_sdc (s_meta s) i -> at2 (s_sim s) i t = Some c -> has_kin c oc ->
  exists v, sdc_observation_from_state s k topk fr = Ok [v] /\
  (forall j, nth_error (v_is_ego v) j = Some true <-> j = i) /\ length (v_is_ego v) = n /\
  (forall j x p g, (x < k)%nat -> at2 (s_sim s) j (t + 1 - k + x) = Some p -> has_kin p g ->
     exists q l, at2 (v_traj v) j x = Some q /\ has_kin q l /\ seen_as oc g l /\
       p_valid q = p_valid p && p_valid c /\ same_static p q) /\
  (forall j x p g, (x < k)%nat -> at2 (s_tls s) j (t + 1 - k + x) = Some p -> tl_at p g ->
     exists q l, at2 (v_tls v) j x = Some q /\ tl_at q l /\ seen_at oc g l /\
       tl_state q = tl_state p /\ tl_lane q = tl_lane p /\ tl_z q = tl_z p /\
       tl_valid q = tl_valid p && p_valid c) /\
  (exists rgf, filter_topk_roadgraph_points rg (p_x c, p_y c) topk = Ok rgf /\ length (v_rg v) = length rgf /\
    forall a p g d, nth_error rgf a = Some p -> rg_kin p g d ->
      exists q l e, nth_error (v_rg v) a = Some q /\ rg_kin q l e /\ seen_at oc g l /\
        components (kyaw oc) d (fst e) (snd e) /\
        rg_type q = rg_type p /\ rg_id q = rg_id p /\ rg_valid q = rg_valid p && p_valid c) /\
  (forall ps, s_paths s = Some ps -> v_paths v = ps).
Proof. exact (sdc_obs_own n L T t s k topk fr rg i c oc). Qed.

(** In the global frame nothing is transformed. *)
Theorem C39_global {S : Scalar} n L T t s k topk rg o i v :
  obs_wf n L T t s -> (k <= t + 1)%nat -> s_rg s = Some rg -> (topk <= length rg)%nat ->
  observation_from_state s k topk FRAME_GLOBAL = Ok o -> nth_error o i = Some v ->
  (forall j x, (j < n)%nat -> (x < k)%nat -> at2 (v_traj v) j x = at2 (s_sim s) j (t + 1 - k + x)) /\
  (forall j x, (j < L)%nat -> (x < k)%nat -> at2 (v_tls v) j x = at2 (s_tls s) j (t + 1 - k + x)) /\
  v_meta v = s_meta s /\
  exists p, at2 (s_sim s) i t = Some p /\
    filter_topk_roadgraph_points rg (p_x p, p_y p) topk = Ok (v_rg v).
Proof. exact (obs_global n L T t s k topk rg o i v). Qed.

(** The is_ego flags of observation_from_state, exactly: only entry (1, 1) is set. *)
Theorem C39_is_ego {S : Scalar} n L T t s k topk fr rg o i v j :
  obs_wf n L T t s -> (k <= t + 1)%nat -> s_rg s = Some rg -> (topk <= length rg)%nat ->
  observation_from_state s k topk fr = Ok o -> nth_error o i = Some v -> (j < n)%nat ->
  exists b, nth_error (v_is_ego v) j = Some b /\ (b = true <-> (i = 1 /\ j = 1)%nat).
Proof. exact (is_ego_spec n L T t s k topk fr rg o i v j). Qed.

(** Two cars at one step, one map point, a route point 5 m behind the origin. *)
Definition two_meta : list meta := [bmeta true; bmeta false].
Definition two (x0 yaw0 x1 y1 yaw1 : R) : state (S := XR) :=
  mkstate [[bpt x0 0 yaw0 true]; [bpt x1 y1 yaw1 true]] [[bpt x0 0 yaw0 true]; [bpt x1 y1 yaw1 true]] []
    two_meta 0 (Some route)
    (Some [mkrg (S := XR) (Fin 1) (Fin 2) (Fin 0) (Fin 1) (Fin 0) (Fin 0) 15 4 true]).
Lemma two_wf x0 yaw0 x1 y1 yaw1 : obs_wf 2 0 1 0 (two x0 yaw0 x1 y1 yaw1).
Proof.
  split; [|split; [split; [reflexivity|intros r []]|split; [reflexivity|lia]]].
  split; [split; [reflexivity | intros r [<-|[<-|[]]]; reflexivity]|].
  split; [split; [reflexivity | intros r [<-|[<-|[]]]; reflexivity]|].
  repeat split; auto with arith.
Qed.
Lemma two_sdc x0 yaw0 x1 y1 yaw1 : the_sdc (s_meta (two x0 yaw0 x1 y1 yaw1)) 0.
Proof.
  split; [eexists; split; reflexivity|]. intros [|[|j]] m H V; [reflexivity| |destruct j; discriminate].
  injection H as <-. discriminate.
Qed.
Lemma bpt_kin x y yaw v : has_kin (bpt x y yaw v) (mkkin x y yaw 0 0).
Proof. repeat split. Qed.

(** Non-vacuity: observer 1 at (12, 1) facing 3 rad, and both objects seen from it. *)
Example C39_example :
  exists o v, observation_from_state (two 10 (-3) 12 1 3) 1 1 FRAME_OBJECT = Ok o /\ nth_error o 1 = Some v /\
    (exists q l, at2 (v_traj v) 1 0 = Some q /\ has_kin q l /\ kx l = 0 /\ ky l = 0 /\ kyaw l = 0 /\ p_valid q = true) /\
    (exists q l, at2 (v_traj v) 0 0 = Some q /\ has_kin q l /\ seen_as (mkkin 12 1 3 0 0) (mkkin 10 0 (-3) 0 0) l).
Proof.
  destruct (total_any 2 0 1 0 (two 10 (-3) 12 1 3) 1 1 FRAME_OBJECT _ (two_wf _ _ _ _ _) ltac:(lia) eq_refl ltac:(simpl; lia))
    as [(o & Ho & Lo) _].
  destruct (nth_error_lt_Some o 1) as [v Hv]; [rewrite Lo; lia|].
  exists o, v. split; [exact Ho|]. split; [exact Hv|]. split.
  - exact (obs_self 2 0 1 0 _ 1 1 _ o 1 v _ _ (two_wf _ _ _ _ _) ltac:(lia) eq_refl ltac:(simpl; lia) Ho Hv eq_refl (bpt_kin 12 1 3 true)).
  - destruct (obs_own_view 2 0 1 0 _ 1 1 FRAME_OBJECT _ o 1 v 1 _ _ (two_wf _ _ _ _ _) ltac:(lia) eq_refl ltac:(simpl; lia) Ho Hv
      (or_introl (conj eq_refl eq_refl)) eq_refl (bpt_kin 12 1 3 true)) as (A & _).
    destruct (A 0%nat 0%nat _ _ ltac:(lia) eq_refl (bpt_kin 10 0 (-3) true)) as (q & l & E1 & E2 & E3 & _).
    exists q, l. auto.
Qed.

(** Non-vacuity of re-framing: the view of observer 1 above, moved to object 0's pose. *)
Example C39_reframe_example :
  exists o o2 v2, observation_from_state (two 10 (-3) 12 1 3) 1 1 FRAME_OBJECT = Ok o /\
    transform_observation o (repeat (from_center_and_yaw (Fin 10, Fin 0) (Fin (-3)) true) 2) = Ok o2 /\
    nth_error o2 1 = Some v2 /\
    exists q l, at2 (v_traj v2) 1 0 = Some q /\ has_kin q l /\ seen_as (mkkin 10 0 (-3) 0 0) (mkkin 12 1 3 0 0) l.
Proof.
  destruct (total_any 2 0 1 0 (two 10 (-3) 12 1 3) 1 1 FRAME_OBJECT _ (two_wf _ _ _ _ _) ltac:(lia) eq_refl ltac:(simpl; lia))
    as [(o & Ho & Lo) _].
  destruct (nth_error_lt_Some o 1) as [v Hv]; [rewrite Lo; lia|].
  assert (exists o2, transform_observation o (repeat (from_center_and_yaw (Fin 10, Fin 0) (Fin (-3)) true) 2) = Ok o2) as [o2 H2].
  { unfold transform_observation. rewrite Lo. simpl. eauto. }
  assert (exists v2, nth_error o2 1 = Some v2) as [v2 Hv2].
  { unfold transform_observation in H2. rewrite Lo in H2. simpl in H2. apply Ok_inj in H2. subst o2.
    destruct o as [|a [|b o]]; try discriminate. simpl. eauto. }
  exists o, o2, v2. do 3 (split; [assumption|]).
  destruct (C39_reframe 2 0 1 0 _ 1 1 FRAME_OBJECT _ o 1 v 1 _ _ (repeat (from_center_and_yaw (S := XR) (Fin 10, Fin 0) (Fin (-3)) true) 2) o2 v2 (bpt 10 0 (-3) true) _ (two_wf _ _ _ _ _) ltac:(lia) eq_refl ltac:(simpl; lia) Ho Hv
      (or_introl (conj eq_refl eq_refl)) eq_refl (bpt_kin 12 1 3 true) (bpt_kin 10 0 (-3) true) eq_refl H2 Hv2) as (A & _).
  destruct (A 1%nat 0%nat _ _ ltac:(lia) eq_refl (bpt_kin 12 1 3 true)) as (q & l & E1 & E2 & E3 & _).
  exists q, l. auto.
Qed.

(** is_ego does not mark the observer: observer 0 sees no ego at all. *)
Theorem C39_is_ego_refuted :
  exists (s : state (S := XR)) o v, obs_wf 2 0 1 0 s /\
    observation_from_state s 1 1 FRAME_OBJECT = Ok o /\ nth_error o 0 = Some v /\
    forall j, nth_error (v_is_ego v) j <> Some true.
Proof.
  exists (two 10 0 12 1 0).
  destruct (total_any 2 0 1 0 (two 10 0 12 1 0) 1 1 FRAME_OBJECT _ (two_wf _ _ _ _ _) ltac:(lia) eq_refl ltac:(simpl; lia))
    as [(o & Ho & Lo) _].
  destruct (nth_error_lt_Some o 0) as [v Hv]; [rewrite Lo; lia|].
  exists o, v. split; [apply two_wf|]. split; [exact Ho|]. split; [exact Hv|]. intros j Hj.
  destruct (observation_spec 2 0 1 0 _ 1 1 FRAME_OBJECT _ (two_wf 10 0 12 1 0) ltac:(lia) eq_refl ltac:(simpl; lia))
    as (o' & win & tlw & isdc & psdc & Ho' & _ & _ & _ & _ & _ & _ & _ & _ & V).
  rewrite Ho in Ho'. apply Ok_inj in Ho'. subst o'. destruct (V 0%nat) as (p & rgf & _ & _ & E); [lia|].
  rewrite Hv in E. apply Some_inj in E. subst v. destruct j as [|[|[|j]]]; discriminate.
Qed.

(** Observed headings are differences and are not brought back to [-pi, pi]: two
    headings in that range are seen 6 rad apart. *)
Theorem C39_heading_range_refuted :
  exists (s : state (S := XR)) o v q l, obs_wf 2 0 1 0 s /\
    (forall j p g, at2 (s_sim s) j 0 = Some p -> has_kin p g -> - PI <= kyaw g <= PI) /\
    observation_from_state s 1 1 FRAME_OBJECT = Ok o /\ nth_error o 0 = Some v /\
    at2 (v_traj v) 1 0 = Some q /\ has_kin q l /\ PI < kyaw l.
Proof.
  exists (two 10 (-3) 12 1 3).
  destruct (total_any 2 0 1 0 (two 10 (-3) 12 1 3) 1 1 FRAME_OBJECT _ (two_wf _ _ _ _ _) ltac:(lia) eq_refl ltac:(simpl; lia))
    as [(o & Ho & Lo) _].
  destruct (nth_error_lt_Some o 0) as [v Hv]; [rewrite Lo; lia|].
  destruct (obs_own_view 2 0 1 0 _ 1 1 FRAME_OBJECT _ o 0 v 0 _ _ (two_wf _ _ _ _ _) ltac:(lia) eq_refl ltac:(simpl; lia) Ho Hv
      (or_introl (conj eq_refl eq_refl)) eq_refl (bpt_kin 10 0 (-3) true)) as (A & _).
  destruct (A 1%nat 0%nat _ _ ltac:(lia) eq_refl (bpt_kin 12 1 3 true)) as (q & l & E1 & E2 & (_ & _ & E3) & _).
  exists o, v, q, l. split; [apply two_wf|]. split.
  - pose proof PI2_3_2 as P3. intros [|[|j]] p g H (_ & _ & Y & _); [| |destruct j; discriminate];
      injection H as <-; injection Y as <-; lra.
  - split; [exact Ho|]. split; [exact Hv|]. split; [exact E1|]. split; [exact E2|]. simpl in E3. pose proof PI_4. lra.
Qed.

(** The routes of an SDC observation stay in global coordinates in every frame: the
    SDC at (10, 0) facing the x axis sees the route point at (-5, 0), which is 15 m
    behind it, at (-5, 0). *)
Theorem C39_paths_refuted :
  exists (s : state (S := XR)) v oc c pa g,
    obs_wf 2 0 1 0 s /\ the_sdc (s_meta s) 0 /\ at2 (s_sim s) 0 0 = Some c /\ has_kin c oc /\
    sdc_observation_from_state s 1 1 FRAME_SDC = Ok [v] /\
    (exists ps, s_paths s = Some (pa :: ps) /\ option_map (fun p => (pp_x p, pp_y p)) (nth_error (path_pts pa) 0) = Some (finv g)) /\
    exists pa' ps' l, v_paths v = pa' :: ps' /\
      option_map (fun p => (pp_x p, pp_y p)) (nth_error (path_pts pa') 0) = Some (finv l) /\ ~ seen_at oc g l.
Proof.
  destruct (sdc_obs_own 2 0 1 0 (two 10 0 12 1 0) 1 1 FRAME_SDC _ 0 _ _ (two_wf _ _ _ _ _) ltac:(lia) eq_refl ltac:(simpl; lia)
    (or_intror eq_refl) (two_sdc _ _ _ _ _) eq_refl (bpt_kin 10 0 0 true)) as (v & Ho & _ & _ & _ & _ & _ & P).
  exists (two 10 0 12 1 0), v, (mkkin 10 0 0 0 0), (bpt 10 0 0 true), (mkpath [ppt (-5) 0 0; ppt 0 0 5; ppt 10 0 15] true), (-5, 0).
  split; [apply two_wf|]. split; [apply two_sdc|]. split; [reflexivity|]. split; [apply bpt_kin|]. split; [exact Ho|].
  split; [eexists; split; reflexivity|].
  eexists _, _, (-5, 0). split; [exact (P _ eq_refl)|]. split; [reflexivity|].
  intros [H _]. simpl in H. rewrite cos_0, sin_0 in H. lra.
Qed.

Print Assumptions C39_own_frame.
Print Assumptions C39_self.
Print Assumptions C39_distances.
Print Assumptions C39_sdc_observation.
Print Assumptions C39_global.
Print Assumptions C39_is_ego.
Print Assumptions C39_is_ego_refuted.
Print Assumptions C39_heading_range_refuted.
Print Assumptions C39_paths_refuted.
Print Assumptions C39_frame_recorded.
Print Assumptions C39_reframe.
