(** C68: the simulator has no preferred coordinate frame.  The same scene described with
    another map origin and orientation gives the same episode, the same observations in an
    object's own frame, the same metrics and the same expert actions. *)
From Coq Require Import Reals ZArith List Bool Lia Lra.
From Verif.Lib Require Import Base JaxIndex Scalar XR.
From Verif.Model Require Import Operations State Dynamics BaseEnv Dyn_State Dyn_Delta Dyn_Bicycle Comfort Metrics
  Observation.
From Verif.Spec Require Import StateSpec DynSpec DiscSpec MetricSpec ObsSpec MovedSpec.
From Verif.Proofs Require Import Core P_Angles P_Delta P_Bicycle P_Actions P_Observation P_Moved P_MovedMetrics P_MovedObs.
From Verif.Props Require Import ExM ExR.
From Verif.Spec Require Import GeomSpec.
Import ListNotations.
Open Scope R_scope.

(** Every scene whose valid entries are finite can be described in every other frame. *)
Theorem C68_every_scene : forall g s, tame s -> exists s', moved_state g s s'.
Proof. exact moved_exists. Qed.

(** Reset commutes with the change of frame. *)
Theorem C68_reset : forall g c s s', moved_state g s s' ->
  alike (moved_state g) (env_reset c s) (env_reset c s').
Proof. exact moved_reset. Qed.

(** Whole episodes commute with it, for all four dynamics models, when the actions are
    described in the same frame: complete states move with the map, displacements along
    the axes turn with it, displacements in the vehicle's own frame and bicycle controls
    stay as they are. *)
Theorem C68_episode : forall g c s s', moved_state g s s' -> c_allow_new_objects c = false ->
  (forall al al', Forall2 (Forall2 (moved_action g)) al al' ->
     alike (moved_state g) (env_steps StateDynamics c s al) (env_steps StateDynamics c s' al')) /\
  (forall dt mx my myaw al al', dt <> 0 -> Forall2 (Forall2 (turned_action g)) al al' ->
     alike (moved_state g) (env_steps (DeltaGlobal (dparams dt mx my myaw)) c s al)
       (env_steps (DeltaGlobal (dparams dt mx my myaw)) c s' al')) /\
  (forall dt mx my myaw al al', dt <> 0 -> Forall2 (Forall2 same_action) al al' ->
     alike (moved_state g) (env_steps (DeltaLocal (dparams dt mx my myaw)) c s al)
       (env_steps (DeltaLocal (dparams dt mx my myaw)) c s' al')) /\
  (forall dt ma ms nrm al al', 0 <= ma -> 0 <= ms -> Forall2 (Forall2 same_action) al al' ->
     alike (moved_state g) (env_steps (InvertibleBicycleModel (bparams dt ma ms nrm)) c s al)
       (env_steps (InvertibleBicycleModel (bparams dt ma ms nrm)) c s' al')).
Proof.
  intros g c s s' MS CI.
  assert (LIFT : forall (P Q : act (S := XR) -> act -> Prop) al al', (forall a a', P a a' -> Q a a') ->
    Forall2 (Forall2 P) al al' -> Forall2 (Forall2 Q) al al').
  { intros P Q al al' PQ H. induction H as [|a a' al al' Ha H IH]; constructor; auto.
    clear -PQ Ha. induction Ha; constructor; auto. }
  split; [|split; [|split]].
  - intros al al' H. apply (moved_steps g _ _ _ (state_equivariant g) CI); auto.
    revert H. apply LIFT. intros a a' M p. pose proof M as (k & k' & _ & E & E' & _).
    split; [repeat eexists; exact E|]. split; [repeat eexists; exact E'|auto].
  - intros dt mx my myaw al al' Hd H. apply (moved_steps g _ _ _ (global_equivariant g dt mx my myaw Hd) CI); auto.
    revert H. apply LIFT. auto.
  - intros dt mx my myaw al al' Hd H. apply (moved_steps g _ _ _ (local_equivariant g dt mx my myaw Hd) CI); auto.
    revert H. apply LIFT. intros. now apply same_same.
  - intros dt ma ms nrm al al' Ha Hs H. apply (moved_steps g _ _ _ (bicycle_equivariant g dt ma ms nrm Ha Hs) CI); auto.
    revert H. apply LIFT. intros. now apply same_same.
Qed.

(** A driver that looks at the scene in each object's own frame drives the same episode
    whatever the frame of the map. *)
Theorem C68_driven : forall g c k topk drv n s s', moved_state g s s' -> c_allow_new_objects c = false ->
  own_frame_driver drv ->
  (forall dt mx my myaw, dt <> 0 ->
     alike (moved_state g) (driven (DeltaLocal (dparams dt mx my myaw)) c k topk drv n s)
       (driven (DeltaLocal (dparams dt mx my myaw)) c k topk drv n s')) /\
  (forall dt ma ms nrm, 0 <= ma -> 0 <= ms ->
     alike (moved_state g) (driven (InvertibleBicycleModel (bparams dt ma ms nrm)) c k topk drv n s)
       (driven (InvertibleBicycleModel (bparams dt ma ms nrm)) c k topk drv n s')).
Proof.
  intros g c k topk drv n s s' MS CI D. split.
  - intros dt mx my myaw Hd. apply moved_driven; auto. now apply local_equivariant.
  - intros dt ma ms nrm Ha Hs. apply moved_driven; auto. now apply bicycle_equivariant.
Qed.

(** Observations in an object's own frame, or in the SDC's, are the same. *)
Theorem C68_observation : forall g s s' k topk fr, moved_state g s s' -> fr <> FRAME_GLOBAL ->
  alike (sees_same fr s) (observation_from_state s k topk fr) (observation_from_state s' k topk fr).
Proof.
  intros g s s' k topk fr MS Hf. eapply alike_mono; [apply (moved_observation g s s' k topk fr MS)|]. auto.
Qed.

Theorem C68_sdc_observation : forall g s s' k topk fr i c cur, moved_state g s s' -> fr <> FRAME_GLOBAL ->
  current_sim s = Ok cur -> the_sdc (s_meta s) i -> nth_error cur i = Some c -> p_valid c = true ->
  alike (Forall2 same_view) (sdc_observation_from_state s k topk fr) (sdc_observation_from_state s' k topk fr).
Proof. exact moved_sdc_observation. Qed.

(** Metrics: distance to the log, overlaps and kinematic feasibility. *)
Theorem C68_metrics : forall g s s', moved_state g s s' ->
  alike (Forall2 same_result) (log_divergence_compute s) (log_divergence_compute s') /\
  alike (Forall2 same_result) (overlap_compute s) (overlap_compute s') /\
  (forall dt ma ms, 0 < dt ->
     alike eq (kim_compute (mkkim (Fin dt) ma ms) s) (kim_compute (mkkim (Fin dt) ma ms) s')).
Proof.
  intros g s s' MS. split; [now apply moved_log_divergence with (g := g)|].
  split; [now apply moved_overlap with (g := g)|]. intros dt ma ms Hd. now apply moved_kim with (g := g).
Qed.

(** Off the road, for every object in the scene. *)
Theorem C68_offroad : forall g s s' rg, moved_state g s s' -> s_rg s = Some rg -> edges_clean rg ->
  alike (same_for_valid s) (offroad_compute s) (offroad_compute s').
Proof. exact moved_offroad. Qed.

(** The route metrics of the SDC. *)
Theorem C68_route : forall g s s' cur cur' i, moved_state g s s' ->
  current_sim s = Ok cur -> current_sim s' = Ok cur' ->
  readable (s_meta s) cur i -> readable (s_meta s) cur' i ->
  alike eq (wrongway_compute s) (wrongway_compute s') /\
  alike eq (off_route_compute s) (off_route_compute s') /\
  (forall fst0 fst0' lst lst',
     log_frame (s_log s) 0 = Ok fst0 -> log_frame (s_log s') 0 = Ok fst0' ->
     log_frame (s_log s) (num_timesteps (s_log s) - 1) = Ok lst ->
     log_frame (s_log s') (num_timesteps (s_log s') - 1) = Ok lst' ->
     readable (s_meta s) fst0 i -> readable (s_meta s) fst0' i ->
     readable (s_meta s) lst i -> readable (s_meta s) lst' i ->
     alike eq (progression_compute s) (progression_compute s')).
Proof.
  intros g s s' cur cur' i MS E E' R R'. split; [eapply moved_wrongway; eauto|]. split; [eapply moved_off_route; eauto|].
  intros. eapply moved_progression; eauto.
Qed.

(** Expert actions: bicycle controls are the same, at every step and without any bound;
    displacements are the same, or turn with the map, as long as no object moves further
    in one step than the model's limits. *)
Theorem C68_expert : forall g tr tr' ms t, moved_traj g tr tr' ->
  (forall dt ma mst nrm, 0 < dt ->
     alike eq (bicycle_inverse (bparams dt ma mst nrm) tr ms t) (bicycle_inverse (bparams dt ma mst nrm) tr' ms t)) /\
  (forall dt mx my myaw, 0 <= mx -> 0 <= my -> short_steps (Rmin mx my) tr ->
     alike (Forall2 same_expert) (delta_local_inverse (dparams dt mx my myaw) tr ms t)
       (delta_local_inverse (dparams dt mx my myaw) tr' ms t) /\
     alike (Forall2 (turned_expert g)) (delta_global_inverse (dparams dt mx my myaw) tr ms t)
       (delta_global_inverse (dparams dt mx my myaw) tr' ms t)).
Proof.
  intros g tr tr' ms t H. split; [intros; now apply moved_inverse with (g := g)|].
  intros dt mx my myaw Hx Hy SH. split; [now apply moved_local_inverse with (g := g)|now apply moved_global_inverse].
Qed.

(* ---------------- what does depend on the frame ---------------- *)

(** A displacement beyond the limits is cut along the axes of the map, so the inferred
    action in the vehicle's own frame depends on the orientation of the map: 6 m forward
    and 6 m left with the default limits; with the map turned by 45 degrees 6 m of the
    8.5 m are left. *)
Definition dpt (x y yaw : R) : pt (S := XR) := bpt x y yaw true.

Lemma Forall2_one {A B} (P : A -> B -> Prop) a b : Forall2 P [a] [b] -> P a b.
Proof. intros H. now inversion H. Qed.

Theorem C68_long_step_refuted :
  ~ forall g tr tr' ms t, moved_traj g tr tr' ->
      alike (Forall2 same_expert) (delta_local_inverse (dparams (1 / 10) 6 6 PI) tr ms t)
        (delta_local_inverse (dparams (1 / 10) 6 6 PI) tr' ms t).
Proof.
  intros H.
  set (r2 := sqrt 2). assert (R2 : r2 * r2 = 2) by (apply sqrt_sqrt; lra).
  assert (R0 : 1 < r2) by (rewrite <- sqrt_1; apply sqrt_lt_1; lra).
  set (g := mkmotion (PI / 4) 0 0).
  set (tr := [[dpt 0 0 0; dpt 6 6 0]]). set (tr' := [[dpt 0 0 (PI / 4); dpt 0 (6 * r2) (PI / 4)]]).
  assert (C4 : cos (PI / 4) = r2 / 2).
  { rewrite cos_PI4. apply Rmult_eq_reg_r with r2; [|lra]. fold r2. field_simplify; [lra|lra]. }
  assert (S4 : sin (PI / 4) = r2 / 2) by (rewrite <- C4, cos_PI4, sin_PI4; reflexivity).
  assert (MT : moved_traj g tr tr').
  { assert (ONE : forall x y x' y', (x', y') = moved_point g (x, y) ->
      moved_pt g (dpt x y 0) (dpt x' y' (PI / 4))).
    { intros x y x' y' E. split; [repeat split|]. split; [repeat eexists|]. split; [reflexivity|]. intros _.
      exists (mkkin x y 0 0 0), (mkkin x' y' (PI / 4) 0 0). split; [repeat split|]. split; [repeat split|].
      split; [exact E|]. split; cbn.
      - unfold moved_vector, move; cbn. f_equal; ring.
      - exists 0%Z. ring. }
    constructor; [|constructor]. constructor; [apply ONE|constructor; [apply ONE|constructor]]; unfold moved_point, move, g; cbn [mt_turn mt_dx mt_dy fst snd]; rewrite C4, S4; f_equal; field. }
  specialize (H g tr tr' [] 0%Z MT).
  unfold delta_local_inverse in H.
  replace (two_frames tr 0) with (Ok [(dpt 0 0 0, dpt 6 6 0)]) in H by reflexivity.
  replace (two_frames tr' 0) with (Ok [(dpt 0 0 (PI / 4), dpt 0 (6 * r2) (PI / 4))]) in H by reflexivity.
  replace (dynamic_index tr 0) with (Ok [dpt 0 0 0]) in H by reflexivity.
  replace (dynamic_index tr' 0) with (Ok [dpt 0 0 (PI / 4)]) in H by reflexivity.
  cbn [bind map2 alike fst snd] in H. pose proof (Forall2_one _ _ _ H) as (_ & E). clear H.
  unfold delta_local_inverse1 in E.
  rewrite (global_inverse_Fin (1 / 10) 6 6 PI (dpt 0 0 0) (dpt 6 6 0) (mkkin 0 0 0 0 0) (mkkin 6 6 0 0 0)) in E
    by (auto; try lra; repeat split).
  rewrite (global_inverse_Fin (1 / 10) 6 6 PI (dpt 0 0 (PI / 4)) (dpt 0 (6 * r2) (PI / 4)) (mkkin 0 0 (PI / 4) 0 0)
    (mkkin 0 (6 * r2) (PI / 4) 0 0)) in E by (auto; try lra; repeat split).
  cbn [a_data a_valid kx ky kyaw dpt bpt p_yaw p_valid] in E. autorewrite with xr in E. rewrite !rotate_Fin in E. cbn [fst snd] in E.
  unfold delta_clip, dparams in E; cbn [dl_mx dl_my] in E. specialize (E eq_refl). injection E as E _ _.
  revert E. xr. rewrite !clamp_clip by lra.
  rewrite !Ropp_0, cos_0, sin_0, cos_neg, sin_neg, C4, S4.
  rewrite (clamp_id (0 - 0)) by (rewrite Rminus_0_r, Rabs_R0; lra).
  rewrite (clamp_id (6 - 0)) by (rewrite Rabs_pos_eq; lra).
  replace (clamp (- (6)) 6 (6 * r2 - 0)) with 6.
  2:{ unfold clamp. destruct (Rlt_dec (6 * r2 - 0) (- (6))); [lra|]. destruct (Rlt_dec 6 (6 * r2 - 0)); lra. }
  assert (R3 : r2 < 2) by nra.
  rewrite !clamp_id by (rewrite Rabs_pos_eq; lra). intros E. lra.
Qed.

(** With object injection a controlled object that enters the scene starts from the
    placeholder of its missing past, the point (-1, -1) in every frame. *)
Definition late (y : R) : state (S := XR) :=
  mkstate [[invalid_pt; invalid_pt]] [[invalid_pt; bpt 0 y 0 true]] [] [bmeta true] 0 None None.

Theorem C68_injection_refuted :
  ~ forall g c s s' al al' dt mx my myaw, dt <> 0 -> moved_state g s s' ->
      Forall2 (Forall2 (turned_action g)) al al' ->
      alike (moved_state g) (env_steps (DeltaGlobal (dparams dt mx my myaw)) c s al)
        (env_steps (DeltaGlobal (dparams dt mx my myaw)) c s' al').
Proof.
  intros H. set (g := mkmotion 0 0 10). set (a := mkact (S := XR) [Fin 0; Fin 0; Fin 0] true).
  assert (MS : moved_state g (late 0) (late 10)).
  { assert (INV : moved_pt g invalid_pt invalid_pt) by apply moved_invalid.
    assert (ONE : moved_pt g (bpt 0 0 0 true) (bpt 0 10 0 true)).
    { split; [repeat split|]. split; [repeat eexists|]. split; [reflexivity|]. intros _.
      exists (mkkin 0 0 0 0 0), (mkkin 0 10 0 0 0). split; [repeat split|]. split; [repeat split|].
      unfold moved_kin, moved_point, moved_vector, move, g; cbn. rewrite cos_0, sin_0.
      split; [f_equal; ring|]. split; [f_equal; ring|]. exists 0%Z. ring. }
    unfold moved_state, late; cbn. split; [|split; [|repeat split]].
    - constructor; [|constructor]. constructor; [exact INV|constructor; [exact INV|constructor]].
    - constructor; [|constructor]. constructor; [exact INV|constructor; [exact ONE|constructor]].
    - constructor. }
  assert (TA : turned_action g a a).
  { exists 0, 0, 0. split; [reflexivity|]. split; [|reflexivity]. unfold moved_vector, move, g, a; cbn. rewrite cos_0, sin_0.
    f_equal; [|f_equal]; f_equal; ring. }
  specialize (H g (mkcfg 1 1 SDC true) (late 0) (late 10) [[a]] [[a]] (1 / 10) 6 6 PI ltac:(lra) MS).
  specialize (H ltac:(constructor; [constructor; [exact TA|constructor]|constructor])).
  cbn [env_steps] in H.
  assert (ST : forall y, exists q, env_step (DeltaGlobal (dparams (1 / 10) 6 6 PI)) (mkcfg 1 1 SDC true) (late y) [a]
     = Ok (mkstate [[invalid_pt; q]] [[invalid_pt; bpt 0 y 0 true]] [] [bmeta true] 1 None None) /\
     p_valid q = true /\ p_x q = Fin (-1) /\ p_y q = Fin (-1)).
  { intros y. eexists. split; [reflexivity|]. split; [reflexivity|]. cbn [p_x p_y next_pt u_x u_y invalid_pt].
    split; xr; apply f_equal; lra. }
  destruct (ST 0) as (q & E & V & X & Y), (ST 10) as (q' & E' & V' & X' & Y'). rewrite E, E' in H. cbn [bind alike] in H.
  destruct H as (H & _). cbn [s_sim] in H. apply Forall2_one in H. inversion H as [|? ? ? ? _ H2]; subst.
  apply Forall2_one in H2. destruct H2 as (_ & _ & _ & K). destruct (K V) as (k & k' & (K1 & K2 & _) & (L1 & L2 & _) & (M & _)).
  rewrite X in K1. rewrite Y in K2. rewrite X' in L1. rewrite Y' in L2. injection K1 as K1. injection K2 as K2.
  injection L1 as L1. injection L2 as L2. unfold moved_point, move, g in M; cbn in M. rewrite cos_0, sin_0 in M.
  injection M as M1 M2. lra.
Qed.

(* ---------------- a concrete scene ---------------- *)

(** Two cars over three steps, the second one 20 m ahead, a road edge along the lane, a
    route and no light; at the first step. *)
Definition cpt (x v : R) : pt (S := XR) := rpt x v.
Definition scene : state (S := XR) :=
  mkstate [[cpt 0 10; invalid_pt; invalid_pt]; [cpt 20 10; invalid_pt; invalid_pt]]
    [[cpt 0 10; cpt 1 10; cpt 2 10]; [cpt 20 10; cpt 21 10; cpt 22 10]] []
    [bmeta true; bmeta false] 0 (Some route)
    (Some [mkrg (S := XR) (Fin 0) (Fin 3) (Fin 0) (Fin 1) (Fin 0) (Fin 0) 15 4 true;
           mkrg (S := XR) (Fin 30) (Fin 3) (Fin 0) (Fin 1) (Fin 0) (Fin 0) 15 4 true]).
Definition scene_cfg : envcfg := mkcfg 2 1 VALID false.

Lemma scene_tame : tame scene.
Proof.
  assert (P : forall x v, tame_pt (cpt x v)).
  { intros x v. split; [repeat eexists|]. intros _. exists (rkin x v). apply rpt_kin. }
  assert (I : tame_pt invalid_pt) by (split; [repeat eexists|discriminate]).
  unfold tame, scene; cbn [s_sim s_log s_tls s_paths s_rg]. split; [repeat (constructor; auto)|].
  split; [repeat (constructor; auto)|]. split; [constructor|]. split.
  - unfold route. assert (Q : forall x y a, pp_valid (ppt x y a) = true -> exists c, path_xy (ppt x y a) c).
    { intros x y a _. exists (x, y). split; reflexivity. }
    constructor; [repeat (constructor; [apply Q|]); constructor|].
    constructor; [repeat (constructor; [apply Q|]); constructor|constructor].
  - constructor; [|constructor; [|constructor]]; intros _; (split; [eexists; reflexivity|]).
    + exists (0, 3), (1, 0). repeat split.
    + exists (30, 3), (1, 0). repeat split.
Qed.

Lemma scene_wf : obs_wf 2 0 3 0 scene.
Proof.
  split; [|split; [split; [reflexivity|intros r []]|split; [reflexivity|lia]]].
  split; [split; [reflexivity | intros r [<-|[<-|[]]]; reflexivity]|].
  split; [split; [reflexivity | intros r [<-|[<-|[]]]; reflexivity]|].
  repeat split; auto with arith.
Qed.

(** A driver that brakes when it sees a map point within 10 m ahead. *)
Definition near (v : view (S := XR)) : bool :=
  existsb (fun p => rg_valid p && fltb (rg_x p) (Fin 10)) (v_rg v).
Definition brake (v : view (S := XR)) : act (S := XR) := mkact [Fin (if near v then -2 else 2); Fin 0] true.

Lemma brake_own_frame : own_frame_driver brake.
Proof.
  split; [|intros v; split; [repeat constructor; eexists; reflexivity|reflexivity]].
  intros v v' (_ & _ & _ & H & _). unfold brake. replace (near v') with (near v); [reflexivity|]. unfold near.
  induction H as [|p p' l l' (Vp & _ & _ & _ & _ & K) H IH]; [reflexivity|]. cbn [existsb]. rewrite IH, Vp. f_equal.
  destruct (rg_valid p); [|reflexivity]. destruct (K eq_refl) as (-> & _). reflexivity.
Qed.

Lemma drive_total n L T d c k topk drv ok rg : dyn_total d ok -> (forall v, ok (drv v)) ->
  c_controlled c <> NON_SDC -> (topk <= length rg)%nat ->
  forall m t s, obs_wf n L T t s -> s_rg s = Some rg -> (k <= t + 1)%nat -> (t + m < T)%nat ->
  exists s', driven d c k topk drv m s = Ok s' /\ s_t s' = Z.of_nat (t + m).
Proof.
  intros D DK Hc Hk. induction m as [|m IH]; intros t s W Hr Ht HT.
  { exists s. split; [reflexivity|]. destruct W as (_ & _ & -> & _). now rewrite Nat.add_0_r. }
  cbn [driven].
  destruct (observation_spec n L T t s k topk FRAME_OBJECT rg W Ht Hr Hk) as (o & _ & _ & _ & _ & Eo & Lo & _).
  rewrite Eo. cbn [bind].
  destruct W as (W & Q & Et & Hlt).
  destruct (env_step_total n T d c s (map drv o) ok W Hc D) as (s1 & E1).
  { now rewrite map_length. }
  { apply Forall_forall. intros a Ha. apply in_map_iff in Ha as (v & <- & _). apply DK. }
  rewrite E1. cbn [bind].
  pose proof (env_step_wf _ _ _ _ _ _ _ W E1) as W1.
  destruct (env_step_Ok _ _ _ _ _ _ _ W E1) as (_ & _ & _ & _ & _ & _ & _ & _ & _ & _ & _ & _ & _ & _ & _ & SC & Et1).
  destruct SC as (_ & S2 & _ & S4 & S5).
  destruct (IH (t + 1)%nat s1) as (s' & E & E').
  - split; [exact W1|]. split; [|split; [rewrite Et1, Et; lia|lia]]. congruence.
  - congruence.
  - lia.
  - lia.
  - exists s'. split; [exact E|]. rewrite E'. f_equal. lia.
Qed.

(** The scene has a description in the frame turned by 1 rad and shifted by (100, -7), and
    the driver drives both through the whole log with the bicycle model. *)
Example C68_example :
  exists s' r r', moved_state (mkmotion 1 100 (-7)) scene s' /\
    driven (InvertibleBicycleModel (bparams (1 / 10) 6 (3 / 10) false)) scene_cfg 1 1 brake 2 scene = Ok r /\
    driven (InvertibleBicycleModel (bparams (1 / 10) 6 (3 / 10) false)) scene_cfg 1 1 brake 2 s' = Ok r' /\
    moved_state (mkmotion 1 100 (-7)) r r' /\ s_t r' = 2%Z.
Proof.
  destruct (C68_every_scene (mkmotion 1 100 (-7)) scene scene_tame) as (s' & MS).
  destruct (drive_total 2 0 3 (InvertibleBicycleModel (bparams (1 / 10) 6 (3 / 10) false)) scene_cfg 1 1 brake _
    (match s_rg scene with Some m => m | None => [] end) (bicycle_total _) (fun v => le_n 2) ltac:(discriminate) ltac:(cbn; lia) 2 0 scene scene_wf eq_refl ltac:(lia) ltac:(lia))
    as (r & Er & Et).
  destruct (C68_driven (mkmotion 1 100 (-7)) scene_cfg 1 1 brake 2 scene s' MS eq_refl brake_own_frame) as (_ & A).
  specialize (A (1 / 10) 6 (3 / 10) false ltac:(lra) ltac:(lra)). rewrite Er in A.
  destruct (driven _ _ _ _ _ _ s') as [r'|] eqn:E'; [|contradiction]. cbn [alike] in A.
  exists s', r, r'. split; [exact MS|]. split; [exact Er|]. split; [exact E'|]. split; [exact A|].
  destruct A as (_ & _ & _ & _ & -> & _). exact Et.
Qed.

(** Its map, its SDC and its log meet the conditions of the metric theorems. *)
Example C68_conditions :
  (exists rg, s_rg scene = Some rg /\ edges_clean rg) /\
  (exists cur, current_sim scene = Ok cur /\ readable (s_meta scene) cur 0) /\
  short_steps (Rmin 6 6) (s_log scene).
Proof.
  split; [|split].
  - eexists. split; [reflexivity|]. split.
    + eexists. split; [left; reflexivity|]. split; reflexivity.
    + intros [|[|i]] e ep H _ _ Hp _; cbn in H, Hp.
      * injection Hp as <-. reflexivity.
      * injection Hp as <-. reflexivity.
      * destruct i; discriminate.
  - eexists. split; [reflexivity|]. split; [reflexivity|]. split.
    + split; [eexists; split; reflexivity|]. intros [|[|j]] m H V; [reflexivity| |destruct j; discriminate].
      injection H as <-. discriminate.
    + split; [|eexists; split; reflexivity]. intros q [<-|[<-|[]]]; [exists (0, 0)|exists (20, 0)]; split; reflexivity.
  - rewrite Rmin_left by lra. intros r i p q k l Hin Hp Hq _ _ (K1 & K2 & _) (L1 & L2 & _).
    assert (E : ky l = ky k /\ kx l = kx k + 1).
    { destruct Hin as [<-|[<-|[]]]; destruct i as [|[|[|[|i]]]]; cbn in Hp, Hq; try discriminate;
        injection Hp as <-; injection Hq as <-; cbn in K1, K2, L1, L2; injection K1 as <-; injection K2 as <-;
        injection L1 as <-; injection L2 as <-; lra. }
    destruct E as [-> ->]. rewrite dist_x. rewrite Rabs_left; lra.
Qed.

Print Assumptions C68_every_scene.
Print Assumptions C68_reset.
Print Assumptions C68_episode.
Print Assumptions C68_driven.
Print Assumptions C68_observation.
Print Assumptions C68_sdc_observation.
Print Assumptions C68_metrics.
Print Assumptions C68_offroad.
Print Assumptions C68_route.
Print Assumptions C68_expert.
Print Assumptions C68_long_step_refuted.
Print Assumptions C68_injection_refuted.
