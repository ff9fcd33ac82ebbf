(** C42: selection of the leading object by the IDM route policy. *)
From Coq Require Import List ZArith Reals Lra Lia Bool.
From Verif.Lib Require Import Base JaxIndex Scalar XR.
From Verif.Model Require Import Operations State Dynamics Geometry Discretizer Metrics Waypoint.
From Verif.Props Require Import ExR.
From Verif.Spec Require Import StateSpec GeomSpec WaypointSpec LogAheadSpec.
From Verif.Proofs Require Import P_Metrics P_IDM P_Lead P_IDMRun P_LeadLog.
From Verif.Props Require Import ExW.
Import ListNotations.
Open Scope R_scope.

(** For every collision pattern of objects and waypoints: the lead speed is the smallest
    speed among the objects hit at the first waypoint at which anything is hit, and -1
    if nothing is hit. *)
Theorem C42_lead_speed (speeds : list (list xr)) coll valid n m :
  rect n m speeds -> rect n m coll -> rect n m valid ->
  (forall j t, hit coll valid j t -> exists r, at2 speeds j t = Some (Fin r) /\ 0 <= r) ->
  (forall t0, first_hit (hit coll valid) t0 ->
     exists r, compute_lead_velocity (S := XR) speeds coll valid m = Fin r /\
       smallest (fun j => hit coll valid j t0) (fun j r => at2 speeds j t0 = Some (Fin r)) r) /\
  ((forall j t, ~ hit coll valid j t) ->
     compute_lead_velocity (S := XR) speeds coll valid m = Fin (-1)).
Proof.
  exact (fun A B C P => conj (lead_velocity_first speeds coll valid n m (conj A (conj B C)) P)
                             (lead_velocity_none speeds coll valid n m (conj A (conj B C)) P)).
Qed.

(** In a scene, for an object that looks ahead from its present position (the default):
    the waypoints checked are its present position and N points evenly spaced on the
    next D metres along its heading; the lead speed and distance are those of
    [leader]: smallest speed among the objects whose rectangle meets its own at the
    first blocked point, and the distance of that point; -1 and -1 on a free road. *)
Theorem C42_leader_of_scene (p : idm_params (S := XR)) cur D i me f log :
  lookahead_from_current_position p = true -> additional_lookahead_distance p = Fin D -> 0 <= D ->
  nth_error cur i = Some me -> p_valid me = true -> is_frame me f ->
  (forall j q, nth_error cur j = Some q -> p_valid q = true -> exists g, is_frame q g) ->
  exists tr u d, lookahead_traj (S := XR) p log me = Ok tr /\
    object_lead (S := XR) i tr cur me = (Fin u, Fin d) /\
    leader cur D (additional_headway_points p) i u d.
Proof.
  exact (fun HL HA HD Hi V Ff Hfr =>
    ex_intro _ _ (match scene_leader cur D (additional_headway_points p) i me f HD Hi V Ff Hfr with
    | ex_intro _ u (ex_intro _ d (conj A B)) =>
        ex_intro _ u (ex_intro _ d (conj (lookahead_checkpoints p log me D HL HA) (conj A B))) end)).
Qed.

(** Whatever the scene contains, both values are real numbers. *)
Theorem C42_lead_values_finite i (tr cur : list (pt (S := XR))) me :
  exists u d, object_lead (S := XR) i tr cur me = (Fin u, Fin d).
Proof. exact lead_finite. Qed.

(** The comment "take the closest one" is not what happens when two objects are hit at
    the first blocked point: a car 7.5 m ahead at 9 m/s and a stopped one 7.6 m ahead
    give lead speed 0. *)
Theorem C42_closest_object_leads_refuted : exists (cur : list (pt (S := XR))) me near far fm fn ff tr u d,
  nth_error cur 0 = Some me /\ nth_error cur 1 = Some near /\ nth_error cur 2 = Some far /\
  is_frame me fm /\ is_frame near fn /\ is_frame far ff /\
  lookahead_traj (S := XR) default_idm [] me = Ok tr /\
  object_lead (S := XR) 0 tr cur me = (Fin u, Fin d) /\
  in_the_way cur 10 10 0 1 4 /\ in_the_way cur 10 10 0 2 4 /\ d = 4 /\
  dist (fx fm, fy fm) (fx fn, fy fn) < dist (fx fm, fy fm) (fx ff, fy ff) /\
  u = rspeed ff /\ u <> rspeed fn.
Proof.
  set (l := [(0, 10); (75 / 10, 9); (76 / 10, 0)]).
  destruct (C42_leader_of_scene default_idm (cars l) 10 0 (rpt 0 10) (wframe 0 10) [])
    as (tr & u & d & Ht & Ho & Ld); auto using default_idm_distance, rpt_frame; try lra.
  { apply cars_frames. }
  assert (W1 : in_the_way (cars l) 10 10 0 1 4).
  { apply (scene_in_the_way l 10 10 0 1 4 0 10 (75 / 10) 9 eq_refl eq_refl). simpl INR. repeat split; try lia.
    apply Rabs_def1; lra. }
  assert (W2 : in_the_way (cars l) 10 10 0 2 4).
  { apply (scene_in_the_way l 10 10 0 2 4 0 10 (76 / 10) 0 eq_refl eq_refl). simpl INR. repeat split; try lia.
    apply Rabs_def1; lra. }
  exists (cars l), (rpt 0 10), (rpt (75 / 10) 9), (rpt (76 / 10) 0), (wframe 0 10), (wframe (75 / 10) 9), (wframe (76 / 10) 0), tr, u, d.
  split; [reflexivity|]. split; [reflexivity|]. split; [reflexivity|].
  split; [apply rpt_frame|]. split; [apply rpt_frame|]. split; [apply rpt_frame|].
  split; [exact Ht|]. split; [exact Ho|]. split; [exact W1|]. split; [exact W2|].
  cbn [additional_headway_points default_idm] in Ld.
  destruct Ld as [(Hn & _)|(k0 & ((j & Hj) & Hb) & -> & ((j1 & Hj1 & (q & g & Hq & Hg & ->)) & Hmin))].
  { destruct (Hn _ _ W1). }
  assert (k0 = 4%nat).
  { destruct (Nat.lt_trichotomy k0 4) as [L|[L|L]]; auto.
    - exfalso. assert (Lk : (k0 <= 3)%nat) by lia. apply le_INR in Lk. pose proof Hj as (_ & Nj & pi & pj & fi & fj & _ & Ej & _).
      destruct j as [|[|[|j]]]; [congruence| | |destruct j; discriminate].
      + apply (scene_in_the_way l 10 10 0 1 k0 0 10 (75 / 10) 9 eq_refl eq_refl) in Hj as (_ & _ & Hj).
        apply Rabs_def2 in Hj. simpl INR in *. lra.
      + apply (scene_in_the_way l 10 10 0 2 k0 0 10 (76 / 10) 0 eq_refl eq_refl) in Hj as (_ & _ & Hj).
        apply Rabs_def2 in Hj. simpl INR in *. lra.
    - destruct (Hb 4%nat 1%nat L W1). }
  subst k0. split; [simpl INR; lra|].
  assert (Z : rspeed g <= 0).
  { apply (Hmin 2%nat); auto. exists (rpt (76 / 10) 0), (wframe (76 / 10) 0). split; [reflexivity|].
    split; [apply rpt_frame|]. rewrite wframe_speed; lra. }
  pose proof (rspeed_nonneg g) as Z0. rewrite !wframe_speed by lra. split; [|split; lra].
  unfold dist; simpl. apply sqrt_lt_1_alt. lra.
Qed.

(** An object that looks ahead along its logged trajectory instead: the points examined
    are the window of max_lookahead logged waypoints starting at the valid waypoint
    nearest to it (the first such; the window is moved back if the log ends too early),
    followed by N points over the D metres beyond the window. Unobserved waypoints block
    nothing. *)
Theorem C42_leader_along_log (p : idm_params (S := XR)) log cur D i me fm :
  lookahead_from_current_position p = false -> additional_lookahead_distance p = Fin D ->
  is_frame me fm ->
  (forall j q, nth_error cur j = Some q -> p_valid q = true -> exists g, is_frame q g) ->
  (forall j q, nth_error log j = Some q -> p_valid q = true -> exists g, is_frame q g) ->
  (1 <= max_lookahead p <= length log)%nat ->
  exists s tr u d, lookahead_traj (S := XR) p log me = Ok tr /\
    object_lead (S := XR) i tr cur me = (Fin u, Fin d) /\
    (forall k, nearest_logged fm log k -> s = Nat.min k (length log - max_lookahead p)) /\
    leader_along cur (check_point log s (max_lookahead p) D (additional_headway_points p)) i fm u d.
Proof. exact (leader_along_log p log cur D i me fm). Qed.

(** Looking ahead further than the log is long is a TypeError. *)
Theorem C42_log_too_short (p : idm_params (S := XR)) log me :
  lookahead_from_current_position p = false -> (length log < max_lookahead p)%nat ->
  lookahead_traj (S := XR) p log me = Err TypeError.
Proof. exact (along_short p log me). Qed.

(** Non-vacuity, and "the lead distance is the distance of the first blocked point" is
    false along a log that turns back: the object at 0 is to drive (after an unobserved
    waypoint) to 1, 20 and -10; a car at 20 drives 5 m/s, one stands at -10. The lead
    speed is 5, of the car 20 m ahead, the lead distance 10, of the other one. *)
Definition back_idm : idm_params (S := XR) :=
  mkidm (Fin 30) (Fin 2) (Fin 2) (Fin 2) (Fin 4) (Fin 4) 3 false 0 (Fin 10) false.
Definition hidden (p : pt (S := XR)) : pt (S := XR) :=
  mkpt (p_x p) (p_y p) (p_z p) (p_vx p) (p_vy p) (p_yaw p) false (p_ts p) (p_len p) (p_wid p) (p_hei p).
Definition back_log : list (pt (S := XR)) := [hidden (rpt 0 3); rpt 1 3; rpt 20 3; rpt (-10) 3].
Definition back_cars : list (pt (S := XR)) := cars [(0, 3); (20, 5); (-10, 0)].

Lemma rpt_frame_inj x v f : is_frame (rpt x v) f -> f = wframe x v.
Proof. intros H. apply (is_frame_inj (rpt x v)); [exact H|apply rpt_frame]. Qed.

Lemma back_nearest : nearest_logged (wframe 0 3) back_log 1.
Proof.
  exists (rpt 1 3), (wframe 1 3). split; [reflexivity|]. split; [reflexivity|]. split; [apply rpt_frame|].
  assert (E : forall x, dist_ahead (wframe 0 3) (wframe x 3) 0 = Rabs x).
  { intros x. unfold dist_ahead. cbn [fx fy fz fyaw wframe]. rewrite <- sqrt_Rsqr_abs. f_equal. unfold Rsqr. ring. }
  intros [|[|[|[|j]]]] q g Hj Vj Hg; try (destruct j; discriminate); injection Hj as <-; try discriminate;
    apply rpt_frame_inj in Hg; subst g; rewrite !E; (split; [|intros; try lia]);
    rewrite ?(Rabs_pos_eq 1), ?(Rabs_pos_eq 20), ?(Rabs_left (-10)) by lra; lra.
Qed.

Theorem C42_lead_distance_is_of_first_blocked_point_refuted :
  exists (tr : list (pt (S := XR))) u d t0, lookahead_traj (S := XR) back_idm back_log (rpt 0 3) = Ok tr /\
    object_lead (S := XR) 0 tr back_cars (rpt 0 3) = (Fin u, Fin d) /\
    first_hit (blocked back_cars (check_point back_log 1 3 10 0) 0) t0 /\
    u = 5 /\ d = 10 /\
    forall f e, check_point back_log 1 3 10 0 t0 f e -> dist_ahead (wframe 0 3) f e = 20.
Proof.
  destruct (C42_leader_along_log back_idm back_log back_cars 10 0 (rpt 0 3) (wframe 0 3))
    as (s & tr & u & d & Ht & Ho & Hs & Ld); auto using rpt_frame.
  { apply cars_frames. }
  { intros [|[|[|[|j]]]] q Hj V; try (destruct j; discriminate); injection Hj as <-; try discriminate;
      eexists; apply rpt_frame. }
  { simpl. lia. }
  pose proof (Hs 1%nat back_nearest) as ->. cbn [max_lookahead back_idm additional_headway_points length back_log] in Ld.
  change (Nat.min 1 (4 - 3)) with 1%nat in Ld. clear Hs.
  set (cp := check_point back_log 1 3 10 0) in *.
  assert (CP : forall t f e, cp t f e -> e = 0 /\ (t = 0%nat /\ f = wframe 1 3 \/ t = 1%nat /\ f = wframe 20 3 \/
                 t = 2%nat /\ f = wframe (-10) 3)).
  { intros t f e C. destruct C as [t w f Lt Hw V Hf|m w f Hm _ _ _]; [|lia]. split; auto.
    destruct t as [|[|[|t]]]; [| | |lia]; injection Hw as <-; apply rpt_frame_inj in Hf; auto. }
  assert (E : forall x, dist_ahead (wframe 0 3) (wframe x 3) 0 = Rabs x).
  { intros x. unfold dist_ahead. cbn [fx fy fz fyaw wframe]. rewrite <- sqrt_Rsqr_abs. f_equal. unfold Rsqr. ring. }
  assert (B : forall j t, blocked back_cars cp 0 j t -> j = 1%nat /\ t = 1%nat \/ j = 2%nat /\ t = 2%nat).
  { intros j t (Nj & f & e & q & g & C & Hq & _ & Hg & Q). destruct (CP _ _ _ C) as [-> Cs].
    destruct j as [|[|[|j]]]; [congruence| | |destruct j; discriminate]; injection Hq as <-;
      apply rpt_frame_inj in Hg; subst g; destruct Cs as [[-> ->]|[[-> ->]|[-> ->]]]; auto;
      apply ahead_overlap in Q; apply Rabs_def2 in Q; lra. }
  assert (B1 : blocked back_cars cp 0 1 1).
  { split; [lia|]. exists (wframe 20 3), 0, (rpt 20 5), (wframe 20 5).
    split; [eapply on_log; [lia|reflexivity|reflexivity|apply rpt_frame]|]. split; [reflexivity|]. split; [reflexivity|].
    split; [apply rpt_frame|]. apply ahead_overlap. rewrite Rabs_pos_eq; lra. }
  assert (B2 : blocked back_cars cp 0 2 2).
  { split; [lia|]. exists (wframe (-10) 3), 0, (rpt (-10) 0), (wframe (-10) 0).
    split; [eapply on_log; [lia|reflexivity|reflexivity|apply rpt_frame]|]. split; [reflexivity|]. split; [reflexivity|].
    split; [apply rpt_frame|]. apply ahead_overlap. rewrite Rabs_pos_eq; lra. }
  destruct Ld as [(Hn & _)|(t0 & FH & Su & Sd)]; [destruct (Hn _ _ B1)|].
  assert (T0 : t0 = 1%nat).
  { destruct FH as [(j & Hj) Hb]. destruct (B _ _ Hj) as [[_ ->]|[_ ->]]; auto. destruct (Hb 1%nat 1%nat ltac:(lia) B1). }
  subst t0. exists tr, u, d, 1%nat. split; [exact Ht|]. split; [exact Ho|]. split; [exact FH|]. split; [|split].
  - destruct Su as [(j & Hj & q & g & Hq & Hg & ->) _]. destruct (B _ _ Hj) as [[-> _]|[_ X]]; [|discriminate].
    injection Hq as <-. apply rpt_frame_inj in Hg. subst g. apply wframe_speed. lra.
  - destruct Sd as [(t & (j & Hj) & f & e & C & ->) M]. destruct (CP _ _ _ C) as [-> _].
    assert (L : dist_ahead (wframe 0 3) f 0 <= 10).
    { apply (M 2%nat); [eauto|]. exists (wframe (-10) 3), 0. split; [eapply on_log; [lia|reflexivity|reflexivity|apply rpt_frame]|].
      rewrite E, Rabs_left; lra. }
    destruct (CP _ _ _ C) as [_ [[-> ->]|[[-> ->]|[-> ->]]]]; rewrite E in *.
    + destruct (B _ _ Hj) as [[_ X]|[_ X]]; discriminate.
    + rewrite Rabs_pos_eq in L; lra.
    + rewrite Rabs_left; lra.
  - intros f e C. destruct (CP _ _ _ C) as [-> [[X _]|[[_ ->]|[X _]]]]; try discriminate. rewrite E, Rabs_pos_eq; lra.
Qed.

(** Non-vacuity of the matrix theorem: three objects, three waypoints. *)
Example C42_lead_speed_example :
  compute_lead_velocity (S := XR)
    [[Fin 5; Fin 5; Fin 5]; [Fin 3; Fin 3; Fin 3]; [Fin 1; Fin 1; Fin 1]]
    [[false; true; true]; [false; true; false]; [false; false; true]]
    [[true; true; true]; [true; true; true]; [true; true; true]] 3 = Fin 3.
Proof.
  set (c := [[false; true; true]; [false; true; false]; [false; false; true]]).
  set (v := [[true; true; true]; [true; true; true]; [true; true; true]]).
  set (sp := [[Fin 5; Fin 5; Fin 5]; [Fin 3; Fin 3; Fin 3]; [Fin 1; Fin 1; Fin 1]]).
  assert (R : rect 3 3 sp /\ rect 3 3 c /\ rect 3 3 v).
  { repeat split; intros r H; repeat (destruct H as [<-|H]; [reflexivity|]); destruct H. }
  destruct R as (R1 & R2 & R3).
  destruct (C42_lead_speed sp c v 3 3 R1 R2 R3) as [A _].
  { intros j t [H _]. unfold at2 in *.
    destruct j as [|[|[|j]]]; destruct t as [|[|[|t]]]; try (destruct j; discriminate); try (destruct t; discriminate);
      try discriminate; eexists; (split; [reflexivity|lra]). }
  destruct (A 1%nat) as (r & -> & ((j & [Hc _] & Hj) & Hs)).
  { split; [exists 0%nat; split; reflexivity|]. intros t j Ht [H _]. assert (t = 0%nat) by lia. subst t.
    destruct j as [|[|[|j]]]; try discriminate. destruct j; discriminate. }
  f_equal. pose proof (Hs 1%nat 3 ltac:(split; reflexivity) eq_refl) as K1.
  destruct j as [|[|[|j]]]; try discriminate; try (destruct j; discriminate); injection Hj as <-; auto.
  lra.
Qed.

Print Assumptions C42_lead_speed.
Print Assumptions C42_leader_of_scene.
Print Assumptions C42_lead_values_finite.
Print Assumptions C42_closest_object_leads_refuted.
Print Assumptions C42_leader_along_log.
Print Assumptions C42_log_too_short.
Print Assumptions C42_lead_distance_is_of_first_blocked_point_refuted.
