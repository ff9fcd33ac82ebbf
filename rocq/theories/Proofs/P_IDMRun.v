(** Proofs for C41: the speeds returned by the IDM policy on a state. *)
From Coq Require Import Reals List ZArith Bool Lra Lia Psatz.
From Verif.Lib Require Import Base JaxIndex Scalar XR.
From Verif.Model Require Import Operations State Dynamics Geometry Discretizer Metrics Waypoint.
From Verif.Spec Require Import StateSpec GeomSpec WaypointSpec.
From Verif.Proofs Require Import Core P_Metrics P_IDM P_Lead.
Import ListNotations.
Open Scope R_scope.

Lemma idm_update_total n T (p : idm_params (S := XR)) s : wf_state (S := XR) n T s ->
  (lookahead_from_current_position p = true \/ (max_lookahead p <= T)%nat) ->
  exists sv, idm_update_speed p s = Ok sv /\ length sv = n.
Proof.
  intros (R1 & R2 & _ & Hn & HT) HL.
  destruct (dynamic_index_total n T (s_sim s) (s_t s) R1 HT) as [cur Hc].
  destruct (dynamic_index_Ok _ _ _ _ _ R1 Hc) as [Lc _].
  assert (Ll : length (s_log s) = n) by apply R2.
  unfold idm_update_speed, current_sim. rewrite Hc. cbn [bind].
  unfold guard. rewrite Lc, Ll, Nat.eqb_refl. cbn [bind].
  destruct (mapM_total (fun q => lookahead_traj (S := XR) p (fst q) (snd q)) (combine (s_log s) cur)) as [trs Ht].
  - intros [log me] Hin. cbn [fst snd]. unfold lookahead_traj.
    assert (K : exists tr, (if lookahead_from_current_position p then reference_traj (S := XR) me [me] 1
                 else reference_traj (S := XR) me log (max_lookahead p)) = Ok tr).
    { destruct (lookahead_from_current_position p) eqn:E.
      - apply dyn_slice_total. auto.
      - apply dyn_slice_total. destruct HL as [|HL]; [discriminate|].
        destruct R2 as [_ R2]. rewrite (R2 log); auto. eapply in_combine_l; eauto. }
    destruct K as [tr ->]. cbn [bind]. eauto.
  - rewrite Ht. cbn [bind]. eexists. split; [reflexivity|].
    rewrite mapi_length, combine_length, (mapM_length _ _ _ Ht), combine_length. lia.
Qed.

Lemma idm_update_len p s sv : idm_update_speed (S := XR) p s = Ok sv ->
  exists cur, current_sim s = Ok cur /\ length sv = length cur /\ length cur = length (s_log s).
Proof.
  intros H. unfold idm_update_speed in H.
  apply bind_Ok in H as (cur & Hc & H). apply bind_Ok in H as ([] & Hg & H). apply bind_Ok in H as (trs & Ht & H).
  apply guard_Ok in Hg. apply Nat.eqb_eq in Hg. apply Ok_inj in H. exists cur. split; auto. subst sv.
  rewrite mapi_length, combine_length, (mapM_length _ _ _ Ht), combine_length. lia.
Qed.

(** The entry of object [i]. *)
Lemma idm_entry p s cur sv i x ok me :
  idm_update_speed (S := XR) p s = Ok sv -> current_sim s = Ok cur ->
  nth_error sv i = Some (x, ok) -> nth_error cur i = Some me ->
  ok = true /\ exists log tr, nth_error (s_log s) i = Some log /\ lookahead_traj (S := XR) p log me = Ok tr /\
    x = next_speed (S := XR) default_time_delta (obj_speed me) (object_accel p i tr cur me).
Proof.
  intros H Hc Hi Hm. destruct (idm_update_len _ _ _ H) as (cur' & Hc' & L1 & L2). rewrite Hc in Hc'. apply Ok_inj in Hc'. subst cur'.
  destruct (nth_error_lt_Some (s_log s) i) as [log Hl]. { apply nth_error_Some_lt in Hm. lia. }
  destruct (idm_update_nth p s cur sv Hc H i log me Hl Hm) as (tr & Ht & E). rewrite Hi in E.
  apply Some_inj in E. inversion E; subst. split; auto. exists log, tr. auto.
Qed.

Lemma idm_speed_bounds p v0 s0 th a b delta s cur sv i x ok me vx vy :
  idm_real p v0 s0 th a b delta ->
  idm_update_speed (S := XR) p s = Ok sv -> current_sim s = Ok cur ->
  nth_error sv i = Some (x, ok) -> nth_error cur i = Some me ->
  p_valid me = true -> p_vx me = Fin vx -> p_vy me = Fin vy ->
  exists r, x = Fin r /\ 0 <= r <= sqrt (vx * vx + vy * vy) + a * (1 / 10).
Proof.
  intros HI H Hc Hi Hm Vm Ex Ey. destruct (idm_entry _ _ _ _ _ _ _ _ H Hc Hi Hm) as (_ & log & tr & _ & _ & ->).
  unfold object_accel. destruct (@lead_finite i tr cur me) as (u & d & ->).
  assert (E : obj_speed (S := XR) me = Fin (sqrt (vx * vx + vy * vy))).
  { unfold obj_speed. rewrite Vm, Ex, Ey. apply norm2_Fin. }
  rewrite E. eapply idm_bounds; eauto. apply sqrt_pos.
Qed.

Section Scene.
  Variables (p : idm_params (S := XR)) (v0 s0 th a b delta D : R) (s : state (S := XR))
    (cur : list (pt (S := XR))) (sv : list (xr * bool)) (i : nat) (me : pt (S := XR)) (f : rframe).
  Hypothesis HI : idm_real p v0 s0 th a b delta.
  Hypothesis HL : lookahead_from_current_position p = true.
  Hypothesis HA : additional_lookahead_distance p = Fin D.
  Hypothesis HD : 0 <= D.
  Hypothesis Hu : idm_update_speed (S := XR) p s = Ok sv.
  Hypothesis Hc : current_sim s = Ok cur.
  Hypothesis Hfr : forall j q, nth_error cur j = Some q -> p_valid q = true -> exists g, is_frame q g.
  Hypothesis Hm : nth_error cur i = Some me.
  Hypothesis Vm : p_valid me = true.
  Hypothesis Fm : is_frame me f.

  Lemma idm_entry_scene : exists u d, leader cur D (additional_headway_points p) i u d /\
    nth_error sv i = Some (next_speed (S := XR) default_time_delta (Fin (rspeed f))
                             (idm_accel p (Fin (rspeed f)) (Fin u) (Fin d)), true).
  Proof.
    destruct (idm_update_len _ _ _ Hu) as (cur' & Hc' & L1 & L2). rewrite Hc in Hc'. apply Ok_inj in Hc'. subst cur'.
    destruct (nth_error_lt_Some sv i) as [[x ok] Hx]. { apply nth_error_Some_lt in Hm. change (@F XR) with xr in *. unfold F, XR in *. lia. }
    destruct (idm_entry _ _ _ _ _ _ _ _ Hu Hc Hx Hm) as (-> & log & tr & Hl & Ht & ->).
    rewrite (lookahead_checkpoints p log me D HL HA) in Ht. apply Ok_inj in Ht. subst tr.
    destruct (scene_leader cur D (additional_headway_points p) i me f HD Hm Vm Fm Hfr) as (u & d & Eo & Ld).
    exists u, d. split; auto. rewrite Hx. unfold object_accel. rewrite Eo.
    now rewrite (obj_speed_frame me f Fm Vm).
  Qed.

  Lemma idm_exact : exists u d, leader cur D (additional_headway_points p) i u d /\
    nth_error sv i = Some (Fin (Rmax 0 (rspeed f + (1 / 10) * idm_law v0 s0 th a b delta (rspeed f) u d)), true).
  Proof.
    destruct idm_entry_scene as (u & d & Ld & E). exists u, d. split; auto. rewrite E.
    rewrite (idm_next_real p v0 s0 th a b delta _ u d HI (rspeed_nonneg f)).
    unfold idm_next, idm_law. rewrite (interaction_leader s0 th a b _ u d (leader_signs _ _ _ _ _ _ HD Ld)).
    cbv zeta. do 3 f_equal. f_equal. lra.
  Qed.

  Lemma idm_free_road : (forall j k, ~ in_the_way cur D (additional_headway_points p) i j k) ->
    a * delta * (1 / 10) <= v0 ->
    exists r, nth_error sv i = Some (Fin r, true) /\
      r <= Rmax v0 (rspeed f) /\ (rspeed f <= v0 -> rspeed f <= r <= v0) /\ (v0 <= rspeed f -> r <= rspeed f).
  Proof.
    intros Hn Hs. destruct idm_entry_scene as (u & d & Ld & E).
    destruct Ld as [(_ & -> & ->)|(k0 & ((j & Hj) & _) & _)]; [|destruct (Hn j k0 Hj)].
    destruct (idm_free p v0 s0 th a b delta (rspeed f) (-1) (-1) HI (rspeed_nonneg f) (or_introl eq_refl) Hs) as (r & Er & K).
    exists r. rewrite E, Er. auto.
  Qed.

  Lemma idm_blocked k0 u : first_hit (in_the_way cur D (additional_headway_points p) i) k0 ->
    smallest (fun j => in_the_way cur D (additional_headway_points p) i j k0)
      (fun j r => exists q g, nth_error cur j = Some q /\ is_frame q g /\ r = rspeed g) u ->
    effective_gap (D * INR k0 / INR (additional_headway_points p)) <= wanted_gap s0 th a b (rspeed f) u ->
    exists r, nth_error sv i = Some (Fin r, true) /\ r <= rspeed f /\ (0 < rspeed f -> r < rspeed f).
  Proof.
    intros FH Su Hg. destruct idm_entry_scene as (u' & d & Ld & E).
    pose proof (leader_signs _ _ _ _ _ _ HD Ld) as Sg.
    destruct Ld as [(Hn & _)|(k1 & FH1 & Ed & Su1)]; [destruct FH as [(j & Hj) _]; destruct (Hn j k0 Hj)|].
    assert (k1 = k0).
    { destruct FH as [(j & Hj) Hb], FH1 as [(j1 & Hj1) Hb1]. destruct (Nat.lt_trichotomy k0 k1) as [L|[L|L]]; auto.
      - destruct (Hb1 k0 j L Hj).
      - destruct (Hb k1 j1 L Hj1). }
    subst k1.
    assert (u' = u).
    { destruct Su as [(j & Pj & Fj) C], Su1 as [(j1 & Pj1 & Fj1) C1].
      pose proof (C j1 u' Pj1 Fj1). pose proof (C1 j u Pj Fj). lra. }
    subst u'. rewrite <- Ed in Hg.
    assert (Hd : 0 <= d /\ 0 <= u).
    { destruct Su as [(j & Pj & (q & g & _ & _ & Eu)) _]. pose proof (rspeed_nonneg g). destruct Sg as [[? ?]|[? ?]]; lra. }
    destruct (idm_brakes p v0 s0 th a b delta (rspeed f) u d HI (rspeed_nonneg f)) as (r & Er & K); try tauto.
    exists r. rewrite E, Er. auto.
  Qed.
End Scene.
