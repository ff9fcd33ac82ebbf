(** Scenes over the reals for the waypoint-following properties: cars of 4 m by 2 m on
    the x axis. *)
From Coq Require Import List ZArith Reals Lra Lia Bool.
From Verif.Lib Require Import Base JaxIndex Scalar XR.
From Verif.Model Require Import Operations State Dynamics Waypoint.
From Verif.Props Require Import ExR.
From Verif.Spec Require Import StateSpec GeomSpec WaypointSpec.
From Verif.Proofs Require Import P_Metrics.
Import ListNotations.
Open Scope R_scope.

Definition wframe (x v : R) : rframe := mkrf x 0 0 v 0 0 4 2.
Lemma rpt_frame x v : is_frame (rpt x v) (wframe x v).
Proof. repeat split. Qed.
Lemma wframe_speed x v : 0 <= v -> rspeed (wframe x v) = v.
Proof.
  intros H. unfold rspeed; simpl. replace (v * v + 0 * 0) with (v * v) by ring. now apply sqrt_square.
Qed.

(** A one-step scenario with cars at given positions and speeds. *)
Definition cars (l : list (R * R)) : list (pt (S := XR)) := map (fun q => rpt (fst q) (snd q)) l.
Definition scene (l : list (R * R)) : state (S := XR) :=
  mkstate (map (fun p => [p]) (cars l)) (map (fun p => [p]) (cars l)) []
    (map (fun _ => mkmeta 1 1 true true true false false) l) 0 None None.

Lemma scene_wf l : l <> [] -> wf_state (length l) 1 (scene l).
Proof.
  intros H. unfold wf_state, scene, rect, cars. cbn [s_sim s_log s_meta]. rewrite !map_length.
  repeat split; auto; try (intros r Hr; apply in_map_iff in Hr as (? & <- & _); reflexivity).
  destruct l; [congruence|simpl; lia].
Qed.
Lemma scene_cur l : current_sim (scene l) = Ok (cars l).
Proof.
  unfold current_sim, scene. cbn [s_sim s_t]. unfold dynamic_index, cars.
  induction l as [|q l IH]; [reflexivity|]. cbn [map mapM]. rewrite IH. reflexivity.
Qed.
Lemma cars_frames l j p : nth_error (cars l) j = Some p -> p_valid p = true -> exists g, is_frame p g.
Proof.
  unfold cars. rewrite nth_error_map. destruct (nth_error l j) as [q|]; [|discriminate].
  intros H _. apply Some_inj in H. subst p. eexists. apply rpt_frame.
Qed.

(** Two cars of the scene overlap when the first is moved by [d] iff their centres are
    less than 4 m apart. *)
Lemma ahead_overlap x v y w d :
  (exists q, interior (advanced (wframe x v) d) q /\ interior (advanced (wframe y w) 0) q) <->
  Rabs (x + d - y) < 4.
Proof.
  unfold interior, advanced, rpoint; cbn [wframe fx fy fyaw flen fwid rx ry rlen rwid ryaw].
  rewrite cos_0, sin_0. rewrite (Rabs_pos_eq 4), (Rabs_pos_eq 2) by lra. split.
  - intros (q & (u & w1 & A1 & A2 & E1) & (u' & w1' & B1 & B2 & E2)). rewrite E1 in E2.
    apply pair_equal_spec in E2 as [E2 _]. apply Rabs_def2 in A1, B1. apply Rabs_def1; lra.
  - intros H. apply Rabs_def2 in H. exists ((x + d + y) / 2, 0). split.
    + exists ((y - x - d) / 2), 0. rewrite Rabs_R0. repeat split; try lra.
      * apply Rabs_def1; lra.
      * f_equal; field.
    + exists ((x + d - y) / 2), 0. rewrite Rabs_R0. repeat split; try lra.
      * apply Rabs_def1; lra.
      * f_equal; field.
Qed.

Lemma scene_in_the_way l D N i j k x v y w : nth_error l i = Some (x, v) -> nth_error l j = Some (y, w) ->
  in_the_way (cars l) D N i j k <-> (k <= N)%nat /\ j <> i /\ Rabs (x + D * INR k / INR N - y) < 4.
Proof.
  intros Hi Hj. unfold in_the_way, obstructs.
  assert (Ci : nth_error (cars l) i = Some (rpt x v)) by (unfold cars; rewrite nth_error_map, Hi; reflexivity).
  assert (Cj : nth_error (cars l) j = Some (rpt y w)) by (unfold cars; rewrite nth_error_map, Hj; reflexivity).
  split.
  - intros (A & B & pi & pj & fi & fj & E1 & E2 & _ & _ & F1 & F2 & Q). repeat split; auto.
    rewrite Ci in E1. rewrite Cj in E2. apply Some_inj in E1, E2. subst.
    destruct fi as [a1 a2 a3 a4 a5 a6 a7 a8], fj as [b1 b2 b3 b4 b5 b6 b7 b8].
    destruct F1 as (X1 & X2 & X3 & X4 & X5 & X6 & X7 & X8), F2 as (Y1 & Y2 & Y3 & Y4 & Y5 & Y6 & Y7 & Y8).
    simpl in X1, X2, X3, X4, X5, X6, X7, X8, Y1, Y2, Y3, Y4, Y5, Y6, Y7, Y8.
    injection X1 as <-; injection X2 as <-; injection X3 as <-; injection X4 as <-; injection X5 as <-;
      injection X6 as <-; injection X7 as <-; injection X8 as <-.
    injection Y1 as <-; injection Y2 as <-; injection Y3 as <-; injection Y4 as <-; injection Y5 as <-;
      injection Y6 as <-; injection Y7 as <-; injection Y8 as <-.
    apply (ahead_overlap x v y w). exact Q.
  - intros (A & B & C). repeat split; auto. exists (rpt x v), (rpt y w), (wframe x v), (wframe y w).
    repeat (split; [solve [auto using rpt_frame]|]). now apply ahead_overlap.
Qed.

Lemma default_idm_real : idm_real default_idm 30 2 2 2 4 4.
Proof.
  split; try lra; unfold default_idm; cbn [desired_vel min_spacing_s0 safe_time_headway max_accel max_decel idm_delta];
    rewrite flit_Fin; f_equal; lra.
Qed.
Lemma default_idm_distance : additional_lookahead_distance (S := XR) default_idm = Fin 10.
Proof. unfold default_idm. cbn [additional_lookahead_distance]. rewrite flit_Fin. f_equal. lra. Qed.
