(** C43: waypoint-following policies project on the logged route. *)
From Coq Require Import List ZArith Reals Lra Lia Bool.
From Verif.Lib Require Import Base JaxIndex Scalar XR.
From Verif.Model Require Import Operations State Dynamics Geometry Discretizer Metrics Actor Waypoint.
From Verif.Props Require Import ExR.
From Verif.Spec Require Import StateSpec GeomSpec WaypointSpec.
From Verif.Proofs Require Import P_Metrics P_IDM P_Lead P_IDMRun P_Waypoint.
From Verif.Props Require Import ExW.
Import ListNotations.
Open Scope R_scope.

(** The update of a valid object with at least one valid logged waypoint, for every
    waypoint-following policy (any rule [upd_speed] for the new speed v').  With q the
    point reached by straight motion and w the valid waypoint nearest to q:
    - the new heading is that of w;
    - before the end of the route the new position is the nearest point to q on the
      line through w along its heading, and the velocity is v' along the heading of
      the CURRENT frame;
    - at the end of the route, without invalidation: same position, velocity
      unchanged;
    - at the end of the route, with invalidation: slow objects are put on w with zero
      velocity, those above 1 m/s become invalid, filled with -1. *)
Theorem C43_projected_update inv upd_speed s ups sv cur i log me f v' k0 p0 :
  waypoint_update (S := XR) inv upd_speed s = Ok ups -> upd_speed s = Ok sv -> current_sim s = Ok cur ->
  nth_error (s_log s) i = Some log -> nth_error cur i = Some me -> nth_error sv i = Some (Fin v', true) ->
  p_valid me = true -> is_frame me f ->
  (forall j p, nth_error log j = Some p -> p_valid p = true -> exists w, is_way p w) ->
  nth_error log k0 = Some p0 -> p_valid p0 = true ->
  exists w u, nearest_waypoint log (straight f v') w /\ nth_error ups i = Some u /\
    (~ route_end log (straight f v') w ->
       exists x y, nearest_on_line (wx w) (wy w) (wyaw w) (straight f v') (x, y) /\
         u = mkupd (Fin x) (Fin y) (Fin (wyaw w)) (Fin (v' * cos (fyaw f))) (Fin (v' * sin (fyaw f))) true) /\
    (route_end log (straight f v') w -> inv = false ->
       exists x y, nearest_on_line (wx w) (wy w) (wyaw w) (straight f v') (x, y) /\
         u = mkupd (Fin x) (Fin y) (Fin (wyaw w)) (Fin (fvx f)) (Fin (fvy f)) true) /\
    (route_end log (straight f v') w -> inv = true -> v' <= 1 ->
       u = mkupd (Fin (wx w)) (Fin (wy w)) (Fin (wyaw w)) (Fin 0) (Fin 0) true) /\
    (route_end log (straight f v') w -> inv = true -> 1 < v' ->
       u = mkupd (Fin (-1)) (Fin (-1)) (Fin (-1)) (Fin (-1)) (Fin (-1)) false).
Proof. exact (waypoint_policy inv upd_speed s ups sv cur i log me f v' k0 p0). Qed.

(** The update of an invalid object is invalid and filled with -1. *)
Theorem C43_invalid_objects inv upd_speed s ups sv cur i me :
  waypoint_update (S := XR) inv upd_speed s = Ok ups -> upd_speed s = Ok sv -> current_sim s = Ok cur ->
  nth_error cur i = Some me -> p_valid me = false ->
  nth_error ups i = Some (mkupd (Fin (-1)) (Fin (-1)) (Fin (-1)) (Fin (-1)) (Fin (-1)) false).
Proof. exact (waypoint_invalid inv upd_speed s ups sv cur i me). Qed.

(** A policy that gives every object a speed updates every object. *)
Theorem C43_update_total {S : Scalar} n T inv upd_speed s sv :
  wf_state n T s -> upd_speed s = Ok sv -> length sv = n ->
  exists ups, waypoint_update (S := S) inv upd_speed s = Ok ups /\ length ups = n.
Proof. exact (waypoint_total n T inv upd_speed s sv). Qed.

(** The nearest point of a line to a point of that line is the point itself: on a
    straight stretch the object advances by exactly (v + v') / 2 * 0.1 s. *)
Theorem C43_straight_stretch wx0 wy0 yaw q p :
  on_line wx0 wy0 yaw q -> nearest_on_line wx0 wy0 yaw q p -> p = q.
Proof. exact (on_line_kept wx0 wy0 yaw q p). Qed.

(* ---------------- refuted expectations ---------------- *)

Definition way_pt (x yaw : R) : pt (S := XR) :=
  mkpt (Fin x) (Fin 0) (Fin 0) (Fin 0) (Fin 0) (Fin yaw) true 0%Z (Fin 4) (Fin 2) (Fin 1).
Lemma way_pt_way x yaw : is_way (way_pt x yaw) (mkway x 0 yaw).
Proof. repeat split. Qed.

(** A car heading along x at 10 m/s whose nearest waypoint heads along y. *)
Definition turn : state (S := XR) :=
  mkstate [[rpt 0 10; rpt 0 10]] [[way_pt 0 (PI / 2); way_pt 100 0]] []
    [mkmeta 1 1 true true true false false] 0 None None.

Lemma turn_ways j p : nth_error [way_pt 0 (PI / 2); way_pt 100 0] j = Some p -> p_valid p = true -> exists w, is_way p w.
Proof.
  destruct j as [|[|j]]; cbn; intros H _; [| |destruct j; discriminate]; apply Some_inj in H; subst p;
    eexists; apply way_pt_way.
Qed.

Lemma turn_straight : straight (wframe 0 10) 10 = (1, 0).
Proof.
  unfold straight. rewrite wframe_speed by lra. cbn [fx fy fyaw wframe]. rewrite cos_0, sin_0.
  cbv zeta. f_equal; field.
Qed.

Lemma turn_nearest w : nearest_waypoint [way_pt 0 (PI / 2); way_pt 100 0] (1, 0) w -> w = mkway 0 0 (PI / 2).
Proof.
  intros (k & p & Hk & _ & Hw & Hn).
  destruct k as [|[|k]]; cbn in Hk; [| |destruct k; discriminate]; apply Some_inj in Hk; subst p.
  - destruct Hw as (A & B & C). cbn in A, B, C. injection A as A. injection B as B. injection C as C. destruct w; simpl in *. now subst.
  - exfalso. destruct Hw as (A & B & C). cbn in A, B, C. injection A as A. injection B as B. injection C as C.
    destruct (Hn 0%nat (way_pt 0 (PI / 2)) (mkway 0 0 (PI / 2)) eq_refl eq_refl (way_pt_way _ _)) as [H _].
    destruct w as [x y a]; simpl in *. subst. unfold dist, wxy in H. cbn [fst snd wx wy] in H.
    apply sqrt_le_0 in H; lra.
Qed.

Lemma turn_not_end : ~ route_end [way_pt 0 (PI / 2); way_pt 100 0] (1, 0) (mkway 0 0 (PI / 2)).
Proof.
  assert (D1 : dist (1, 0) (wxy (mkway 0 0 (PI / 2))) = 1).
  { unfold dist, wxy. cbn [fst snd wx wy]. replace (_ + _) with 1 by ring. apply sqrt_1. }
  intros [(l & (k & p & Hk & _ & Hw & Hl) & Hd)|H]; [|rewrite D1 in H; lra].
  assert (k = 1%nat).
  { specialize (Hl 1%nat (way_pt 100 0) eq_refl eq_refl). destruct k as [|[|k]]; auto; try lia. destruct k; discriminate. }
  subst k. cbn in Hk. apply Some_inj in Hk. subst p. destruct Hw as (A & B & C). cbn in A, B, C.
  injection A as A. injection B as B. destruct l as [x y a]; simpl in *. subst.
  unfold dist, wxy in Hd. cbn [fst snd wx wy] in Hd.
  replace ((100 - 0) * (100 - 0) + (0 - 0) * (0 - 0)) with (100 * 100) in Hd by ring.
  rewrite sqrt_square in Hd; lra.
Qed.

(** Non-vacuity of the main theorem, and: the new velocity does not point along the new
    heading. *)
Theorem C43_velocity_along_heading_refuted : exists (s : state (S := XR)) ups x y yaw vx vy,
  constant_speed_policy (S := XR) (Fin 10) s = Ok ups /\
  nth_error ups 0 = Some (mkupd (Fin x) (Fin y) (Fin yaw) (Fin vx) (Fin vy) true) /\
  ~ (vx = 10 * cos yaw /\ vy = 10 * sin yaw).
Proof.
  assert (W : wf_state (S := XR) 1 2 turn).
  { repeat split; auto; intros r [<-|[]]; reflexivity. }
  destruct (C43_update_total 1 2 true (constant_update_speed (S := XR) (Fin 10)) turn _ W eq_refl eq_refl) as (ups & Hu & _).
  destruct (C43_projected_update true _ turn ups _ [rpt 0 10] 0 _ (rpt 0 10) (wframe 0 10) 10 0 (way_pt 0 (PI / 2))
    Hu eq_refl eq_refl eq_refl eq_refl eq_refl eq_refl (rpt_frame 0 10) turn_ways eq_refl eq_refl)
    as (w & u & Nw & Eu & A & _).
  rewrite turn_straight in Nw, A. apply turn_nearest in Nw. subst w. cbn [wx wy wyaw] in A.
  destruct (A turn_not_end) as (x & y & _ & ->). clear A.
  exists turn, ups, x, y, (PI / 2), (10 * cos (fyaw (wframe 0 10))), (10 * sin (fyaw (wframe 0 10))).
  split; [exact Hu|]. split; [exact Eu|]. cbn [fyaw wframe]. rewrite cos_0, cos_PI2. lra.
Qed.

(** An IDM object none of whose logged waypoints is valid is not invalidated: it is put
    on a line through the filler values of the log. *)
Theorem C43_no_valid_waypoint_invalidates_refuted : exists (s : state (S := XR)) ups u,
  (forall row p, In row (s_log s) -> In p row -> p_valid p = false) /\
  idm_policy (S := XR) default_idm s = Ok ups /\ nth_error ups 0 = Some u /\ u_valid u = true.
Proof.
  set (s := mkstate (S := XR) [[rpt 0 10]] [[invalid_pt]] [] [mkmeta 1 1 true true true false false] 0 None None).
  assert (W : wf_state (S := XR) 1 1 s).
  { repeat split; auto; intros r [<-|[]]; reflexivity. }
  destruct (idm_update_total 1 1 default_idm s W (or_introl eq_refl)) as (sv & Hs & Ls).
  destruct (C43_update_total 1 1 false (idm_update_speed (S := XR) default_idm) s sv W Hs Ls) as (ups & Hu & Lu).
  destruct (nth_error_lt_Some sv 0) as [[v ok] Hv]; [lia|].
  destruct (idm_entry default_idm s [rpt 0 10] sv 0 v ok (rpt 0 10) Hs eq_refl Hv eq_refl) as (-> & _).
  destruct (waypoint_nth _ _ _ _ _ [rpt 0 10] Hu Hs eq_refl 0%nat [invalid_pt] (rpt 0 10) v true eq_refl eq_refl Hv)
    as (p & Hp & Eu).
  exists s, ups. eexists. split; [|split; [exact Hu|split; [exact Eu|]]].
  - intros row q [<-|[]] [<-|[]]. reflexivity.
  - unfold next_by_projection in Hp. apply bind_Ok in Hp as (((xy & yaw) & reached) & _ & Hp).
    cbn [andb p_valid rpt negb] in Hp. apply Ok_inj in Hp. subst p. reflexivity.
Qed.

(** Non-vacuity: a fast constant-speed object at its last waypoint is invalidated. *)
Example C43_end_example : exists ups,
  constant_speed_policy (S := XR) (Fin 10) (scene [(0, 10)]) = Ok ups /\
  nth_error ups 0 = Some (mkupd (Fin (-1)) (Fin (-1)) (Fin (-1)) (Fin (-1)) (Fin (-1)) false).
Proof.
  assert (W : wf_state (S := XR) 1 1 (scene [(0, 10)])) by (apply (scene_wf [(0, 10)]); discriminate).
  destruct (C43_update_total 1 1 true (constant_update_speed (S := XR) (Fin 10)) _ _ W eq_refl eq_refl) as (ups & Hu & _).
  assert (WP : is_way (rpt 0 10) (mkway 0 0 0)) by (repeat split).
  destruct (C43_projected_update true _ _ ups _ [rpt 0 10] 0 [rpt 0 10] (rpt 0 10) (wframe 0 10) 10 0 (rpt 0 10)
    Hu eq_refl eq_refl eq_refl eq_refl eq_refl eq_refl (rpt_frame 0 10))
    as (w & u & Nw & Eu & _ & _ & _ & D); auto.
  { intros [|[|j]] p Hj _; try discriminate. apply Some_inj in Hj. subst p. eauto. }
  exists ups. split; [exact Hu|]. rewrite Eu. f_equal. apply D; auto; [|lra].
  destruct Nw as (k & p & Hk & Vk & Hw & _). left. exists w. split.
  - exists k, p. repeat (split; auto). intros [|[|j]] p' Hj _; try discriminate. lia.
  - assert (Z : dist (wxy w) (wxy w) = 0) by now apply dist_zero. rewrite Z. lra.
Qed.

Print Assumptions C43_projected_update.
Print Assumptions C43_invalid_objects.
Print Assumptions C43_update_total.
Print Assumptions C43_straight_stretch.
Print Assumptions C43_velocity_along_heading_refuted.
Print Assumptions C43_no_valid_waypoint_invalidates_refuted.
