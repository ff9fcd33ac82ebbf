(** C28: the route metrics of the SDC. *)
From Coq Require Import Reals ZArith List Bool Lra Lia.
From Verif.Lib Require Import Base Scalar XR.
From Verif.Model Require Import State Comfort Metrics.
From Verif.Spec Require Import StateSpec GeomSpec MetricSpec.
From Verif.Proofs Require Import P_Metrics P_Route P_MetricsRun.
From Verif.Props Require Import ExM.
Import ListNotations.
Open Scope R_scope.

(** Wrong-way: invalid with value 0 when no path has a valid point; otherwise 0
    when the SDC is closer than 3.5 m to the nearest valid point of any path, else
    that distance. *)
Theorem C28_wrongway n T (s : state (S := XR)) t i p x paths m :
  wf_state n T s -> s_t s = Z.of_nat t -> (t < T)%nat -> the_sdc (s_meta s) i ->
  finite_xy (s_sim s) t -> at2 (s_sim s) i t = Some p -> has_xy p x ->
  s_paths s = Some paths -> finite_paths paths -> wrongway_compute s = Ok m ->
  (~ (exists c, on_paths paths c) /\ m = mkmres (Fin 0) false) \/
  (exists d, nearest_dist (on_paths paths) x d /\ mr_valid m = true /\
     (d < 7 / 2 -> mr_value m = Fin 0) /\ (7 / 2 <= d -> mr_value m = Fin d)).
Proof. exact (wrongway_metric n T s t i p x paths m). Qed.

(** Off-route: invalid with value 0 when the SDC is invalid or no on-route path has
    a valid point; otherwise the distance d to the route when d > 5, or when the
    off-route paths are more than 2 m closer, else 0. *)
Theorem C28_off_route n T (s : state (S := XR)) t i p x paths m :
  wf_state n T s -> s_t s = Z.of_nat t -> (t < T)%nat -> the_sdc (s_meta s) i ->
  finite_xy (s_sim s) t -> at2 (s_sim s) i t = Some p -> has_xy p x ->
  s_paths s = Some paths -> finite_paths paths -> off_route_compute s = Ok m ->
  ((p_valid p = false \/ ~ exists c, on_paths_with true paths c) /\ m = mkmres (Fin 0) false) \/
  (p_valid p = true /\ mr_valid m = true /\
   exists d, nearest_dist (on_paths_with true paths) x d /\
     let off_route := 5 < d \/ exists d', nearest_dist (on_paths_with false paths) x d' /\ 2 < d - d' in
     (off_route -> mr_value m = Fin d) /\ (~ off_route -> mr_value m = Fin 0)).
Proof. exact (off_route_metric n T s t i p x paths m). Qed.

(** Neither reports a small non-zero value. *)
Theorem C28_wrongway_threshold n T (s : state (S := XR)) t i p x paths m :
  wf_state n T s -> s_t s = Z.of_nat t -> (t < T)%nat -> the_sdc (s_meta s) i ->
  finite_xy (s_sim s) t -> at2 (s_sim s) i t = Some p -> has_xy p x ->
  s_paths s = Some paths -> finite_paths paths -> wrongway_compute s = Ok m ->
  mr_value m = Fin 0 \/ exists d, mr_value m = Fin d /\ 7 / 2 <= d.
Proof. exact (wrongway_threshold n T s t i p x paths m). Qed.
Theorem C28_off_route_threshold n T (s : state (S := XR)) t i p x paths m :
  wf_state n T s -> s_t s = Z.of_nat t -> (t < T)%nat -> the_sdc (s_meta s) i ->
  finite_xy (s_sim s) t -> at2 (s_sim s) i t = Some p -> has_xy p x ->
  s_paths s = Some paths -> finite_paths paths -> off_route_compute s = Ok m ->
  mr_value m = Fin 0 \/ exists d, mr_value m = Fin d /\ 2 < d.
Proof. exact (off_route_threshold n T s t i p x paths m). Qed.

(** Progression: invalid with value 0 when the SDC is invalid or no on-route path
    has a valid point.  Otherwise the reference is the first on-route path with a
    valid point nearest to the SDC, and the value is affine in the arc length of the
    path point nearest to the SDC: 0 at the point nearest to the first logged
    position, 1 at the point nearest to the last one (1 throughout if they agree). *)
Theorem C28_progression n T (s : state (S := XR)) t i p x l0 x0 l1 x1 paths m :
  wf_state n T s -> s_t s = Z.of_nat t -> (t < T)%nat -> the_sdc (s_meta s) i ->
  finite_xy (s_sim s) t -> finite_xy (s_log s) 0 -> finite_xy (s_log s) (T - 1) ->
  at2 (s_sim s) i t = Some p -> has_xy p x ->
  at2 (s_log s) i 0 = Some l0 -> has_xy l0 x0 -> at2 (s_log s) i (T - 1) = Some l1 -> has_xy l1 x1 ->
  s_paths s = Some paths -> finite_paths paths -> finite_arcs paths -> progression_compute s = Ok m ->
  ((p_valid p = false \/ ~ exists c, on_paths_with true paths c) /\ m = mkmres (Fin 0) false) \/
  (p_valid p = true /\ mr_valid m = true /\
   exists k pa d a0 a1 a, nth_error paths k = Some pa /\ path_on_route pa = true /\
     nearest_dist (on_paths_with true paths) x d /\ nearest_dist (path_points pa) x d /\
     (forall j pb, (j < k)%nat -> nth_error paths j = Some pb -> path_on_route pb = true ->
        forall c, path_points pb c -> d < dist x c) /\
     nearest_arc (path_pts pa) x0 a0 /\ nearest_arc (path_pts pa) x1 a1 /\ nearest_arc (path_pts pa) x a /\
     (a0 = a1 -> mr_value m = Fin 1) /\ (a0 <> a1 -> mr_value m = Fin ((a - a0) / (a1 - a0)))).
Proof. exact (progression_metric n T s t i p x l0 x0 l1 x1 paths m). Qed.

Theorem C28_progression_at_ends n T (s : state (S := XR)) t i p x l0 x0 l1 x1 paths m :
  wf_state n T s -> s_t s = Z.of_nat t -> (t < T)%nat -> the_sdc (s_meta s) i ->
  finite_xy (s_sim s) t -> finite_xy (s_log s) 0 -> finite_xy (s_log s) (T - 1) ->
  at2 (s_sim s) i t = Some p -> has_xy p x ->
  at2 (s_log s) i 0 = Some l0 -> has_xy l0 x0 -> at2 (s_log s) i (T - 1) = Some l1 -> has_xy l1 x1 ->
  s_paths s = Some paths -> finite_paths paths -> finite_arcs paths -> progression_compute s = Ok m ->
  mr_valid m = true ->
  (x = x1 -> mr_value m = Fin 1) /\ (x = x0 -> mr_value m = Fin 0 \/ mr_value m = Fin 1).
Proof. exact (progression_ends n T s t i p x l0 x0 l1 x1 paths m). Qed.

(** Scaling and shifting all arc lengths does not change it. *)
Theorem C28_progression_scale_free n T (s : state (S := XR)) t i p x l0 x0 l1 x1 paths m m' al be :
  wf_state n T s -> s_t s = Z.of_nat t -> (t < T)%nat -> the_sdc (s_meta s) i ->
  finite_xy (s_sim s) t -> finite_xy (s_log s) 0 -> finite_xy (s_log s) (T - 1) ->
  at2 (s_sim s) i t = Some p -> has_xy p x ->
  at2 (s_log s) i 0 = Some l0 -> has_xy l0 x0 -> at2 (s_log s) i (T - 1) = Some l1 -> has_xy l1 x1 ->
  s_paths s = Some paths -> finite_paths paths -> finite_arcs paths -> al <> 0 ->
  progression_compute s = Ok m ->
  progression_compute (mkstate (s_sim s) (s_log s) (s_tls s) (s_meta s) (s_t s)
     (Some (map_arc (fun a => al * a + be) paths)) (s_rg s)) = Ok m' ->
  m' = m.
Proof. exact (progression_affine n T s t i p x l0 x0 l1 x1 paths m m' al be). Qed.

(** Without route data all three raise. *)
Theorem C28_no_paths {S : Scalar} n T s : wf_state n T s -> s_paths s = None ->
  progression_compute s = Err ValueError /\ off_route_compute s = Err ValueError /\
  exists e, wrongway_compute s = Err e.
Proof. exact (route_no_paths n T s). Qed.

(** Documented "progression is non-negative": it does not hold for an SDC behind its
    logged start. *)
Theorem C28_progression_nonnegative_refuted : exists (s : state (S := XR)) m v,
  wf_state 1 2 s /\ progression_compute s = Ok m /\ mr_valid m = true /\ mr_value m = Fin v /\ v < 0.
Proof.
  exists (route_state (-5) 0).
  destruct route_fin as [FP FA].
  assert (E : exists m, progression_compute (route_state (-5) 0) = Ok m) by (eexists; reflexivity).
  destruct E as [m E]. exists m, (- (1 / 2)). split; [apply route_wf|]. split; [exact E|].
  destruct (C28_progression 1 2 (route_state (-5) 0) 0 0 _ (-5, 0) _ (0, 0) _ (10, 0) route m (route_wf _ _) eq_refl
    ltac:(lia) (route_sdc _ _) (route_fx _ _) (route_fl _ _ _) (route_fl _ _ _) eq_refl (bpt_xy _ _ _ _)
    eq_refl (bpt_xy _ _ _ _) eq_refl (bpt_xy _ _ _ _) eq_refl FP FA E)
    as [[[A|A] _]|(_ & V & k & pa & d & a0 & a1 & a & Hk & OR & _ & _ & _ & N0 & N1 & Na & _ & W)].
  - discriminate.
  - exfalso. apply A. exists (0, 0). eexists. exists (ppt 0 0 5). split; [left; reflexivity|].
    split; [reflexivity|]. split; [right; left; reflexivity|]. repeat split.
  - split; [exact V|]. destruct k as [|[|k]]; [injection Hk as <-|injection Hk as <-; discriminate|destruct k; discriminate].
    cbn [path_pts] in *.
    assert (Q : forall x k c a, (k < 3)%nat ->
       nth_error [ppt (-5) 0 0; ppt 0 0 5; ppt 10 0 15] k = Some (ppt c 0 a) ->
       (forall j c' a', nth_error [ppt (-5) 0 0; ppt 0 0 5; ppt 10 0 15] j = Some (ppt c' 0 a') ->
          Rabs (x - c) <= Rabs (x - c') /\ ((j < k)%nat -> Rabs (x - c) < Rabs (x - c'))) ->
       nearest_arc [ppt (-5) 0 0; ppt 0 0 5; ppt 10 0 15] (x, 0) a).
    { intros x k c b _ Hc M. exists k, (ppt c 0 b), (c, 0). split; [exact Hc|].
      split; [reflexivity|]. split; [split; reflexivity|]. split; [reflexivity|].
      intros j q' [cx cy] Hj _ [X Y]. rewrite dist_x.
      destruct j as [|[|[|j]]]; try (destruct j; discriminate); injection Hj as <-; cbn in X, Y;
        injection X as <-; injection Y as <-; rewrite dist_x; eapply M; reflexivity. }
    assert (B : nearest_arc [ppt (-5) 0 0; ppt 0 0 5; ppt 10 0 15] (-5, 0) 0).
    { apply (Q (-5) 0%nat (-5)); [lia|reflexivity|]. intros j c' a' Hj. split; [|lia].
      replace (-5 - -5) with 0 by ring. rewrite Rabs_R0. apply Rabs_pos. }
    assert (B0 : nearest_arc [ppt (-5) 0 0; ppt 0 0 5; ppt 10 0 15] (0, 0) 5).
    { apply (Q 0 1%nat 0); [lia|reflexivity|]. intros j c' a' Hj.
      replace (0 - 0) with 0 by ring. rewrite Rabs_R0. split; [apply Rabs_pos|]. intros L.
      destruct j; [|lia]. injection Hj as <- <-. apply Rabs_pos_lt. lra. }
    assert (B1 : nearest_arc [ppt (-5) 0 0; ppt 0 0 5; ppt 10 0 15] (10, 0) 15).
    { apply (Q 10 2%nat 10); [lia|reflexivity|]. intros j c' a' Hj.
      replace (10 - 10) with 0 by ring. rewrite Rabs_R0. split; [apply Rabs_pos|]. intros L.
      destruct j as [|[|j]]; [| |lia]; injection Hj as <- <-; apply Rabs_pos_lt; lra. }
    rewrite (nearest_arc_fun _ _ _ _ Na B), (nearest_arc_fun _ _ _ _ N0 B0), (nearest_arc_fun _ _ _ _ N1 B1) in W.
    split; [|lra]. rewrite W by lra. f_equal. field.
Qed.

(** The hypotheses hold for an SDC at (x, 0) on the example route; all three metrics
    are computed. *)
Example C28_example x :
  wf_state 1 2 (route_state x 0) /\ the_sdc (s_meta (route_state x 0)) 0 /\
  finite_xy (s_sim (route_state x 0)) 0 /\ finite_paths route /\ finite_arcs route /\
  (exists m, wrongway_compute (route_state x 0) = Ok m) /\
  (exists m, off_route_compute (route_state x 0) = Ok m) /\
  (exists m, progression_compute (route_state x 0) = Ok m).
Proof.
  split; [apply route_wf|]. split; [apply route_sdc|]. split; [apply route_fx|].
  split; [apply route_fin|]. split; [apply route_fin|].
  split; [eexists; reflexivity|]. split; eexists; reflexivity.
Qed.

Print Assumptions C28_wrongway.
Print Assumptions C28_off_route.
Print Assumptions C28_wrongway_threshold.
Print Assumptions C28_off_route_threshold.
Print Assumptions C28_progression.
Print Assumptions C28_progression_at_ends.
Print Assumptions C28_progression_scale_free.
Print Assumptions C28_no_paths.
Print Assumptions C28_progression_nonnegative_refuted.
