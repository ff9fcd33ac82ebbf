(** C25: the overlap metric. *)
From Coq Require Import Reals ZArith List Bool Lra.
From Verif.Lib Require Import Base Scalar XR.
From Verif.Model Require Import State Geometry Discretizer Comfort Metrics.
From Verif.Spec Require Import StateSpec GeomSpec DiscSpec MetricSpec.
From Verif.Proofs Require Import P_Overlap P_Metrics.
From Verif.Props Require Import C24 ExM.
Import ListNotations.
Open Scope R_scope.

(** It never fails. *)
Theorem C25_total {S : Scalar} n T s : wf_state n T s -> exists ms, overlap_compute s = Ok ms.
Proof. exact (overlap_total n T s). Qed.

(** Over the reals: the value of object j is 1 when some other object that is valid
    at the current step has an interior point in common with j's box, and 0
    otherwise; the result is valid exactly when j is. *)
Theorem C25_overlap_metric n T (s : state (S := XR)) t ms j p (bx : nat -> rbox) :
  wf_state n T s -> s_t s = Z.of_nat t -> (t < T)%nat -> overlap_compute s = Ok ms ->
  (forall i q, at2 (s_sim s) i t = Some q -> has_box q (bx i)) ->
  at2 (s_sim s) j t = Some p ->
  let hit := exists i, i <> j /\ sim_valid s i t /\ exists c, interior (bx i) c /\ interior (bx j) c in
  exists v, nth_error ms j = Some (mkmres (Fin v) (p_valid p)) /\ (hit -> v = 1) /\ (~ hit -> v = 0).
Proof. exact (overlap_metric_real n T s t ms j p bx). Qed.

(** For every number type: one result per object, and the same characterisation in
    terms of the exact box test of C24. *)
Theorem C25_overlap_metric_any_numbers {S : Scalar} n T s t ms j p :
  (wf_state n T s -> s_t s = Z.of_nat t -> t < T -> overlap_compute s = Ok ms ->
  at2 (s_sim s) j t = Some p ->
  length ms = n /\
  exists b, nth_error ms j = Some (mkmres (fbool b) (p_valid p)) /\
    (b = true <-> exists i q, i <> j /\ at2 (s_sim s) i t = Some q /\ p_valid q = true /\
       has_overlap (pt_box q) (pt_box p) = true))%nat.
Proof. exact (overlap_metric n T s t ms j p). Qed.

(** Two valid overlapping objects are reported together, for all inputs including
    infinities and NaN. *)
Theorem C25_reported_together n T (s : state (S := XR)) t ms i j p q :
  wf_state n T s -> s_t s = Z.of_nat t -> (t < T)%nat -> overlap_compute s = Ok ms -> i <> j ->
  at2 (s_sim s) i t = Some p -> at2 (s_sim s) j t = Some q ->
  p_valid p = true -> p_valid q = true -> has_overlap (pt_box p) (pt_box q) = true ->
  nth_error ms i = Some (mkmres (Fin 1) true) /\ nth_error ms j = Some (mkmres (Fin 1) true).
Proof. exact (overlap_mutual n T s t ms i j p q). Qed.

(** Cars 0 and 1 overlap; the invalid object 2 at the place of car 0 is flagged as
    invalid with value 1. *)
Example C25_example : exists ms, overlap_compute car_state = Ok ms /\
  nth_error ms 0 = Some (mkmres (Fin 1) true) /\ nth_error ms 1 = Some (mkmres (Fin 1) true) /\
  nth_error ms 2 = Some (mkmres (Fin 1) false).
Proof.
  destruct (C25_total 3 1 car_state car_wf) as [ms H]. exists ms. split; [exact H|].
  assert (O : has_overlap (S := XR) (pt_box (bpt 0 0 0 true)) (pt_box (bpt 2 1 (PI / 2) true)) = true) by exact C24_example_overlap.
  destruct (C25_reported_together 3 1 car_state 0 ms 0 1 _ _ car_wf eq_refl (le_n 1) H
     (O_S 0) eq_refl eq_refl eq_refl eq_refl O) as [A B].
  split; [exact A|]. split; [exact B|].
  destruct (overlap_metric_real 3 1 car_state 0 ms 2 (bpt 0 0 0 false)
    (fun i => match i with 1%nat => mkrbox 2 1 4 2 (PI / 2) | _ => mkrbox 0 0 4 2 0 end) car_wf eq_refl (le_n 1) H) as (v & E & V & _).
  - intros [|[|[|i]]] q Hq; try (injection Hq as <-; apply bpt_box). destruct i; discriminate.
  - reflexivity.
  - rewrite E. rewrite V; [reflexivity|]. exists 1%nat. split; [discriminate|]. split; [eexists; split; reflexivity|].
    apply overlap_exact. rewrite overlap_sym. exact C24_example_overlap.
Qed.

Print Assumptions C25_total.
Print Assumptions C25_overlap_metric.
Print Assumptions C25_overlap_metric_any_numbers.
Print Assumptions C25_reported_together.
