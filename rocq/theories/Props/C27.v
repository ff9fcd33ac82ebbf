(** C27: the off-road metric. *)
From Coq Require Import Reals ZArith List Bool Lra Lia.
From Verif.Lib Require Import Base Scalar XR.
From Verif.Model Require Import State Geometry Discretizer Comfort Metrics.
From Verif.Spec Require Import StateSpec GeomSpec DiscSpec MetricSpec.
From Verif.Proofs Require Import P_Metrics P_Offroad.
From Verif.Props Require Import ExM.
Import ListNotations.
Open Scope R_scope.

(** On a map with at least one valid road edge point: 1 when some corner of the box
    (at the height of its centre) lies strictly to the right of its nearest road
    edge, 0 otherwise; always reported as valid. *)
Theorem C27_offroad_metric n T (s : state (S := XR)) t es ms j p b z :
  wf_state n T s -> s_t s = Z.of_nat t -> (t < T)%nat -> s_rg s = Some (map fedge es) ->
  (exists e, In e es /\ is_edge e) ->
  offroad_compute s = Ok ms -> at2 (s_sim s) j t = Some p -> has_box p b -> p_z p = Fin z ->
  let off := exists c, corner_of b c /\ off_road es (c, z) in
  exists v, nth_error ms j = Some (mkmres (Fin v) true) /\ (off -> v = 1) /\ (~ off -> v = 0).
Proof. exact (offroad_metric n T s t es ms j p b z). Qed.

(** For every number type and every map: every result is 0 or 1 and valid, also
    those of objects that do not exist. *)
Theorem C27_always_valid {S : Scalar} s ms : offroad_compute s = Ok ms ->
  Forall (fun m => mr_valid m = true /\ (mr_value m = f0 \/ mr_value m = f1)) ms.
Proof. exact (offroad_always_valid s ms). Qed.

(** It is computed for every state with a non-empty map, and fails without one. *)
Theorem C27_total {S : Scalar} n T s rg : wf_state n T s -> s_rg s = Some rg ->
  (rg <> [] -> exists ms, offroad_compute s = Ok ms /\ length ms = n) /\
  (rg = [] -> exists e, offroad_compute s = Err e).
Proof. exact (offroad_total n T s rg). Qed.

(** Expected: a map without road edges has no off-road positions.  It does not
    hold: the first map point, here a lane centre, is used as the nearest edge. *)
Theorem C27_no_edge_no_offroad_refuted : exists (s : state (S := XR)) es ms m,
  wf_state 1 1 s /\ s_rg s = Some (map fedge es) /\ (forall e, In e es -> ~ is_edge e) /\
  offroad_compute s = Ok ms /\ nth_error ms 0 = Some m /\ mr_value m = Fin 1.
Proof. exact offroad_no_edge. Qed.

(** A road edge along the y axis, driving direction upwards: a car 10 m to its
    left is on the road, a car 10 m to its right is not. *)
Definition edges : list redge :=
  [mkre (0, 0, 0) (0, 1, 0) 2 4 true; mkre (0, 0, 0) (0, 1, 0) 15 7 true; mkre (0, 1, 0) (0, 1, 0) 15 7 true].
Definition edge_state (x : R) : state (S := XR) :=
  mkstate [[bpt x 0 0 true]] [[bpt x 0 0 true]] [] [bmeta true] 0 None (Some (map fedge edges)).
Lemma edge_wf x : wf_state 1 1 (edge_state x).
Proof.
  split; [split; [reflexivity | intros r [<-|[]]; reflexivity]|].
  split; [split; [reflexivity | intros r [<-|[]]; reflexivity]|].
  repeat split; auto with arith.
Qed.
Lemma edge_right q : off_road edges q -> 0 < fst (fst q).
Proof.
  destruct q as [[x y] z]. intros (k & e & ep & Hk & _ & _ & _ & R & _).
  destruct k as [|[|[|k]]]; try (destruct k; discriminate); injection Hk as <-; simpl in R; simpl; lra.
Qed.
Lemma edge_right' x z : 0 < x -> off_road edges ((x, -1), z).
Proof.
  intros H. exists 1%nat. eexists. eexists. split; [reflexivity|]. split; [reflexivity|].
  split; [split; auto|]. split; [|split; [simpl; lra|simpl; intros; lra]].
  intros j e' Hj [_ Te]. destruct j as [|[|[|j]]]; try (destruct j; discriminate); injection Hj as <-; simpl in *.
  - lia.
  - split; [lra|lia].
  - split; [lra|lia].
Qed.
Example C27_example : exists m0 m1,
  offroad_compute (edge_state (-10)) = Ok [m0] /\ m0 = mkmres (Fin 0) true /\
  offroad_compute (edge_state 10) = Ok [m1] /\ m1 = mkmres (Fin 1) true.
Proof.
  assert (HE : exists e, In e edges /\ is_edge e).
  { eexists. split; [right; left; reflexivity|]. split; auto. }
  assert (K : forall x, exists ms, offroad_compute (edge_state x) = Ok ms /\ length ms = 1%nat).
  { intros x. destruct (C27_total 1 1 (edge_state x) _ (edge_wf x) eq_refl) as [A _]. apply A. discriminate. }
  destruct (K (-10)) as ([|m0 [|]] & H0 & L0); try discriminate.
  destruct (K 10) as ([|m1 [|]] & H1 & L1); try discriminate.
  exists m0, m1. split; [exact H0|].
  destruct (C27_offroad_metric 1 1 _ 0 edges _ 0 _ _ 0 (edge_wf (-10)) eq_refl (le_n 1) eq_refl HE H0 eq_refl
     (bpt_box _ _ _ _) eq_refl) as (v & E & _ & V).
  injection E as ->. split.
  { rewrite V; auto. intros (c & (u & w & Hu & Hw & ->) & O). apply edge_right in O. simpl in O, Hu, Hw.
    rewrite cos_0, sin_0 in O. destruct Hu as [-> | ->]; lra. }
  split; [exact H1|].
  destruct (C27_offroad_metric 1 1 _ 0 edges _ 0 _ _ 0 (edge_wf 10) eq_refl (le_n 1) eq_refl HE H1 eq_refl
     (bpt_box _ _ _ _) eq_refl) as (v' & E & V' & _).
  injection E as ->. rewrite V'; auto. exists (12, -1). split.
  - exists 2, (-1). split; [left; simpl; lra|]. split; [right; simpl; lra|].
    unfold rpoint; cbn [rx ry ryaw]. rewrite cos_0, sin_0. f_equal; lra.
  - apply edge_right'. lra.
Qed.

Print Assumptions C27_offroad_metric.
Print Assumptions C27_always_valid.
Print Assumptions C27_total.
Print Assumptions C27_no_edge_no_offroad_refuted.
