(** Concrete states over the reals for the metric examples. *)
From Coq Require Import Reals ZArith List Bool Lra Lia.
From Verif.Lib Require Import Base Scalar XR.
From Verif.Model Require Import State.
From Verif.Spec Require Import StateSpec GeomSpec DiscSpec MetricSpec.
From Verif.Proofs Require Import P_Route.
Import ListNotations.
Open Scope R_scope.

(** A 4 m x 2 m box. *)
Definition bpt (x y yaw : R) (v : bool) : pt (S := XR) :=
  mkpt (S := XR) (Fin x) (Fin y) (Fin 0) (Fin 0) (Fin 0) (Fin yaw) v 0%Z (Fin 4) (Fin 2) (Fin 1).
Definition bmeta (sdc : bool) : meta := mkmeta 1 1 sdc true true false false.

Lemma bpt_box x y yaw v : has_box (bpt x y yaw v) (mkrbox x y 4 2 yaw).
Proof. repeat split. Qed.
Lemma bpt_xy x y yaw v : has_xy (bpt x y yaw v) (x, y).
Proof. split; reflexivity. Qed.

(** Three objects in one frame: two overlapping ones and an invalid one at the
    place of the first; logged positions 3 m and 4 m away. *)
Definition cars : traj (S := XR) := [[bpt 0 0 0 true]; [bpt 2 1 (PI / 2) true]; [bpt 0 0 0 false]].
Definition cars_log : traj (S := XR) := [[bpt 3 4 0 true]; [bpt 2 1 (PI / 2) false]; [bpt 0 0 0 true]].
Definition car_state : state (S := XR) :=
  mkstate cars cars_log [] [bmeta true; bmeta false; bmeta false] 0 None None.
Lemma car_wf : wf_state 3 1 car_state.
Proof.
  split; [split; [reflexivity | intros r [<-|[<-|[<-|[]]]]; reflexivity]|].
  split; [split; [reflexivity | intros r [<-|[<-|[<-|[]]]]; reflexivity]|].
  repeat split; auto with arith.
Qed.

(** A route along the x axis with arc length starting at -5, and a second path off
    the route 20 m to the left; the SDC is logged from 0 to 10. *)
Definition ppt (x y a : R) : pathpt (S := XR) := mkpp (S := XR) (Fin x) (Fin y) (Fin 0) 1%Z true (Fin a).
Definition route : list (path (S := XR)) :=
  [mkpath [ppt (-5) 0 0; ppt 0 0 5; ppt 10 0 15] true; mkpath [ppt 0 20 0; ppt 10 20 10; ppt 0 0 0] false].
Definition route_state (x y : R) : state (S := XR) :=
  mkstate [[bpt x y 0 true; bpt 0 0 0 false]] [[bpt 0 0 0 true; bpt 10 0 0 true]] [] [bmeta true] 0 (Some route) None.
Lemma route_wf x y : wf_state 1 2 (route_state x y).
Proof.
  split; [split; [reflexivity | intros r [<-|[]]; reflexivity]|].
  split; [split; [reflexivity | intros r [<-|[]]; reflexivity]|].
  repeat split; auto with arith.
Qed.
Lemma route_sdc x y : the_sdc (s_meta (route_state x y)) 0.
Proof.
  split; [eexists; split; reflexivity|]. intros [|j] m H; [reflexivity|]. destruct j; discriminate.
Qed.
Lemma route_fin : finite_paths route /\ finite_arcs route.
Proof.
  split; intros pa q [<-|[<-|[]]] H; simpl in H; destruct H as [<-|[<-|[<-|[]]]]; eexists; try reflexivity;
    instantiate (1 := (_, _)); split; reflexivity.
Qed.
Lemma route_fx x y : finite_xy (s_sim (route_state x y)) 0.
Proof. intros [|i] p H; [injection H as <-; eexists; apply bpt_xy|]. destruct i; discriminate. Qed.
Lemma route_fl x y t : finite_xy (s_log (route_state x y)) t.
Proof.
  intros [|i] p H; [|destruct i; discriminate].
  destruct t as [|[|t]]; [injection H as <-; eexists; apply bpt_xy..|]. destruct t; discriminate.
Qed.

Lemma dist_x a b y : dist (a, y) (b, y) = Rabs (a - b).
Proof. unfold dist; cbn [fst snd]. replace (_ + _) with (Rsqr (a - b)) by (unfold Rsqr; ring). apply sqrt_Rsqr_abs. Qed.
