(** A concrete scenario over the reals for the non-vacuity examples of the numeric
    properties: one vehicle driving along the x axis at 10 m/s, three logged
    steps 0.1 s apart, one warm-up step. *)
From Coq Require Import List ZArith Reals Lra Lia Bool.
From Verif.Lib Require Import Base JaxIndex Scalar XR.
From Verif.Model Require Import Operations State Dynamics BaseEnv.
From Verif.Spec Require Import StateSpec DynSpec.
Import ListNotations.
Open Scope R_scope.

Definition rpt (x v : R) : pt :=
  mkpt (S := XR) (Fin x) (Fin 0) (Fin 0) (Fin v) (Fin 0) (Fin 0) true 0%Z (Fin 4) (Fin 2) (Fin 1).
Definition rkin (x v : R) : kin := mkkin x 0 0 v 0.

Definition rlog : traj := [[rpt 0 10; rpt 1 10; rpt 2 10]].
Definition rscn : state := mkstate [] rlog [] [mkmeta 1 1 true true true false false] 5 None None.
Definition rcfg : envcfg := mkcfg 1 1 SDC false.

Lemma rpt_kin x v : has_kin (rpt x v) (rkin x v).
Proof. repeat split. Qed.

Lemma rscn_wf : wf_scenario 1 3 rscn.
Proof.
  split; [|repeat split; auto with arith].
  split; [reflexivity|]. intros r [<-|[]]. reflexivity.
Qed.

(** The state after reset. *)
Definition rstart : state :=
  mkstate [[rpt 0 10; invalid_pt; invalid_pt]] rlog []
    [mkmeta 1 1 true true true false false] 0 None None.

Lemma rreset : env_reset rcfg rscn = Ok rstart.
Proof. reflexivity. Qed.

Lemma rstart_wf : wf_state 1 3 rstart.
Proof.
  split; [split; [reflexivity | intros r [<-|[]]; reflexivity]|].
  split; [split; [reflexivity | intros r [<-|[]]; reflexivity]|].
  repeat split; auto with arith.
Qed.

Lemma rmask : env_control_mask rstart rcfg = Ok [true].
Proof. reflexivity. Qed.

Lemma rspeed x v : 0 <= v -> speed (rkin x v) = v.
Proof.
  intros H. unfold speed; simpl. replace (v * v + 0 * 0) with (v * v) by ring. now apply sqrt_square.
Qed.
