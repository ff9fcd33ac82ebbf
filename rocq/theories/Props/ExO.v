(** The scenario of Ex with one traffic light and three map points, for the
    observation examples. *)
From Coq Require Import String.
From Coq Require Import List ZArith QArith Bool Lia.
From Verif.Lib Require Import Base JaxIndex Scalar QScalar.
From Verif.Model Require Import Operations State Dynamics BaseEnv Dyn_State Observation Config.
From Verif.Spec Require Import StateSpec ObsSpec.
From Verif.Props Require Import Ex.
Import ListNotations.
Local Open Scope nat_scope.

Definition otl (st : Z) : tlight := mktl (q 5) (q 0) (q 0) st 77 true.
Definition org (x id : Z) (v : bool) : rgpt := mkrg (q x) (q 0) (q 0) (q 1) (q 0) (q 0) 15 id v.
Definition o_rg : list rgpt := [org 30 1 true; org 0 2 false; org 1 3 true].

(** One light over four steps; its last state is a parameter. *)
Definition o_scn (last : Z) : state :=
  mkstate [] ex_log [[otl 1; otl 2; otl 3; otl last]] ex_meta 17 None (Some o_rg).

Lemma o_wf last : wf_scenario 3 4 (o_scn last).
Proof. exact ex_wf. Qed.
Lemma o_tls last : rect 1 4 (s_tls (o_scn last)).
Proof. split; [reflexivity|]. intros r [<-|[]]. reflexivity. Qed.

Definition o_obs : obs_config := mkoc 2 2 FRAME_GLOBAL.
Definition o_cfg : envcfg := ex_cfg SDC true.

(** After one step. *)
Definition o_state (last : Z) : state :=
  get ex_state (run_episode StateDynamics o_cfg (o_scn last) [[sact 100 0; sact 200 0; sact 300 0]]).
Lemma o_run last : run_episode StateDynamics o_cfg (o_scn last) [[sact 100 0; sact 200 0; sact 300 0]] = Ok (o_state last).
Proof. apply is_ok_get. vm_compute. reflexivity. Qed.
