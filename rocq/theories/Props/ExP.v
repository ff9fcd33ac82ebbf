(** Concrete planning environment for the examples: the scenario of [Ex] and two
    sim agents, a frozen one for every object but the SDC and one that moves
    object 2 only. *)
From Coq Require Import String.
From Coq Require Import List ZArith QArith Bool.
From Verif.Lib Require Import Base JaxIndex Scalar QScalar.
From Verif.Model Require Import Operations State Dynamics BaseEnv Dyn_State Dyn_Delta Dyn_Bicycle
  Geometry Discretizer Comfort Metrics Actor PlanningEnv.
From Verif.Spec Require Import StateSpec PlanSpec.
From Verif.Props Require Import Ex.
Import ListNotations.

Definition exU (x : Z) : upd := mkupd (q x) (q 5) (q 1) (q 2) (q 3) true.
Definition ex_agents : list (actor unit unit unit) :=
  [ sim_agent tt control_non_sdc frozen_update;
    sim_agent tt (fun _ => [false; false; true]) (fun _ => Ok [exU 70; exU 71; exU 72]) ].
Definition ex_split (k : unit) (n i : nat) : unit := tt.
Definition ex_penv : penv unit unit unit :=
  mkpenv StateDynamics (ex_cfg SDC true) [("overlap"%string, q 1)] ["overlap"%string] true
    ex_agents [tt; tt].
Definition ex_pacts : list (act * option unit) := [(sact 100 0, Some tt); (sact 101 0, None)].
Definition ex_prun (acts : list (act * option unit)) : pstate unit :=
  get (mkps ex_state []) (run_planning ex_split ex_penv ex_state (Some tt) acts).
Lemma ex_prun_ok acts :
  is_ok (run_planning ex_split ex_penv ex_state (Some tt) acts) = true ->
  run_planning ex_split ex_penv ex_state (Some tt) acts = Ok (ex_prun acts).
Proof. apply is_ok_get. Qed.
