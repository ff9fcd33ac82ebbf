(** C52: the expert in the planning-agent environment. *)
From Coq Require Import List ZArith Reals Lra Lia Bool.
From Verif.Lib Require Import Base JaxIndex Scalar XR.
From Verif.Model Require Import Operations State Dynamics BaseEnv Dyn_State Geometry Discretizer
  Comfort Metrics Expert Actor PlanningEnv.
From Verif.Spec Require Import StateSpec GeomSpec DynSpec MetricSpec PlanSpec AgentSpec.
From Verif.Proofs Require Import Core Episode P_Step P_Plan P_PlanRun P_PlanMetrics.
From Verif.Props Require Import ExR.
Import ListNotations.
Open Scope R_scope.

(** For every wrapped dynamics model the single expert action is the SDC's row of
    the multi-agent expert action, as long as all rows are finite. *)
Theorem C52_expert_is_sdc_row (d : dynamics (S := XR)) s acts k a :
  infer_expert_action d s = Ok acts -> length acts = length (s_meta s) ->
  the_sdc (s_meta s) k -> nth_error acts k = Some a ->
  Forall (fun b => length (a_data b) = length (a_data a) /\ Forall finite (a_data b)) acts ->
  planning_expert d s = Ok a.
Proof. exact (planning_expert_spec d s acts k a). Qed.

(** A planner playing the expert action of a StateDynamics environment at every
    step replays the SDC's log, with any sim agents that leave the SDC alone. *)
Theorem C52_expert_replays_sdc_log {P X K} split n T (e : penv (S := XR) P X K)
  s rng acts ps' (k j : nat) :
  length (pe_params e) = length (pe_agents e) -> pe_dyn e = StateDynamics ->
  wf_scenario n T s -> (1 <= c_init_steps (pe_cfg e))%nat ->
  (c_init_steps (pe_cfg e) + length acts <= T)%nat -> (j < length acts)%nat ->
  run_planning split e s rng acts = Ok ps' ->
  the_sdc (s_meta s) k ->
  (forall i t p, (c_init_steps (pe_cfg e) <= t)%nat -> at2 (s_log s) i t = Some p -> kin_finite p) ->
  (forall ag p st x key o, In ag (pe_agents e) -> ac_select ag p st x key = Ok o -> ~ claims o k) ->
  (forall m ps a key, run_planning split e s rng (firstn m acts) = Ok ps ->
     nth_error acts m = Some (a, key) -> planning_expert StateDynamics (ps_state ps) = Ok a) ->
  exists p l, at2 (s_sim (ps_state ps')) k (c_init_steps (pe_cfg e) + j) = Some p /\
    at2 (s_log s) k (c_init_steps (pe_cfg e) + j) = Some l /\ same_pose p l /\ p_ts p = p_ts l.
Proof. exact (planning_expert_replay split n T e s rng acts ps' k j). Qed.

(** Finiteness of the other objects is needed even if they are invalid: the
    selection multiplies their entries by zero and adds them up. *)
Definition bad_pt : pt :=
  mkpt (S := XR) PInf (Fin 0) (Fin 0) (Fin 0) (Fin 0) (Fin 0) false 0%Z (Fin 4) (Fin 2) (Fin 1).
Definition bad_state : state :=
  mkstate [[rpt 0 10; invalid_pt]; [bad_pt; invalid_pt]] [[rpt 0 10; rpt 1 10]; [bad_pt; bad_pt]] []
    [mkmeta 1 1 true true true false false; mkmeta 2 1 false false false false false] 0 None None.
Theorem C52_invalid_objects_can_poison_expert_refuted :
  exists (s : state (S := XR)) a,
    wf_state 2 2 s /\ the_sdc (s_meta s) 0 /\
    (exists p, at2 (s_log s) 0 1 = Some p /\ kin_finite p /\ p_valid p = true) /\
    (forall t p, at2 (s_log s) 1 t = Some p -> p_valid p = false) /\
    planning_expert StateDynamics s = Ok a /\ nth_error (a_data a) 0 = Some NaN /\ a_valid a = true.
Proof.
  exists bad_state.
  assert (E : infer_expert_action StateDynamics bad_state =
    Ok [mkact [Fin 1; Fin 0; Fin 0; Fin 10; Fin 0] true;
        mkact [PInf; Fin 0; Fin 0; Fin 0; Fin 0] false]) by reflexivity.
  assert (Sel : exists a, planning_expert StateDynamics bad_state = Ok a /\
    nth_error (a_data a) 0 = Some (fadd (Scalar := XR) (fadd f0 (fmul (Scalar := XR) (Fin 1) f1))
                                     (fmul (Scalar := XR) PInf f0)) /\ a_valid a = true).
  { eexists. split; [reflexivity|]. split; reflexivity. }
  destruct Sel as (a & Sa & Na & Va). exists a.
  split; [|split; [|split; [|split; [|split; [|split]]]]]; auto.
  - split; [split; [reflexivity | intros r [<-|[<-|[]]]; reflexivity]|].
    split; [split; [reflexivity | intros r [<-|[<-|[]]]; reflexivity]|].
    repeat split; auto with arith.
  - split; [eexists; split; reflexivity|]. intros [|[|j]] m H Sm; auto.
    + injection H as <-. discriminate.
    + destruct j; discriminate.
  - exists (rpt 1 10). split; [reflexivity|]. split; [|reflexivity].
    unfold kin_finite, finite, rpt. cbn [p_x p_y p_yaw p_vx p_vy]. repeat split; eauto.
  - intros [|[|t]] p H; try (injection H as <-; reflexivity). destruct t; discriminate.
  - rewrite Na. rewrite f0_Fin, f1_Fin. f_equal.
    change (fmul (Scalar := XR) PInf (Fin 0)) with (inf_times 0).
    unfold inf_times. repeat destruct (Rlt_dec _ _); try (exfalso; lra). reflexivity.
Qed.

(** Non-vacuity: the car of [ExR] alone. *)
Definition rpenv : penv (S := XR) unit unit unit := mkpenv StateDynamics rcfg [] [] false [] [].
Example C52_ex : planning_expert StateDynamics rstart
  = Ok (mkact (S := XR) [Fin 1; Fin 0; Fin 0; Fin 10; Fin 0] true).
Proof.
  apply C52_expert_is_sdc_row with (acts := [mkact (S := XR) [Fin 1; Fin 0; Fin 0; Fin 10; Fin 0] true]) (k := 0%nat);
    try reflexivity.
  - split; [eexists; split; reflexivity|]. intros [|j] m H; [reflexivity|]. destruct j; discriminate.
  - constructor; [|constructor]. split; [reflexivity|]. cbn [a_data]. repeat constructor; eexists; reflexivity.
Qed.

Print Assumptions C52_expert_is_sdc_row.
Print Assumptions C52_expert_replays_sdc_log.
