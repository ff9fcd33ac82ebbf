(** C33: objects overlapping at log step 0 are never driven by sim agents. *)
From Coq Require Import List ZArith Reals Lra Lia Bool.
From Verif.Lib Require Import Base JaxIndex Scalar XR.
From Verif.Model Require Import Operations State Dynamics BaseEnv Dyn_State Geometry Discretizer
  Comfort Metrics Actor PlanningEnv.
From Verif.Spec Require Import StateSpec GeomSpec DynSpec PlanSpec AgentSpec.
From Verif.Proofs Require Import Core Episode P_Step P_Overlap P_Plan P_PlanRun P_Agents.
From Verif.Props Require Import ExR ExM.
Import ListNotations.
Open Scope R_scope.

(** An object other than the SDC that starts out overlapping replays the log at
    every simulated step, whatever planner and sim agents do. *)
Theorem C33_initial_overlap_replays_log {S : Scalar} {P X K} split n T (e : penv P X K) s rng acts ps' i j :
  length (pe_params e) = length (pe_agents e) ->
  wf_scenario n T s -> (1 <= c_init_steps (pe_cfg e))%nat ->
  (c_init_steps (pe_cfg e) + length acts <= T)%nat -> (j < length acts)%nat ->
  run_planning split e s rng acts = Ok ps' -> (i < n)%nat ->
  starts_overlapping s i -> ~ is_sdc s i ->
  exists p l, at2 (s_sim (ps_state ps')) i (c_init_steps (pe_cfg e) + j) = Some p /\
    at2 (s_log s) i (c_init_steps (pe_cfg e) + j) = Some l /\ same_pose p l /\
    p_ts p = p_ts l.
Proof. exact (blocked_replays split n T e s rng acts ps' i j). Qed.

(** In terms of geometry: it is enough that the interiors of the two boxes at log
    step 0 share a point ... *)
Theorem C33_sharing_a_point_blocks (s : state (S := XR)) i j p q a b :
  at2 (s_log s) i 0 = Some p -> pt_box p = fbox a ->
  at2 (s_log s) j 0 = Some q -> pt_box q = fbox b -> j <> i ->
  (exists x, interior a x /\ interior b x) -> starts_overlapping s i.
Proof. exact (starts_overlapping_real s i j p q a b). Qed.

(** ... and an object whose box shares no interior point with any other is not
    blocked. *)
Theorem C33_disjoint_is_not_blocked (s : state (S := XR)) i a :
  (exists p, at2 (s_log s) i 0 = Some p /\ pt_box p = fbox a) ->
  (forall j q, j <> i -> at2 (s_log s) j 0 = Some q ->
     exists b, pt_box q = fbox b /\ ~ exists x, interior a x /\ interior b x) ->
  ~ starts_overlapping s i.
Proof. exact (not_starts_overlapping_real s i a). Qed.

(** Validity plays no role: any two objects that are absent at step 0, both
    filled with the invalid value, block each other. *)
Theorem C33_absent_objects_block_each_other (s : state (S := XR)) i j :
  at2 (s_log s) i 0 = Some invalid_pt -> at2 (s_log s) j 0 = Some invalid_pt -> j <> i ->
  starts_overlapping s i.
Proof. exact (fill_overlaps s i j). Qed.

(** Non-vacuity: two cars overlap at step 0 and one is alone; two late arrivals
    at the fill position. *)
Definition start_scn : state (S := XR) :=
  mkstate [] [[bpt 0 0 0 true]; [bpt 2 1 0 true]; [bpt 40 0 0 true]; [invalid_pt]; [invalid_pt]] []
    [bmeta true; bmeta false; bmeta false; bmeta false; bmeta false] 0 None None.
Example C33_ex : starts_overlapping start_scn 1 /\ starts_overlapping start_scn 3 /\
  starts_overlapping start_scn 4.
Proof.
  split; [|split].
  - apply (C33_sharing_a_point_blocks start_scn 1 0 (bpt 2 1 0 true) (bpt 0 0 0 true)
             (mkrbox 2 1 4 2 0) (mkrbox 0 0 4 2 0)); try reflexivity; [lia|].
    exists (1, 1 / 2). unfold interior, rpoint. cbn [rx ry rlen rwid ryaw].
    split; [exists (-1), (-1 / 2) | exists 1, (1 / 2)]; rewrite cos_0, sin_0;
      (split; [unfold Rabs; repeat destruct Rcase_abs; lra|]);
      (split; [unfold Rabs; repeat destruct Rcase_abs; lra|]); f_equal; lra.
  - apply (C33_absent_objects_block_each_other start_scn 3 4); try reflexivity. lia.
  - apply (C33_absent_objects_block_each_other start_scn 4 3); try reflexivity. lia.
Qed.

Print Assumptions C33_initial_overlap_replays_log.
Print Assumptions C33_sharing_a_point_blocks.
Print Assumptions C33_absent_objects_block_each_other.
