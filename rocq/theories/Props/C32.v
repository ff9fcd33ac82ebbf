(** C32: who moves what in the planning-agent environment. *)
From Coq Require Import List ZArith QArith Lia Bool.
From Verif.Lib Require Import Base JaxIndex Scalar QScalar.
From Verif.Model Require Import Operations State Dynamics BaseEnv Dyn_State Geometry Discretizer
  Comfort Metrics Actor PlanningEnv.
From Verif.Spec Require Import StateSpec PlanSpec.
From Verif.Proofs Require Import Core Episode P_Step P_Plan P_PlanRun.
From Verif.Props Require Import Ex ExP.
Import ListNotations.
Open Scope nat_scope.

(** One step.  [outs] are the sim agents' outputs, each asked with its own
    parameters, state and key; [us] is what the wrapped dynamics makes of the
    planner's action.  In the one new frame an object claimed by a sim agent and
    not overlapping initially has the pose of the last claiming agent's action;
    the SDC, if not taken over, the pose of the planner's update; every other
    object the logged pose. *)
Theorem C32_step_merges_planner_agents_and_log {S : Scalar} {P X K} split n T
  (e : penv P X K) ps a rng ps' (t : nat) :
  length (pe_params e) = length (pe_agents e) ->
  wf_state n T (ps_state ps) -> s_t (ps_state ps) = Z.of_nat t -> t + 1 < T ->
  penv_step split e ps a rng = Ok ps' ->
  same_scenario (ps_state ps) (ps_state ps') /\ wf_state n T (ps_state ps') /\
  s_t (ps_state ps') = Z.of_nat (t + 1) /\
  (forall i k, i < n -> k <> t + 1 ->
     at2 (s_sim (ps_state ps')) i k = at2 (s_sim (ps_state ps)) i k) /\
  exists outs cur us,
    agent_outputs e ps (agent_key split rng (length (pe_agents e))) outs /\
    ps_actors ps' = map o_state outs /\
    length cur = n /\ length us = n /\
    (forall i, i < n -> nth_error cur i = at2 (s_sim (ps_state ps)) i t) /\
    d_update (pe_dyn e) (repeat a n) cur = Ok us /\
    forall i, i < n -> exists p c l,
      at2 (s_sim (ps_state ps')) i (t + 1) = Some p /\
      at2 (s_sim (ps_state ps)) i t = Some c /\
      at2 (s_log (ps_state ps)) i (t + 1) = Some l /\
      (forall o, last_claim outs i o -> ~ starts_overlapping (ps_state ps) i ->
         exists b, nth_error (o_action o) i = Some b /\ pose_of_action b p) /\
      (~ driven (ps_state ps) outs i -> is_sdc (ps_state ps) i ->
         exists u, nth_error us i = Some u /\ pose_of_update u p) /\
      (~ driven (ps_state ps) outs i -> ~ is_sdc (ps_state ps) i -> same_pose p l) /\
      (driven (ps_state ps) outs i \/ is_sdc (ps_state ps) i ->
         p_valid p = p_valid c || (c_allow_new_objects (pe_cfg e) && p_valid l)) /\
      (~ (driven (ps_state ps) outs i \/ is_sdc (ps_state ps) i) ->
         p_valid p = p_valid l && (c_allow_new_objects (pe_cfg e) || p_valid c)) /\
      p_z p = p_z c /\ p_len p = p_len c /\ p_wid p = p_wid c /\ p_hei p = p_hei c /\
      p_ts p = p_ts l.
Proof. exact (planning_step split n T e ps a rng ps' t). Qed.

(** reset: the state is the base environment's reset state, and every sim agent is
    initialised on that state with its own key. *)
Theorem C32_reset_initialises_agents {S : Scalar} {P X K} split (e : penv P X K) s rng ps :
  penv_reset split e s rng = Ok ps ->
  env_reset (pe_cfg e) s = Ok (ps_state ps) /\
  length (ps_actors ps) = length (pe_agents e) /\
  forall k ag, nth_error (pe_agents e) k = Some ag ->
    exists x, nth_error (ps_actors ps) k = Some x /\
      ac_init ag (agent_key split rng (length (pe_agents e)) k) (ps_state ps) = Ok x.
Proof. exact (planning_reset split e s rng ps). Qed.

(** Whole episodes: clock, warm-up frames, immutable scenario. *)
Theorem C32_episode_clock_and_warmup {S : Scalar} {P X K} split n T (e : penv P X K) s rng acts ps' :
  length (pe_params e) = length (pe_agents e) ->
  wf_scenario n T s -> 1 <= c_init_steps (pe_cfg e) ->
  c_init_steps (pe_cfg e) + length acts <= T ->
  run_planning split e s rng acts = Ok ps' ->
  same_scenario s (ps_state ps') /\ wf_state n T (ps_state ps') /\
  s_t (ps_state ps') = (Z.of_nat (c_init_steps (pe_cfg e) + length acts) - 1)%Z /\
  (forall i t, i < n -> t < c_init_steps (pe_cfg e) ->
     at2 (s_sim (ps_state ps')) i t = at2 (s_log s) i t).
Proof. exact (planning_basic split n T e s rng acts ps'). Qed.

(** Recorded frames never change later. *)
Theorem C32_history_is_immutable {S : Scalar} {P X K} split n T (e : penv P X K) s rng l1 l2 ps1 ps' :
  length (pe_params e) = length (pe_agents e) ->
  wf_scenario n T s -> 1 <= c_init_steps (pe_cfg e) ->
  c_init_steps (pe_cfg e) + length (l1 ++ l2) <= T ->
  run_planning split e s rng l1 = Ok ps1 ->
  run_planning split e s rng (l1 ++ l2) = Ok ps' ->
  forall i t, i < n -> t < c_init_steps (pe_cfg e) + length l1 ->
    at2 (s_sim (ps_state ps')) i t = at2 (s_sim (ps_state ps1)) i t.
Proof. exact (planning_prefix split n T e s rng l1 l2 ps1 ps'). Qed.

(** Without sim agents a step is the base environment's step in which the SDC has
    the planner's action (for dynamics that treat objects independently). *)
Theorem C32_no_agents_is_base_environment {S : Scalar} {P X K} split n T (e : penv P X K)
  s xs a k ps' acts s' :
  pe_agents e = [] -> c_controlled (pe_cfg e) = SDC -> dyn_local (pe_dyn e) ->
  wf_state n T s ->
  penv_step split e (mkps s xs) a k = Ok ps' ->
  env_step (pe_dyn e) (pe_cfg e) s acts = Ok s' ->
  (forall i, is_sdc s i -> nth_error acts i = Some a) ->
  ps_state ps' = s'.
Proof. exact (no_agents_is_base split n T e s xs a k ps' acts s'). Qed.

(** A step never fails when the dynamics accept the action and the agents answer
    with five action columns for every object. *)
Theorem C32_step_total {S : Scalar} {P X K} split n T (e : penv P X K) s xs a rng ok :
  wf_state n T s -> dyn_total (pe_dyn e) ok -> ok a ->
  length (pe_params e) = length (pe_agents e) -> length xs = length (pe_agents e) ->
  (forall ag p x k, In ag (pe_agents e) -> In p (pe_params e) -> In x xs ->
     exists o, ac_select ag p s x k = Ok o /\ length (o_controlled o) = n /\
       length (o_action o) = n /\ Forall (fun b => length (a_data b) = 5) (o_action o)) ->
  exists ps', penv_step split e (mkps s xs) a rng = Ok ps'.
Proof. exact (planning_step_total split n T e s xs a rng ok). Qed.

(** Non-vacuity: two steps with two agents.  The SDC follows the planner, object 1
    (claimed by the frozen agent only) stays, object 2 (claimed by both) follows
    the second agent. *)
Example C32_ex :
  wf_scenario 3 4 ex_state /\
  run_planning ex_split ex_penv ex_state (Some tt) ex_pacts = Ok (ex_prun ex_pacts) /\
  xval (at2 (s_sim (ps_state (ex_prun ex_pacts))) 0 2) = 100%Z /\
  xval (at2 (s_sim (ps_state (ex_prun ex_pacts))) 0 3) = 101%Z /\
  xval (at2 (s_sim (ps_state (ex_prun ex_pacts))) 1 3) = 11%Z /\
  xval (at2 (s_sim (ps_state (ex_prun ex_pacts))) 2 3) = 72%Z /\
  xval (at2 (s_log ex_state) 1 3) = 13%Z /\ xval (at2 (s_log ex_state) 2 3) = 23%Z.
Proof.
  split; [exact ex_wf|]. split; [apply ex_prun_ok; vm_compute; reflexivity|].
  vm_compute. repeat split; reflexivity.
Qed.

(** Agents that keep their key as state: the two get different ones. *)
Definition key_agent : actor unit Z Z :=
  mkactor (fun k _ => match k with Some z => Ok z | None => Err ValueError end)
    (fun _ _ x _ => Ok (mkout x [] [])).
Definition key_env : penv unit Z Z :=
  mkpenv StateDynamics (ex_cfg SDC true) [] [] false [key_agent; key_agent] [tt; tt].
Example C32_ex_reset :
  option_map ps_actors (match penv_reset (fun k n i => (100 * k + Z.of_nat i)%Z) key_env ex_state (Some 5%Z) with
                        | Ok ps => Some ps | _ => None end) = Some [500; 501]%Z.
Proof. vm_compute. reflexivity. Qed.

Print Assumptions C32_reset_initialises_agents.
Print Assumptions C32_step_merges_planner_agents_and_log.
Print Assumptions C32_no_agents_is_base_environment.
