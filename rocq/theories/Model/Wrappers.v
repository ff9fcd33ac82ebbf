(** Model of waymax/env/wrappers/dm_env_wrapper.py, brax_wrapper.py and
    waymax/agents/agent_builder.py. *)
From Coq Require Import String.
From Coq Require Import List ZArith Bool.
From Verif.Lib Require Import Base JaxIndex Scalar.
From Verif.Model Require Import Operations State Dynamics BaseEnv Metrics Actor PlanningEnv Envs Batch Specs.
Import ListNotations.

(* ------------------------------------------------------------------ *)
(** dm_env.StepType and dm_env.TimeStep.  The discount is carried as one flag per
    batch element (true = 1.0, false = 0.0); dm_env.transition's default discount
    1.0 is the single flag true, dm_env.restart has none. *)
Inductive step_type := FIRST | MID | LAST.
Record dm_timestep (O R : Type) := mkdts {
  ts_type : step_type; ts_reward : option R; ts_discount : option (list bool); ts_obs : O }.
Arguments mkdts {O R}.
Arguments ts_type {O R}.
Arguments ts_reward {O R}.
Arguments ts_discount {O R}.
Arguments ts_obs {O R}.

Section DMEnv.
  Context {Sc St A O M R RA : Type}.
  Variable env : aenv Sc St A O M R.
  (** env.reward called with the user's array (dm_env_wrapper.py:118), and the
      conversion of the user's array into an Action (lines 120-130). *)
  Variable raw_reward : St -> RA -> res R.
  Variable to_action : St -> RA -> res A.

  (** dm_env_wrapper.py:55-62, the mutable attributes.  The data generator is the
      list of scenarios still to come. *)
  Record dmenv := mkdm {
    dm_data : list Sc; dm_sample : Sc; dm_cur : option St;
    dm_initialized : bool; dm_done : bool }.

  (** dm_env_wrapper.py:36-62, the constructor. *)
  Definition make_dm (data : list Sc) : res dmenv :=
    match data with
    | [] => Err StopIteration
    | sc :: rest => Ok (mkdm rest sc None false false)
    end.

  (** dm_env_wrapper.py:70-75, simulation_state. *)
  Definition simulation_state (w : dmenv) : res (option St) :=
    if dm_initialized w then Ok (dm_cur w) else Err SimulationNotInitializedError.

  (** dm_env_wrapper.py:87-94, reset: the new attributes and the value or exception.
      Attributes assigned before an exception stay assigned. *)
  Definition dm_reset (w : dmenv) : dmenv * res (dm_timestep O R) :=
    match dm_data w with
    | [] => (w, Err StopIteration)
    | sc :: rest =>
        match ae_reset env sc with
        | Err e => (mkdm rest (dm_sample w) (dm_cur w) (dm_initialized w) (dm_done w), Err e)
        | Ok s =>
            if ae_is_done env s then
              (mkdm rest (dm_sample w) (Some s) true (dm_done w), Err SimulationNotInitializedError)
            else
              (mkdm rest (dm_sample w) (Some s) true false,
               let* o := ae_observe env s in Ok (mkdts FIRST None None o))
        end
    end.

  (** dm_env_wrapper.py:96-152, step. *)
  Definition dm_step (w : dmenv) (action : RA) : dmenv * res (dm_timestep O R) :=
    if negb (dm_initialized w) then (w, Err SimulationNotInitializedError)
    else if dm_done w then (w, Err EpisodeAlreadyFinishedError)
    else
      match dm_cur w with
      | None => (w, Err TypeError)
      | Some s =>
          match (let* r := raw_reward s action in
                 let* a := to_action s action in
                 let* s' := ae_step env s a in Ok (r, s')) with
          | Err e => (w, Err e)
          | Ok (r, s') =>
              let w' := mkdm (dm_data w) (dm_sample w) (Some s') (dm_initialized w) (dm_done w) in
              let term := ae_termination env s' in
              let done := map2 orb term (ae_truncation env s') in
              let discount := map negb term in
              if forallb (fun b => b) done then
                (mkdm (dm_data w) (dm_sample w) (Some s') (dm_initialized w) true,
                 let* o := ae_observe env s' in Ok (mkdts LAST (Some r) (Some discount) o))
              else if existsb (fun b => b) done then (w', Err NotImplementedError)
              else (w', let* o := ae_observe env s' in Ok (mkdts MID (Some r) (Some [true]) o))
          end
      end.

  (** dm_env_wrapper.py:172-183, observation_spec without batch dimensions: the shapes
      of the leaves of the observation of the sample scenario after a reset.
      [leaves] lists the shapes of an observation's leaves. *)
  Definition dm_observation_spec (leaves : O -> list (list nat)) (w : dmenv) : res (list (list nat)) :=
    let* s := ae_reset env (dm_sample w) in
    let* o := ae_observe env s in
    Ok (leaves o).

  (** A history of calls: reset or step. *)
  Inductive call := CallReset | CallStep (a : RA).
  Definition dm_call (w : dmenv) (c : call) : dmenv * res (dm_timestep O R) :=
    match c with CallReset => dm_reset w | CallStep a => dm_step w a end.
  Fixpoint dm_run (w : dmenv) (h : list call) : dmenv * list (res (dm_timestep O R)) :=
    match h with
    | [] => (w, [])
    | c :: h' =>
        let (w1, r) := dm_call w c in
        let (w2, rs) := dm_run w1 h' in (w2, r :: rs)
    end.
End DMEnv.
Arguments dmenv : clear implicits.
Arguments mkdm {Sc St}.
Arguments call : clear implicits.
Arguments CallReset {RA}.
Arguments CallStep {RA}.

(* ------------------------------------------------------------------ *)
Section ToAction.
  Context {S : Scalar}.

  (** The shapes of the leaves of a SimulatorState without batch dimensions
      (simulator_state.py:43-72): simulated and logged trajectory, lights,
      metadata, timestep, paths, road graph; leaves with a common shape count once,
      absent ones are left out. *)
  Definition shape2 {A} (m : list (list A)) : list nat :=
    [length m; match m with r :: _ => length r | [] => 0 end].
  Definition state_leaves (s : state) : list (list nat) :=
    [shape2 (s_sim s); shape2 (s_log s); shape2 (s_tls s); [length (s_meta s)]; []] ++
    (match s_paths s with Some ps => [shape2 (map path_pts ps)] | None => [] end) ++
    (match s_rg s with Some rg => [[length rg]] | None => [] end).

  (** jnp.reshape of a flat array into [n] rows of [d] entries. *)
  Fixpoint chunks {A} (d n : nat) (l : list A) : list (list A) :=
    match n with 0 => [] | Datatypes.S n' => firstn d l :: chunks d n' (skipn d l) end.
  Definition reshape2 (d n : nat) (l : list F) : res (list (list F)) :=
    let* _ := guard (length l =? n * d)%nat TypeError in Ok (chunks d n l).

  (** dm_env_wrapper.py:120-131 for a BaseEnvironment, without batch axes: the
      user's array, of whatever shape, is reshaped to that of the environment's
      action_spec (base_environment.py:167-186).  Action.validate rejects actions
      without columns, for which action[..., 0:1] is empty. *)
  Definition base_to_action (c : envcfg) (dyn_spec : res bspec) (_ : state) (a : arr F)
    : res (list act) :=
    let* sp := base_action_spec c dyn_spec in
    match bs_shape sp with
    | [n; dim] =>
        let* rows := reshape2 dim n (flat a) in
        let* _ := guard (1 <=? dim)%nat AssertionError in
        Ok (map (fun r => mkact r true) rows)
    | _ => Err TypeError
    end.

  (** The same for a PlanningAgentEnvironment, whose action_spec is that of the
      dynamics model (planning_agent_environment.py:354-357). *)
  Definition planning_to_action {X} (dyn_spec : res bspec) (_ : pstate X) (a : arr F) : res act :=
    let* sp := planning_action_spec dyn_spec in
    match bs_shape sp with
    | [dim] =>
        let* _ := guard (length (flat a) =? dim)%nat TypeError in
        let* _ := guard (1 <=? dim)%nat AssertionError in
        Ok (mkact (flat a) true)
    | _ => Err TypeError
    end.
End ToAction.

(* ------------------------------------------------------------------ *)
Section Brax.
  Context {S : Scalar} {Sc St A O M R : Type}.
  Variable env : aenv Sc St A O M R.
  (** jnp.zeros(state.shape + reward_spec().shape). *)
  Variable zero_reward : R.

  (** brax_wrapper.py:37-67, TimeStep; the discount as in [dm_timestep]. *)
  Record brax_timestep := mkbts {
    bt_state : St; bt_obs : O; bt_reward : R; bt_done : list bool; bt_discount : list bool;
    bt_metrics : M }.

  (** brax_wrapper.py:95-115, reset: done is the termination flag only. *)
  Definition brax_reset (sc : Sc) : res brax_timestep :=
    let* s := ae_reset env sc in
    let* o := ae_observe env s in
    let* m := ae_metrics env s in
    Ok (mkbts s o zero_reward (ae_termination env s)
          (map (fun _ => true) (ae_termination env s)) m).

  (** brax_wrapper.py:121-149, step. *)
  Definition brax_step (ts : brax_timestep) (a : A) : res brax_timestep :=
    let* next := ae_step env (bt_state ts) a in
    let* o := ae_observe env next in
    let* r := ae_reward env (bt_state ts) a in
    let term := ae_termination env next in
    let* m := ae_metrics env (bt_state ts) in
    Ok (mkbts next o r (map2 orb term (ae_truncation env next)) (map negb term) m).

  Fixpoint brax_steps (ts : brax_timestep) (acts : list A) : res brax_timestep :=
    match acts with
    | [] => Ok ts
    | a :: rest => let* ts' := brax_step ts a in brax_steps ts' rest
    end.
End Brax.
Arguments brax_timestep : clear implicits.

(* ------------------------------------------------------------------ *)
(** config.py:153-171, SimAgentType and SimAgentConfig. *)
Inductive sim_agent_type := IDM.
Record sim_agent_cfg := mksac { sa_type : sim_agent_type; sa_controlled : objtype }.

Section Factory.
  Context {S : Scalar} {P X K : Type}.
  (** waypoint_following_agent.IDMRoutePolicy(is_controlled_func). *)
  Variable idm : (state -> list bool) -> actor P X K.

  (** agent_builder.py:21-46, create_sim_agents_from_config. *)
  Definition create_sim_agents_from_config (c : sim_agent_cfg) : res (actor P X K) :=
    let* ctrl := match sa_controlled c with
                 | SDC => Ok control_sdc
                 | NON_SDC => Ok control_non_sdc
                 | _ => Err NotImplementedError
                 end in
    match sa_type c with IDM => Ok (idm ctrl) end.

  (** dm_env_wrapper.py:190-222, make_sdc_dm_environment.  [rewards] ... are the
      fields of env_config; [data] is what the data loader will deliver.  The
      planning environment is built with the default sim_agent_params=()
      (planning_agent_environment.py:175-181). *)
  Definition make_sdc_dm_environment (reg : registry) (d : dynamics) (c : envcfg)
    (rewards : list (string * F)) (metrics : list string) (compute_reward : bool)
    (sim_agents : option (list sim_agent_cfg)) (data : list state)
    : res (penv P X K * dmenv state (pstate X)) :=
    let* _ := guard (is_SDC (c_controlled c)) ValueError in
    let* actors := match sim_agents with
                   | Some l => mapM create_sim_agents_from_config l
                   | None => Ok []
                   end in
    let* e := make_penv reg (mkpenv d c rewards metrics compute_reward actors []) in
    let* w := make_dm data in
    Ok (e, w).
End Factory.
