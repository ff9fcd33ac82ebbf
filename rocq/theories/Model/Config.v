(** Model of the checks of waymax/config.py and of the environment built from a
    configuration. *)
From Coq Require Import String.
From Coq Require Import List ZArith Bool.
From Verif.Lib Require Import Base JaxIndex Scalar.
From Verif.Model Require Import Operations State Dynamics BaseEnv Metrics Actor PlanningEnv Envs Observation.
Import ListNotations.

(** config.py:105-118, ObservationConfig. *)
Record obs_config := mkoc {
  oc_num_steps : nat; oc_roadgraph_top_k : nat; oc_coordinate_frame : coordinate_frame }.

(** config.py:38-103, the fields of DatasetConfig the checks read. *)
Record data_config := mkdc { dc_include_sdc_paths : bool }.

Section Config.
  Context {S : Scalar}.

  (** config.py:173-216, EnvironmentConfig ([ec_env] are the fields used by reset
      and step; sim_agents are left out). *)
  Record env_config := mkec {
    ec_env : envcfg; ec_compute_reward : bool; ec_observation : option obs_config;
    ec_metrics : list string; ec_rewards : list (string * F) }.

  (** config.py:218-224, EnvironmentConfig.__post_init__: the constructor as a
      function of its arguments. *)
  Definition make_env_config (c : envcfg) (compute_reward : bool)
    (observation : option obs_config) (metrics_to_run : list string)
    (rewards : list (string * F)) : res env_config :=
    let* _ := match observation with
              | Some o => guard (negb (c_init_steps c <? oc_num_steps o)%nat) ValueError
              | None => Ok tt
              end in
    Ok (mkec c compute_reward observation metrics_to_run rewards).

  (** config.py:227-253, WaymaxConfig with its __post_init__. *)
  Definition names_in (l : list string) (name : string) : bool :=
    existsb (String.eqb name) l.
  Definition make_waymax_config (dc : data_config) (ec : env_config)
    : res (data_config * env_config) :=
    let* _ := guard (negb (negb (dc_include_sdc_paths dc) &&
        (names_in (ec_metrics ec) "sdc_wrongway"%string
         || names_in (ec_metrics ec) "sdc_progression"%string
         || names_in (ec_metrics ec) "sdc_off_route"%string))) ValueError in
    Ok (dc, ec).

  (** base_environment.py:36-52, BaseEnvironment.__init__. *)
  Definition make_base_env (reg : registry) (d : dynamics) (ec : env_config) : res benv :=
    let* rewards := make_linear_reward reg (ec_rewards ec) in
    Ok (mkbenv d (ec_env ec) rewards (ec_metrics ec) (ec_compute_reward ec)).
End Config.
