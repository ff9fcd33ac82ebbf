(** C50: what the configuration checks guarantee. *)
From Coq Require Import String.
From Coq Require Import List ZArith Bool Lia.
From Verif.Lib Require Import Base JaxIndex Scalar QScalar.
From Verif.Model Require Import Operations State Dynamics BaseEnv Dyn_State Metrics Envs Observation Config.
From Verif.Spec Require Import StateSpec RewardSpec ObsSpec ConfigSpec.
From Verif.Proofs Require Import P_Reward P_Config.
From Verif.Props Require Import Ex ExO.
Import ListNotations.
Local Open Scope nat_scope.

(** An EnvironmentConfig is accepted exactly when it does not ask for more observed
    steps than warm-up steps. *)
Theorem C50_env_config {S : Scalar} c cr obs ms rw :
  ((forall o, obs = Some o -> oc_num_steps o <= c_init_steps c) ->
     make_env_config c cr obs ms rw = Ok (mkec c cr obs ms rw)) /\
  (~ (forall o, obs = Some o -> oc_num_steps o <= c_init_steps c) ->
     make_env_config c cr obs ms rw = Err ValueError).
Proof. exact (env_config_iff c cr obs ms rw). Qed.

(** A WaymaxConfig is accepted exactly when route metrics come with route data. *)
Theorem C50_waymax_config {S : Scalar} dc ec :
  ((dc_include_sdc_paths dc = true \/ forall name, route_metric name -> ~ In name (ec_metrics ec)) ->
     make_waymax_config dc ec = Ok (dc, ec)) /\
  (dc_include_sdc_paths dc = false -> (exists name, route_metric name /\ In name (ec_metrics ec)) ->
     make_waymax_config dc ec = Err ValueError).
Proof. exact (waymax_config_iff dc ec). Qed.

(** With an accepted WaymaxConfig that lists documented metrics, on data loaded with it,
    env.metrics never fails: in every reachable state it returns the listed names. *)
Theorem C50_metrics_never_fail {S : Scalar} n T dc ec x d s acts s' :
  make_waymax_config dc ec = Ok x ->
  (forall name, In name (ec_metrics ec) -> documented_metric name) ->
  wf_scenario n T s -> 2 <= T -> loaded (dc_include_sdc_paths dc) s ->
  run_episode d (ec_env ec) s acts = Ok s' -> c_init_steps (ec_env ec) + length acts <= T ->
  exists results, run_metrics initial_registry s' (ec_metrics ec) = Ok results /\
    map fst results = distinct (ec_metrics ec).
Proof. exact (metrics_never_fail n T dc ec x d s acts s'). Qed.

(** The reward never fails either when the rewards name no route metric or routes are
    loaded. *)
Theorem C50_reward_never_fails {S : Scalar} n T d ec e b s acts s' :
  make_base_env initial_registry d ec = Ok e ->
  (b = true \/ forall name, route_metric name -> ~ In name (map fst (ec_rewards ec))) ->
  c_controlled (ec_env ec) <> NON_SDC ->
  wf_scenario n T s -> 2 <= T -> loaded b s ->
  run_episode d (ec_env ec) s acts = Ok s' -> c_init_steps (ec_env ec) + length acts <= T ->
  exists r, base_reward initial_registry e s' = Ok r /\ length r = n.
Proof. exact (reward_never_fails n T d ec e b s acts s'). Qed.

(** But that proviso is not checked: an accepted configuration may reward a route
    metric without route data, and then the reward fails in every reachable state. *)
Theorem C50_unchecked_reward_fails {S : Scalar} n T d ec e s acts s' name :
  make_base_env initial_registry d ec = Ok e ->
  ec_compute_reward ec = true -> route_metric name -> In name (map fst (ec_rewards ec)) ->
  wf_scenario n T s -> s_paths s = None ->
  run_episode d (ec_env ec) s acts = Ok s' -> c_init_steps (ec_env ec) + length acts <= T ->
  exists err, base_reward initial_registry e s' = Err err.
Proof. exact (reward_always_fails n T d ec e s acts s' name). Qed.

Definition bad_ec : env_config (S := QS) :=
  mkec o_cfg true (Some o_obs) ["overlap"%string] [("sdc_progression"%string, q 1)].
Definition bad_env : benv (S := QS) :=
  mkbenv StateDynamics o_cfg [("sdc_progression"%string, q 1)] ["overlap"%string] true.
Theorem C50_rewards_checked_refuted :
  make_env_config o_cfg true (Some o_obs) ["overlap"%string] [("sdc_progression"%string, q 1)] = Ok bad_ec /\
  make_waymax_config (mkdc false) bad_ec = Ok (mkdc false, bad_ec) /\
  make_base_env initial_registry StateDynamics bad_ec = Ok bad_env /\
  loaded false (o_scn 9) /\
  forall acts s', run_episode StateDynamics o_cfg (o_scn 9) acts = Ok s' -> length acts <= 2 ->
    exists err, base_reward initial_registry bad_env s' = Err err.
Proof.
  split; [reflexivity|]. split; [reflexivity|]. split; [reflexivity|].
  split; [split; [eexists; split; [reflexivity|discriminate]|reflexivity]|].
  intros acts s' H L.
  eapply (reward_always_fails 3 4 StateDynamics bad_ec bad_env (o_scn 9) acts s' "sdc_progression"%string);
    [reflexivity | reflexivity | right; left; reflexivity | left; reflexivity | apply o_wf | reflexivity | exact H | simpl; lia].
Qed.

(** Non-vacuity: an accepted configuration with five metrics on loaded data. *)
Definition good_ec : env_config (S := QS) :=
  mkec o_cfg true (Some o_obs) ["log_divergence"; "overlap"; "offroad"; "kinematic_infeasibility"; "overlap"]%string
    [("overlap"%string, q (-1)); ("offroad"%string, q (-1))].
Example C50_example :
  make_waymax_config (mkdc false) good_ec = Ok (mkdc false, good_ec) /\
  (forall name, In name (ec_metrics good_ec) -> documented_metric name) /\
  loaded false (o_scn 9) /\ run_episode StateDynamics (ec_env good_ec) (o_scn 9) [[sact 100 0; sact 200 0; sact 300 0]] = Ok (o_state 9) /\
  make_waymax_config (mkdc false) (mkec o_cfg true None ["overlap"; "sdc_off_route"]%string []) = Err ValueError /\
  make_env_config (S := QS) (mkcfg 3 1 SDC true) true (Some o_obs) [] [] = Err ValueError.
Proof.
  split; [reflexivity|]. split; [|split; [|split; [exact (o_run 9)|split; reflexivity]]].
  - intros name H. unfold documented_metric. simpl in *. tauto.
  - split; [eexists; split; [reflexivity|discriminate]|reflexivity].
Qed.

Print Assumptions C50_env_config.
Print Assumptions C50_waymax_config.
Print Assumptions C50_metrics_never_fail.
Print Assumptions C50_reward_never_fails.
Print Assumptions C50_unchecked_reward_fails.
Print Assumptions C50_rewards_checked_refuted.
