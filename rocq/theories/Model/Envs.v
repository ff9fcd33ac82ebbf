(** Model of waymax/env/abstract_environment.py (the interface) and of the two
    environments of the repository as instances of it. *)
From Coq Require Import String.
From Coq Require Import List ZArith Bool.
From Verif.Lib Require Import Base JaxIndex Scalar.
From Verif.Model Require Import Operations State Dynamics BaseEnv Metrics Actor PlanningEnv.
Import ListNotations.

(** abstract_environment.py:24-163, AbstractEnvironment.  Scenarios, states, actions,
    observations, metrics and rewards are arbitrary PyTrees there, arbitrary types
    here.  termination and truncation return one flag per batch element.
    [ae_is_done] is the state's is_done property (simulator_state.py:90-94). *)
Record aenv (Sc St A O M R : Type) := mkaenv {
  ae_reset : Sc -> res St;
  ae_step : St -> A -> res St;
  ae_reward : St -> A -> res R;
  ae_metrics : St -> res M;
  ae_observe : St -> res O;
  ae_termination : St -> list bool;
  ae_truncation : St -> list bool;
  ae_is_done : St -> bool }.
Arguments ae_reset {Sc St A O M R}.
Arguments ae_step {Sc St A O M R}.
Arguments ae_reward {Sc St A O M R}.
Arguments ae_metrics {Sc St A O M R}.
Arguments ae_observe {Sc St A O M R}.
Arguments ae_termination {Sc St A O M R}.
Arguments ae_truncation {Sc St A O M R}.
Arguments ae_is_done {Sc St A O M R}.

Section Envs.
  Context {S : Scalar}.

  (** base_environment.py:37-62: the attributes of BaseEnvironment, with the
      configuration fields they come from. *)
  Record benv := mkbenv {
    be_dyn : dynamics; be_cfg : envcfg;
    be_rewards : list (string * F); be_metrics : list string; be_compute_reward : bool }.

  (** base_environment.py:145-166, reward (the action is not used). *)
  Definition base_reward (reg : registry) (e : benv) (s : state) : res (list F) :=
    if be_compute_reward e then
      let* mask := get_control_mask (s_meta s) (c_controlled (be_cfg e)) in
      linear_reward reg (be_rewards e) s (map fbool mask)
    else Ok (repeat f0 (c_max_num_objects (be_cfg e))).

  (** base_environment.py:94-111: observe returns the state; metrics runs the
      configured metrics (base_environment.py:60-62). *)
  Definition base_env (reg : registry) (e : benv)
    : aenv state state (list act) state (list (string * mval)) (list F) :=
    mkaenv _ _ _ _ _ _
      (env_reset (be_cfg e))
      (env_step (be_dyn e) (be_cfg e))
      (fun s _ => base_reward reg e s)
      (fun s => run_metrics reg s (be_metrics e))
      (fun s => Ok s)
      (fun s => [termination s]) (fun s => [truncation s]) is_done.

  (** planning_agent_environment.py:164-446, PlanningAgentEnvironment; the rollout and
      the wrappers call reset and step without rng. *)
  Definition planning_env {P X K} (split : K -> nat -> nat -> K) (reg : registry) (e : penv P X K)
    : aenv state (pstate X) act (pstate X) (list (string * mval)) F :=
    mkaenv _ _ _ _ _ _
      (fun s => penv_reset split e s None)
      (fun ps a => penv_step split e ps a None)
      (fun ps _ => penv_reward reg e ps)
      (penv_metrics reg e)
      (fun ps => Ok ps)
      (fun ps => [termination (ps_state ps)]) (fun ps => [truncation (ps_state ps)])
      (fun ps => is_done (ps_state ps)).
End Envs.
