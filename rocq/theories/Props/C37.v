(** C37: the Brax wrapper. *)
From Coq Require Import String.
From Coq Require Import List ZArith Bool Lia.
From Verif.Lib Require Import Base JaxIndex Scalar QScalar.
From Verif.Model Require Import Operations State Dynamics BaseEnv Dyn_State Metrics Actor PlanningEnv Envs Wrappers.
From Verif.Spec Require Import StateSpec WrapSpec.
From Verif.Proofs Require Import Core Episode P_Actions P_Wrappers P_WrapInst.
From Verif.Props Require Import Ex.
Import ListNotations.
Open Scope nat_scope.

(** What a step returns: next state and its observation, reward and metrics of the
    state before the step, done = terminated or truncated, discount = not terminated. *)
Theorem C37_step {Sc St A O M R} (env : aenv Sc St A O M R) ts a ts' :
  brax_step env ts a = Ok ts' <->
  ae_step env (bt_state ts) a = Ok (bt_state ts') /\
  ae_observe env (bt_state ts') = Ok (bt_obs ts') /\
  ae_reward env (bt_state ts) a = Ok (bt_reward ts') /\
  ae_metrics env (bt_state ts) = Ok (bt_metrics ts') /\
  bt_done ts' = map2 orb (ae_termination env (bt_state ts')) (ae_truncation env (bt_state ts')) /\
  bt_discount ts' = map negb (ae_termination env (bt_state ts')).
Proof. exact (brax_step_Ok env ts a ts'). Qed.

Theorem C37_reset {Sc St A O M R} (env : aenv Sc St A O M R) zero sc ts :
  brax_reset env zero sc = Ok ts <->
  ae_reset env sc = Ok (bt_state ts) /\ ae_observe env (bt_state ts) = Ok (bt_obs ts) /\
  ae_metrics env (bt_state ts) = Ok (bt_metrics ts) /\ bt_reward ts = zero /\
  bt_done ts = ae_termination env (bt_state ts) /\
  bt_discount ts = map (fun _ => true) (ae_termination env (bt_state ts)).
Proof. exact (brax_reset_Ok env zero sc ts). Qed.

(** Over a whole episode of an environment with k steps: after m actions the state is
    the environment's, the discount 1, and done holds exactly when m = k > 0. *)
Theorem C37_episode {Sc St A O M R} (env : aenv Sc St A O M R) zero raw_reward scn ok inv :
  episodic env raw_reward (fun _ a => Ok a) scn ok inv ->
  forall sc k acts t0 ts, scn sc k -> Forall ok acts -> length acts <= k ->
  brax_reset env zero sc = Ok t0 -> brax_steps env t0 acts = Ok ts ->
  user_steps env (fun _ a => Ok a) (bt_state t0) acts = Ok (bt_state ts) /\
  ae_observe env (bt_state ts) = Ok (bt_obs ts) /\
  exists b, 0 < b /\ bt_discount ts = repeat true b /\
    bt_done ts = repeat (negb (length acts =? 0) && (length acts =? k)) b.
Proof. exact (brax_run env zero raw_reward scn ok inv). Qed.

(** The multi-agent environment qualifies, with episodes of T - init_steps steps. *)
Theorem C37_base_environment {S : Scalar} reg (e : benv) n h dim :
  c_max_num_objects (be_cfg e) = n -> c_init_steps (be_cfg e) = h -> 1 <= h ->
  c_controlled (be_cfg e) <> NON_SDC ->
  dyn_total (be_dyn e) (fun a => length (a_data a) = dim) ->
  (forall T s, wf_state n T s -> exists r, base_reward reg e s = Ok r) ->
  episodic (base_env reg e) (fun s _ => base_reward reg e s) (fun _ a => Ok a)
    (fun s k => wf_scenario n (h + k) s)
    (fun acts => length acts = n /\ Forall (fun a => length (a_data a) = dim) acts) (steps_left n).
Proof. exact (base_episodic_actions reg e n h dim). Qed.

(** Example: two steps; done after exactly the second. *)
Definition ex_benv : benv := mkbenv StateDynamics (ex_cfg SDC false) [] [] false.
Definition ex_reset := brax_reset (base_env [] ex_benv) (repeat f0 3) ex_state.
Definition ex_done (acts : list (list act)) : option (list bool * Z) :=
  match (let* t := ex_reset in brax_steps (base_env [] ex_benv) t acts) with
  | Ok ts => Some (bt_done ts, s_t (bt_state ts)) | Err _ => None end.
Example C37_ex :
  ex_done [] = Some ([false], 1%Z) /\ ex_done (firstn 1 ex_acts) = Some ([false], 2%Z) /\
  ex_done ex_acts = Some ([true], 3%Z).
Proof. vm_compute. auto. Qed.

(** A scenario without any step left is not reported as done by reset. *)
Theorem C37_reset_reports_exhausted_scenario_refuted :
  exists (e : benv) (sc s : state) ts,
    wf_scenario 3 4 sc /\ ae_reset (base_env [] e) sc = Ok s /\
    ae_truncation (base_env [] e) s = [true] /\ is_done s = true /\
    brax_reset (base_env [] e) (repeat f0 3) sc = Ok ts /\ bt_done ts = [false].
Proof.
  set (e := mkbenv StateDynamics (mkcfg 3 4 SDC false) [] [] false).
  destruct (env_reset_total 3 4 (mkcfg 3 4 SDC false) ex_state) as [s Hs]; [apply ex_wf|reflexivity|auto|].
  exists e, ex_state, s, (mkbts s s (repeat f0 3) [false] [true] []).
  assert (L : steps_left 3 s 0).
  { destruct (reset_left 3 4 (mkcfg 3 4 SDC false) ex_state 0) as (s' & Hs' & L); auto; [exact ex_wf|].
    rewrite Hs in Hs'. now injection Hs' as <-. }
  destruct (steps_left_done 3 s 0 L) as [D1 D2].
  split; [apply ex_wf|]. split; [exact Hs|]. split; [cbn; now rewrite D2|]. split; [exact D1|].
  split; [|reflexivity]. apply brax_reset_Ok. cbn [bt_state bt_obs bt_reward bt_done bt_discount bt_metrics].
  split; [exact Hs|]. repeat split; reflexivity.
Qed.

Print Assumptions C37_step.
Print Assumptions C37_reset.
Print Assumptions C37_episode.
Print Assumptions C37_base_environment.
Print Assumptions C37_reset_reports_exhausted_scenario_refuted.
