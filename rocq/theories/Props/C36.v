(** C36: which scenarios the dm_env wrapper simulates. *)
From Coq Require Import String.
From Coq Require Import List ZArith Bool Lia.
From Verif.Lib Require Import Base JaxIndex Scalar QScalar.
From Verif.Model Require Import Operations State Dynamics BaseEnv Dyn_State Dyn_Delta Metrics Actor PlanningEnv Envs Batch Specs Wrappers.
From Verif.Spec Require Import StateSpec WrapSpec.
From Verif.Proofs Require Import Core Episode P_Actions P_Wrappers P_WrapInst.
From Verif.Props Require Import Ex.
Import ListNotations.
Open Scope nat_scope.

(** For every environment, stream and history: the stream loses its first scenario to
    the constructor and then one per reset, whether or not the calls succeed; the
    constructor's scenario is kept as the sample and nothing else. *)
Theorem C36_one_scenario_per_reset {Sc St A O M R RA} (env : aenv Sc St A O M R)
  (raw_reward : St -> RA -> res R) (to_action : St -> RA -> res A) sc0 data w h :
  make_dm (sc0 :: data) = Ok w ->
  dm_data (fst (dm_run env raw_reward to_action w h)) = skipn (resets h) data /\
  dm_sample (fst (dm_run env raw_reward to_action w h)) = sc0.
Proof.
  intros H. injection H as <-.
  exact (data_consumed env raw_reward to_action (mkdm data sc0 None false false) h).
Qed.

(** The simulated state is the environment's run of the actions since the last reset
    on the scenario whose position in the stream is the number of earlier resets,
    not counting the constructor's scenario - which is therefore never simulated. *)
Theorem C36_current_state {Sc St A O M R RA} (env : aenv Sc St A O M R)
  (raw_reward : St -> RA -> res R) (to_action : St -> RA -> res A) sc0 data w pre raws w' rs :
  make_dm (sc0 :: data) = Ok w ->
  dm_run env raw_reward to_action w (pre ++ CallReset :: map CallStep raws) = (w', rs) ->
  all_ok (skipn (length pre) rs) ->
  exists sc s0 s, nth_error data (resets pre) = Some sc /\
    ae_reset env sc = Ok s0 /\ user_steps env to_action s0 raws = Ok s /\
    simulation_state w' = Ok (Some s).
Proof.
  intros H HR HO. injection H as <-.
  destruct (current_state env raw_reward to_action _ pre raws w' rs HR HO)
    as (sc & s0 & s & H1 & H2 & H3 & H4).
  exists sc, s0, s. split; [exact H1|]. split; auto. split; auto.
  unfold simulation_state. rewrite H4.
  enough (dm_initialized w' = true) as -> by reflexivity.
  exact (current_initialized env raw_reward to_action _ pre raws w' rs HR HO).
Qed.

(** An empty stream cannot build a wrapper; a reset on a drained one raises
    StopIteration and changes nothing. *)
Theorem C36_drained {Sc St A O M R} (env : aenv Sc St A O M R) (w : dmenv Sc St) :
  make_dm (@nil Sc) = Err (A := dmenv Sc St) StopIteration /\
  (dm_data w = [] -> dm_reset env (R := R) w = (w, Err StopIteration)).
Proof.
  split; [reflexivity|]. intros H. unfold dm_reset. now rewrite H.
Qed.

(** A reset on a scenario that is exhausted from the start raises, but the wrapper
    then holds that scenario, counts as initialised, and keeps its done flag. *)
Theorem C36_exhausted_scenario {Sc St A O M R} (env : aenv Sc St A O M R) w sc rest s :
  dm_data w = sc :: rest -> ae_reset env sc = Ok s -> ae_is_done env s = true ->
  exists w', dm_reset env (R := R) w = (w', Err SimulationNotInitializedError) /\
    simulation_state w' = Ok (Some s) /\ dm_data w' = rest /\ dm_done w' = dm_done w.
Proof.
  intros H1 H2 H3. eexists. split; [exact (exhausted_reset env w sc rest s H1 H2 H3)|]. auto.
Qed.

(** So "a step is refused unless the last reset succeeded" is false: after the
    raising reset a step of the exhausted scenario is accepted. *)
Definition ex_dp : delta_params (S := QS) := mkdp (S := QS) (flit 1 10) (q 6) (q 6) (q 3).
Definition ex_done_benv : benv := mkbenv (DeltaGlobal ex_dp) (mkcfg 3 4 SDC false) [] [] false.
Definition ex_raw : arr F := mkA [3; 3] (fun i => q (Z.of_nat (nth 1 i 0) + 1)).
Theorem C36_step_needs_successful_reset_refuted :
  exists (e : benv) (sc : state) (raw : arr F) w,
    wf_scenario 3 4 sc /\ make_dm [sc; sc] = Ok w /\
    map outcome_of (snd (dm_run (base_env [] e) (fun s _ => base_reward [] e s)
       (base_to_action (be_cfg e) (delta_action_spec ex_dp)) w [CallReset; CallStep raw]))
    = [Raised SimulationNotInitializedError; Returned LAST].
Proof.
  exists ex_done_benv, ex_state, ex_raw. eexists.
  split; [apply ex_wf|]. split; [reflexivity|]. vm_compute. reflexivity.
Qed.

(** In a batch whose elements do not all finish together a step raises, although the
    simulation advanced; the wrapper accepts further steps. *)
Theorem C36_uneven_batch {Sc St A O M R RA} (env : aenv Sc St A O M R)
  (raw_reward : St -> RA -> res R) (to_action : St -> RA -> res A) w s a r b s' :
  dm_initialized w = true -> dm_done w = false -> dm_cur w = Some s ->
  raw_reward s a = Ok r -> to_action s a = Ok b -> ae_step env s b = Ok s' ->
  let done := map2 orb (ae_termination env s') (ae_truncation env s') in
  In true done -> In false done ->
  dm_step env raw_reward to_action w a
  = (mkdm (dm_data w) (dm_sample w) (Some s') true false, Err NotImplementedError).
Proof. exact (mixed_batch env raw_reward to_action w s a r b s'). Qed.

(** Examples. *)
Definition ex_benv : benv := mkbenv (DeltaGlobal ex_dp) (ex_cfg SDC false) [] [] false.
Definition ex_late : state := mkstate [] (map (map (fun p => mkpt (p_x p + q 50)%F (p_y p) (p_z p) (p_vx p)
  (p_vy p) (p_yaw p) (p_valid p) (p_ts p) (p_len p) (p_wid p) (p_hei p))) ex_log) [] ex_meta 3 None None.
Definition ex_after (h : list (call (arr F))) :=
  dm_run (base_env [] ex_benv) (fun s _ => base_reward [] ex_benv s)
    (base_to_action (be_cfg ex_benv) (delta_action_spec ex_dp)) (mkdm [ex_state; ex_late] ex_late None false false) h.
Example C36_ex_second_reset :
  let (w, rs) := ex_after [CallReset; CallStep ex_raw; CallReset; CallStep ex_raw] in
  forallb is_ok rs = true /\ length (dm_data w) = 0 /\
  match dm_cur w with
  | Some s => s_t s = 2%Z /\ xval (at2 (s_log s) 0 0) = 50%Z /\ xval (at2 (s_sim s) 0 2) = 52%Z
  | None => False end.
Proof. vm_compute. repeat split; reflexivity. Qed.

(** A batch of two scenarios with one and two steps left. *)
Definition ex_batch : aenv (nat * nat) (nat * nat) unit unit unit unit :=
  mkaenv _ _ _ _ _ _ (fun s => Ok s) (fun s _ => Ok (fst s - 1, snd s - 1)) (fun _ _ => Ok tt)
    (fun _ => Ok tt) (fun _ => Ok tt) (fun _ => [false; false])
    (fun s => [fst s =? 0; snd s =? 0]) (fun s => (fst s =? 0) || (snd s =? 0)).
Example C36_ex_uneven :
  dm_run ex_batch (fun _ (_ : unit) => Ok tt) (fun _ _ => Ok tt)
    (mkdm [] (0, 0) (Some (1, 2)) true false) [CallStep tt; CallStep tt]
  = (mkdm [] (0, 0) (Some (0, 0)) true true,
     [Err NotImplementedError; Ok (mkdts LAST (Some tt) (Some [true; true]) tt)]).
Proof. reflexivity. Qed.

Print Assumptions C36_one_scenario_per_reset.
Print Assumptions C36_current_state.
Print Assumptions C36_drained.
Print Assumptions C36_exhausted_scenario.
Print Assumptions C36_step_needs_successful_reset_refuted.
Print Assumptions C36_uneven_batch.
