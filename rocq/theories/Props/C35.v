(** C35: the dm_env protocol, for every history of reset and step calls. *)
From Coq Require Import String.
From Coq Require Import List ZArith Bool Lia.
From Verif.Lib Require Import Base JaxIndex Scalar QScalar.
From Verif.Model Require Import Operations State Dynamics BaseEnv Dyn_State Dyn_Delta Metrics Actor PlanningEnv Envs Batch Specs Wrappers.
From Verif.Spec Require Import StateSpec WrapSpec SpecsSpec.
From Verif.Proofs Require Import Core Episode P_Actions P_Wrappers P_WrapInst P_Specs.
From Verif.Props Require Import Ex.
Import ListNotations.
Open Scope nat_scope.

(** For every environment with episodes of known length, every data stream and every
    call history, the kinds of time steps and the exceptions are those of the
    protocol automaton (Spec/WrapSpec.v): reset gives FIRST, a step before the first
    reset and a step after LAST raise, LAST comes exactly with the last step. *)
Theorem C35_protocol {Sc St A O M R RA} (env : aenv Sc St A O M R)
  (raw_reward : St -> RA -> res R) (to_action : St -> RA -> res A) scn ok inv :
  episodic env raw_reward to_action scn ok inv ->
  forall sc0 data ks h w, Forall2 scn data ks -> Forall (fun k => 0 < k) ks ->
  make_dm (sc0 :: data) = Ok w -> legal ok h ->
  map outcome_of (snd (dm_run env raw_reward to_action w h)) = protocol ks None h.
Proof. exact (dm_protocol env raw_reward to_action scn ok inv). Qed.

(** The multi-agent environment has such episodes: T - init_steps steps.  Its dynamics
    model has a vector action spec [sp] (C63: all shipped models but StateDynamics);
    every array with the right number of entries is accepted. *)
Theorem C35_base_environment {S : Scalar} reg (e : benv) n h dim sp :
  c_max_num_objects (be_cfg e) = n -> c_init_steps (be_cfg e) = h -> 1 <= h ->
  c_controlled (be_cfg e) <> NON_SDC ->
  dyn_total (be_dyn e) (fun a => length (a_data a) = dim) ->
  (forall T s, wf_state n T s -> exists r, base_reward reg e s = Ok r) ->
  vector_spec dim sp ->
  episodic (base_env reg e) (fun s _ => base_reward reg e s) (base_to_action (be_cfg e) (Ok sp))
    (fun s k => wf_scenario n (h + k) s) (fun a => numel (dims a) = n * dim) (steps_left n).
Proof. exact (base_episodic reg e n h dim sp). Qed.

(** So has the planning-agent environment without sim agents. *)
Theorem C35_planning_environment {S : Scalar} {P X K} split reg (e : penv P X K) n h dim sp :
  pe_agents e = [] -> pe_params e = [] ->
  c_max_num_objects (pe_cfg e) = n -> c_init_steps (pe_cfg e) = h -> 1 <= h ->
  dyn_total (pe_dyn e) (fun a => length (a_data a) = dim) ->
  (forall T s, wf_state n T s -> exists r, penv_reward reg e (mkps s []) = Ok r) ->
  bs_shape sp = [dim] -> 1 <= dim ->
  episodic (planning_env split reg e) (fun ps _ => penv_reward reg e ps) (planning_to_action (Ok sp))
    (fun s k => wf_scenario n (h + k) s) (fun a => numel (dims a) = dim)
    (fun ps k => ps_actors ps = [] /\ steps_left n (ps_state ps) k).
Proof. exact (planning_episodic split reg e n h dim sp). Qed.

(** Put together for the multi-agent environment: scenarios of h + k_i steps. *)
Theorem C35_base_protocol {S : Scalar} reg (e : benv) n h dim sp sc0 data ks hist w :
  c_max_num_objects (be_cfg e) = n -> c_init_steps (be_cfg e) = h -> 1 <= h ->
  c_controlled (be_cfg e) <> NON_SDC ->
  dyn_total (be_dyn e) (fun a => length (a_data a) = dim) ->
  (forall T s, wf_state n T s -> exists r, base_reward reg e s = Ok r) ->
  vector_spec dim sp ->
  Forall2 (fun s k => wf_scenario n (h + k) s) data ks -> Forall (fun k => 0 < k) ks ->
  make_dm (sc0 :: data) = Ok w -> legal (fun a => numel (dims a) = n * dim) hist ->
  map outcome_of (snd (dm_run (base_env reg e) (fun s _ => base_reward reg e s)
                         (base_to_action (be_cfg e) (Ok sp)) w hist)) = protocol ks None hist.
Proof.
  intros H1 H2 H3 H4 H5 H6 HV H7 H8 H9 H10.
  exact (dm_protocol _ _ _ _ _ _ (base_episodic reg e n h dim sp H1 H2 H3 H4 H5 H6 HV) sc0 data ks hist w H7 H8 H9 H10).
Qed.

(** Refused steps leave the wrapper as it was, in every environment. *)
Theorem C35_refused_steps_change_nothing {Sc St A O M R RA} (env : aenv Sc St A O M R)
  (raw_reward : St -> RA -> res R) (to_action : St -> RA -> res A) w a :
  (dm_initialized w = false ->
     dm_step env raw_reward to_action w a = (w, Err SimulationNotInitializedError)) /\
  (dm_initialized w = true -> dm_done w = true ->
     dm_step env raw_reward to_action w a = (w, Err EpisodeAlreadyFinishedError)).
Proof.
  exact (conj (step_uninitialised env raw_reward to_action w a) (step_finished env raw_reward to_action w a)).
Qed.

(** The repository's environments never terminate, so the discount is 1 on every
    step that is not FIRST, and FIRST carries neither reward nor discount. *)
Theorem C35_discount_is_one {Sc St A O M R RA} (env : aenv Sc St A O M R)
  (raw_reward : St -> RA -> res R) (to_action : St -> RA -> res A) :
  (forall s x, In x (ae_termination env s) -> x = false) ->
  forall h w r ts, In r (snd (dm_run env raw_reward to_action w h)) -> r = Ok ts ->
  (ts_type ts = FIRST /\ ts_reward ts = None /\ ts_discount ts = None) \/
  (ts_type ts <> FIRST /\ ts_reward ts <> None /\
   exists l, ts_discount ts = Some l /\ forall x, In x l -> x = true).
Proof. exact (discount_one env raw_reward to_action). Qed.

(** Each accepted step: reward of the state before, observation of the state after,
    the user's action applied to the environment. *)
Theorem C35_step_effect {Sc St A O M R RA} (env : aenv Sc St A O M R)
  (raw_reward : St -> RA -> res R) (to_action : St -> RA -> res A) w a w' ts :
  dm_step env raw_reward to_action w a = (w', Ok ts) ->
  exists s r b s', dm_initialized w = true /\ dm_done w = false /\ dm_cur w = Some s /\
    raw_reward s a = Ok r /\ to_action s a = Ok b /\ ae_step env s b = Ok s' /\
    ts_reward ts = Some r /\ ae_observe env s' = Ok (ts_obs ts) /\
    let done := map2 orb (ae_termination env s') (ae_truncation env s') in
    let last := forallb (fun x => x) done in
    ts_type ts = (if last then LAST else MID) /\
    ts_discount ts = Some (if last then map negb (ae_termination env s') else [true]) /\
    (last = false -> existsb (fun x => x) done = false) /\
    w' = mkdm (dm_data w) (dm_sample w) (Some s') true last.
Proof. exact (dm_step_Ok env raw_reward to_action w w' ts a). Qed.

(** Example: one unused scenario and two episodes of two steps each; a step too
    early, a step too late, a reset in mid-episode, a reset too many. *)
Definition ex_dp : delta_params (S := QS) := mkdp (S := QS) (flit 1 10) (q 6) (q 6) (q 3).
Definition ex_spec : bspec := mkbs [3] Dfloat32 (vec1 (fst (delta_spec ex_dp))) (vec1 (snd (delta_spec ex_dp))).
Definition ex_benv : benv := mkbenv (DeltaGlobal ex_dp) (ex_cfg SDC false) [] [] false.
Definition ex_dm := mkdm (St := state) [ex_state; ex_state] ex_state None false false.
Definition ex_raw : arr F := mkA [3; 3] (fun i => q (Z.of_nat (nth 1 i 0))).
Definition ex_hist : list (call (arr F)) :=
  [CallStep ex_raw; CallReset; CallStep ex_raw; CallReset; CallStep ex_raw; CallStep ex_raw;
   CallStep ex_raw; CallReset].

Lemma ex_spec_Ok : delta_action_spec ex_dp = Ok ex_spec.
Proof. reflexivity. Qed.

Lemma ex_total : dyn_total (DeltaGlobal ex_dp) (fun a => length (a_data a) = 3).
Proof. apply delta_global_total. Qed.

Example C35_ex :
  map outcome_of (snd (dm_run (base_env [] ex_benv) (fun s _ => base_reward [] ex_benv s)
                         (base_to_action (be_cfg ex_benv) (delta_action_spec ex_dp)) ex_dm ex_hist))
  = protocol [2; 2] None ex_hist /\
  protocol [2; 2] None ex_hist
  = [Raised SimulationNotInitializedError; Returned FIRST; Returned MID; Returned FIRST;
     Returned MID; Returned LAST; Raised EpisodeAlreadyFinishedError; Raised StopIteration].
Proof.
  split; [|reflexivity]. rewrite ex_spec_Ok.
  apply (C35_base_protocol [] ex_benv 3 2 3 ex_spec ex_state [ex_state; ex_state]); try reflexivity.
  - auto.
  - discriminate.
  - exact ex_total.
  - intros T s _. eexists. now apply base_reward_off.
  - apply (delta_vec ex_dp). exact ex_spec_Ok.
  - repeat constructor; apply ex_wf.
  - repeat constructor.
  - intros a H. cbn in H. repeat destruct H as [H|H]; try discriminate; try easy; injection H as <-; reflexivity.
Qed.

(** The same outcomes computed by running the wrapper. *)
Example C35_ex_run :
  map outcome_of (snd (dm_run (base_env [] ex_benv) (fun s _ => base_reward [] ex_benv s)
                         (base_to_action (be_cfg ex_benv) (delta_action_spec ex_dp)) ex_dm ex_hist))
  = [Raised SimulationNotInitializedError; Returned FIRST; Returned MID; Returned FIRST;
     Returned MID; Returned LAST; Raised EpisodeAlreadyFinishedError; Raised StopIteration].
Proof. vm_compute. reflexivity. Qed.

Print Assumptions C35_protocol.
Print Assumptions C35_base_environment.
Print Assumptions C35_planning_environment.
Print Assumptions C35_base_protocol.
Print Assumptions C35_refused_steps_change_nothing.
Print Assumptions C35_discount_is_one.
Print Assumptions C35_step_effect.
