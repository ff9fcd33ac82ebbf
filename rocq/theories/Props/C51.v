(** C51: make_sdc_dm_environment. *)
From Coq Require Import String.
From Coq Require Import List ZArith Bool Lia.
From Verif.Lib Require Import Base JaxIndex Scalar QScalar.
From Verif.Model Require Import Operations State Dynamics BaseEnv Dyn_State Metrics Actor PlanningEnv Envs Wrappers.
From Verif.Spec Require Import StateSpec WrapSpec PlanSpec.
From Verif.Proofs Require Import Core Episode P_Wrappers P_WrapInst P_Agents.
From Verif.Props Require Import Ex.
Import ListNotations.

(** With at least one configured sim agent it always fails. *)
Theorem C51_sim_agents_always_fail {S : Scalar} {P X K} (idm : (state -> list bool) -> actor P X K)
  reg d c rewards metrics cr ag agents data :
  exists e, make_sdc_dm_environment idm reg d c rewards metrics cr (Some (ag :: agents)) data = Err e.
Proof. exact (factory_agents idm reg d c rewards metrics cr ag agents data). Qed.

(** Even when everything else is in order - SDC control, known rewards, agents for SDC
    or non-SDC objects - because their parameters are never passed on. *)
Theorem C51_sim_agents_value_error {S : Scalar} {P X K} (idm : (state -> list bool) -> actor P X K)
  reg d c rewards metrics cr ag agents data m :
  c_controlled c = SDC -> make_linear_reward reg rewards = Ok m ->
  Forall (fun a => sa_controlled a = SDC \/ sa_controlled a = NON_SDC) (ag :: agents) ->
  make_sdc_dm_environment idm reg d c rewards metrics cr (Some (ag :: agents)) data = Err ValueError.
Proof. exact (factory_agents_error idm reg d c rewards metrics cr ag agents data m). Qed.

(** Without sim agents it succeeds exactly for SDC control, known reward names and a
    non-empty stream; the environment has no sim agents and the wrapper has taken one
    scenario and is not initialised. *)
Theorem C51_without_sim_agents {S : Scalar} {P X K} (idm : (state -> list bool) -> actor P X K)
  reg d c rewards metrics cr agents data r :
  agents = None \/ agents = Some [] ->
  make_sdc_dm_environment idm reg d c rewards metrics cr agents data = Ok r <->
  c_controlled c = SDC /\ (exists m, make_linear_reward reg rewards = Ok m) /\
  exists sc rest, data = sc :: rest /\
    r = (mkpenv d c rewards metrics cr [] [], mkdm rest sc None false false).
Proof. exact (factory_none idm reg d c rewards metrics cr agents data r). Qed.

(** Which objects a configured agent drives: built for SDC it claims exactly the SDC,
    built for NON_SDC exactly the other objects; no other object type is supported.
    [next] is the trajectory update of the policy the configuration names. *)
Theorem C51_configured_agent_claims {S : Scalar} {P X K} (none : X) (next : state -> res (list upd))
  (c : sim_agent_cfg) :
  let built := create_sim_agents_from_config (P := P) (K := K) (fun ctrl => sim_agent none ctrl next) c in
  let claims_exactly (who : meta -> Prop) :=
    exists ag, built = Ok ag /\ forall p s x k o, ac_select ag p s x k = Ok o ->
      forall i, claims o i <-> exists m, nth_error (s_meta s) i = Some m /\ who m in
  match sa_controlled c with
  | SDC => claims_exactly (fun m => m_is_sdc m = true)
  | NON_SDC => claims_exactly (fun m => m_is_sdc m = false)
  | MODELED | VALID => built = Err NotImplementedError
  end.
Proof.
  destruct c as [[] []]; cbn; try reflexivity; eexists; (split; [reflexivity|]); intros p s x k o H i;
    apply bind_Ok in H as (us & _ & H); apply (f_equal (fun r => match r with Ok o => o_controlled o | Err _ => [] end)) in H;
    cbn in H; unfold claims; rewrite <- H; unfold control_sdc, control_non_sdc; rewrite nth_error_map;
    destruct (nth_error (s_meta s) i) as [m|]; cbn; split.
  all: try (intros E; exists m; split; [reflexivity|]; destruct (m_is_sdc m); cbn in *; congruence).
  all: try (intros (m' & E & E'); injection E as <-; rewrite E'; reflexivity).
  all: try discriminate.
  all: intros (m' & E & _); discriminate.
Qed.
Example C51_ex_configured :
  exists ag, create_sim_agents_from_config (P := unit) (K := nat) (fun ctrl => sim_agent tt ctrl frozen_update)
               (mksac IDM SDC) = Ok ag /\
  exists o, ac_select ag tt ex_state tt None = Ok o /\ In true (o_controlled o) /\ In false (o_controlled o).
Proof. eexists. split; [reflexivity|]. eexists. split; [reflexivity|]. cbn. tauto. Qed.

(** So "every well-formed configuration with sim agents builds an environment" is
    false, and the same configuration without them builds one. *)
Definition ex_idm (ctrl : state -> list bool) : actor unit unit nat :=
  mkactor (fun _ _ => Ok tt) (fun _ s _ _ => Ok (mkout tt [] (ctrl s))).
Theorem C51_configured_agents_work_refuted :
  exists c : envcfg, c_controlled c = SDC /\
    make_sdc_dm_environment ex_idm [] StateDynamics c [] [] false
      (Some [mksac IDM NON_SDC]) [ex_state; ex_state] = Err ValueError /\
    (exists r, make_sdc_dm_environment ex_idm [] StateDynamics c [] [] false
      None [ex_state; ex_state] = Ok r).
Proof.
  exists (ex_cfg SDC false). split; [reflexivity|]. split; [reflexivity|].
  eexists. apply C51_without_sim_agents; [now left|]. split; [reflexivity|].
  split; [eexists; reflexivity|]. eexists _, _. split; reflexivity.
Qed.

Print Assumptions C51_sim_agents_always_fail.
Print Assumptions C51_sim_agents_value_error.
Print Assumptions C51_without_sim_agents.
Print Assumptions C51_configured_agents_work_refuted.
Print Assumptions C51_configured_agent_claims.
