(** Observations along episodes of accepted configurations (C38). *)
From Coq Require Import String.
From Coq Require Import List ZArith Bool Lia.
From Verif.Lib Require Import Base JaxIndex Scalar.
From Verif.Model Require Import Operations State Dynamics BaseEnv Pose Roadgraph Observation Config.
From Verif.Spec Require Import StateSpec DynSpec ObsSpec.
From Verif.Proofs Require Import Core Episode P_Observation P_OwnFrame P_Config.
Import ListNotations.
Local Open Scope nat_scope.

Section ObsEpisode.
  Context {S : Scalar}.

  Lemma global_window n L T t s k topk rg : obs_wf n L T t s -> k <= t + 1 -> s_rg s = Some rg -> topk <= length rg ->
    exists o, observation_from_state s k topk FRAME_GLOBAL = Ok o /\ length o = n /\
      forall i v, nth_error o i = Some v -> shows_window n L t k s v.
  Proof.
    intros W HK HG HT.
    destruct (observation_spec n L T t s k topk FRAME_GLOBAL rg W HK HG HT)
      as (o & win & tlw & isdc & psdc & Ho & Lo & Rw & Rt & Aw & At & _ & _ & _ & V).
    exists o. split; [exact Ho|]. split; [exact Lo|]. intros i v Hv.
    destruct (V i) as (p & rgf & _ & _ & E); [rewrite <- Lo; eapply nth_error_Some_lt; eauto|].
    rewrite Hv in E. injection E as ->. cbn [frame_view]. repeat split; auto; try apply Rw; try apply Rt.
  Qed.

  Lemma sdc_global_window n L T t s k topk rg : obs_wf n L T t s -> k <= t + 1 -> s_rg s = Some rg -> topk <= length rg ->
    exists v, sdc_observation_from_state s k topk FRAME_GLOBAL = Ok [v] /\ shows_window n L t k s v.
  Proof.
    intros W HK HG HT.
    destruct (sdc_observation_spec n L T t s k topk FRAME_GLOBAL rg W HK HG HT)
      as (win & tlw & isdc & psdc & rgf & Rw & Rt & Aw & At & _ & _ & _ & _ & Ho).
    eexists. split; [exact Ho|]. cbn [frame_view]. repeat split; auto; try apply Rw; try apply Rt.
  Qed.

  Lemma total_any n L T t s k topk fr rg : obs_wf n L T t s -> k <= t + 1 -> s_rg s = Some rg -> topk <= length rg ->
    (exists o, observation_from_state s k topk fr = Ok o /\ length o = n) /\
    (exists v, sdc_observation_from_state s k topk fr = Ok [v]).
  Proof.
    intros W HK HG HT. split.
    - destruct (observation_spec n L T t s k topk fr rg W HK HG HT) as (o & _ & _ & _ & _ & Ho & Lo & _). eauto.
    - destruct (sdc_observation_spec n L T t s k topk fr rg W HK HG HT)
        as (win & tlw & isdc & psdc & rgf & _ & _ & _ & _ & _ & _ & _ & _ & Ho). eauto.
  Qed.
End ObsEpisode.

Section Accepted.
  Context {S : Scalar} (n L T : nat) (c : envcfg) (cr : bool) (o : obs_config) (ms : list string)
    (rw : list (string * F)) (x : env_config) (d : dynamics) (s : state) (acts : list (list act)) (s' : state) (rg : list rgpt).
  Hypothesis A : make_env_config c cr (Some o) ms rw = Ok x.
  Hypothesis W : wf_scenario n T s.
  Hypothesis RT : rect L T (s_tls s).
  Hypothesis HI : 1 <= c_init_steps c.
  Hypothesis HG : s_rg s = Some rg.
  Hypothesis HK : oc_roadgraph_top_k o <= length rg.
  Hypothesis HR : run_episode d c s acts = Ok s'.
  Hypothesis HL : c_init_steps c + length acts <= T.
  Let t := c_init_steps c + length acts - 1.
  Let k := oc_num_steps o.
  Let topk := oc_roadgraph_top_k o.

  Lemma accepted_window :
    (exists ob, observation_from_state s' k topk FRAME_GLOBAL = Ok ob /\ length ob = n /\
       forall i v, nth_error ob i = Some v -> shows_window n L t k s' v) /\
    (exists v, sdc_observation_from_state s' k topk FRAME_GLOBAL = Ok [v] /\ shows_window n L t k s' v).
  Proof.
    destruct (observe_accepted n L T c cr o ms rw x d s acts s' rg A W RT HI HG HK HR HL) as (W' & HK' & HG').
    split; [eapply global_window | eapply sdc_global_window]; eauto.
  Qed.

  Lemma accepted_total fr :
    (exists ob, observation_from_state s' k topk fr = Ok ob /\ length ob = n) /\
    (exists v, sdc_observation_from_state s' k topk fr = Ok [v]).
  Proof.
    destruct (observe_accepted n L T c cr o ms rw x d s acts s' rg A W RT HI HG HK HR HL) as (W' & HK' & HG').
    eapply total_any; eauto.
  Qed.

  (** Whatever happens after the current step does not show: any well-formed state
      with the same past gives the same observation. *)
  Lemma accepted_causal T2 s2 fr : obs_wf n L T2 t s2 -> same_past t s' s2 ->
    observation_from_state s' k topk fr = observation_from_state s2 k topk fr /\
    sdc_observation_from_state s' k topk fr = sdc_observation_from_state s2 k topk fr.
  Proof.
    intros W2 (_ & _ & E1 & _ & E2 & E3 & E4 & E5).
    destruct (observe_accepted n L T c cr o ms rw x d s acts s' rg A W RT HI HG HK HR HL) as (W' & HK' & HG').
    split; [eapply (observation_causal n L T T2) | eapply (sdc_observation_causal n L T T2)]; eauto.
  Qed.
End Accepted.

Lemma causal_le {S : Scalar} {A} t0 t1 (pol : state -> A) : t0 <= t1 -> causal t0 pol -> causal t1 pol.
Proof. intros H C n L T1 T2 t s1 s2 Ht. apply C. lia. Qed.

(** Policies that look through the configured observation. *)
Lemma observer_no_lookahead {S : Scalar} n L T1 T2 c cr o ms rw x d f s1 s2 k r1 r2 :
  make_env_config c cr (Some o) ms rw = Ok x -> 1 <= c_init_steps c ->
  wf_scenario n T1 s1 -> wf_scenario n T2 s2 -> rect L T1 (s_tls s1) -> rect L T2 (s_tls s2) ->
  c_init_steps c + k <= T1 -> c_init_steps c + k <= T2 ->
  run_policy d c (observing (oc_num_steps o) (oc_roadgraph_top_k o) (oc_coordinate_frame o) f) s1 k = Ok r1 ->
  run_policy d c (observing (oc_num_steps o) (oc_roadgraph_top_k o) (oc_coordinate_frame o) f) s2 k = Ok r2 ->
  same_start (c_init_steps c + k - 1) s1 s2 ->
  same_past (c_init_steps c + k - 1) r1 r2.
Proof.
  intros A HI W1 W2 R1 R2 K1 K2 E1 E2 SS.
  assert (oc_num_steps o <= c_init_steps c).
  { destruct (env_config_iff c cr (Some o) ms rw) as [_ B].
    destruct (le_lt_dec (oc_num_steps o) (c_init_steps c)) as [|G]; auto.
    rewrite B in A; [discriminate|]. intros H. specialize (H o eq_refl). lia. }
  eapply (lookahead n L T1 T2); eauto. eapply causal_le; [|apply observing_causal]. lia.
Qed.
