(** C38: the observation window is causal. *)
From Coq Require Import String.
From Coq Require Import List ZArith Bool Lia.
From Verif.Lib Require Import Base JaxIndex Scalar QScalar.
From Verif.Model Require Import Operations State Dynamics BaseEnv Dyn_State Pose Roadgraph Observation Config.
From Verif.Spec Require Import StateSpec ObsSpec.
From Verif.Proofs Require Import P_Observation P_OwnFrame P_Config P_ObsEpisode.
From Verif.Props Require Import Ex ExO.
Import ListNotations.
Local Open Scope nat_scope.

(** In every state reachable with an accepted configuration that asks for k observed
    steps, both observation functions (global frame) succeed and show every observer
    frames t-k+1 .. t of all objects and lights, in order, where t is the current
    step. *)
Theorem C38_window {S : Scalar} n L T c cr o ms rw x d s acts s' rg :
  make_env_config c cr (Some o) ms rw = Ok x ->
  wf_scenario n T s -> rect L T (s_tls s) -> 1 <= c_init_steps c ->
  s_rg s = Some rg -> oc_roadgraph_top_k o <= length rg ->
  run_episode d c s acts = Ok s' -> c_init_steps c + length acts <= T ->
  (exists ob, observation_from_state s' (oc_num_steps o) (oc_roadgraph_top_k o) FRAME_GLOBAL = Ok ob /\ length ob = n /\
     forall i v, nth_error ob i = Some v ->
       shows_window n L (c_init_steps c + length acts - 1) (oc_num_steps o) s' v) /\
  (exists v, sdc_observation_from_state s' (oc_num_steps o) (oc_roadgraph_top_k o) FRAME_GLOBAL = Ok [v] /\
     shows_window n L (c_init_steps c + length acts - 1) (oc_num_steps o) s' v).
Proof. exact (accepted_window n L T c cr o ms rw x d s acts s' rg). Qed.

(** They succeed in every frame. *)
Theorem C38_total {S : Scalar} n L T c cr o ms rw x d s acts s' rg :
  make_env_config c cr (Some o) ms rw = Ok x ->
  wf_scenario n T s -> rect L T (s_tls s) -> 1 <= c_init_steps c ->
  s_rg s = Some rg -> oc_roadgraph_top_k o <= length rg ->
  run_episode d c s acts = Ok s' -> c_init_steps c + length acts <= T ->
  forall fr,
  (exists ob, observation_from_state s' (oc_num_steps o) (oc_roadgraph_top_k o) fr = Ok ob /\ length ob = n) /\
  (exists v, sdc_observation_from_state s' (oc_num_steps o) (oc_roadgraph_top_k o) fr = Ok [v]).
Proof. exact (accepted_total n L T c cr o ms rw x d s acts s' rg). Qed.

(** Any state with the same past (whatever its future, and however long) gives the
    same observation, in every frame. *)
Theorem C38_no_future {S : Scalar} n L T c cr o ms rw x d s acts s' rg :
  make_env_config c cr (Some o) ms rw = Ok x ->
  wf_scenario n T s -> rect L T (s_tls s) -> 1 <= c_init_steps c ->
  s_rg s = Some rg -> oc_roadgraph_top_k o <= length rg ->
  run_episode d c s acts = Ok s' -> c_init_steps c + length acts <= T ->
  forall T2 s2 fr,
  obs_wf n L T2 (c_init_steps c + length acts - 1) s2 ->
  same_past (c_init_steps c + length acts - 1) s' s2 ->
  observation_from_state s' (oc_num_steps o) (oc_roadgraph_top_k o) fr
    = observation_from_state s2 (oc_num_steps o) (oc_roadgraph_top_k o) fr /\
  sdc_observation_from_state s' (oc_num_steps o) (oc_roadgraph_top_k o) fr
    = sdc_observation_from_state s2 (oc_num_steps o) (oc_roadgraph_top_k o) fr.
Proof. exact (accepted_causal n L T c cr o ms rw x d s acts s' rg). Qed.

(** More generally, for any two states at step t and any window of at most t+1 steps
    the observation depends on the simulated past, the lights so far and the static
    data only (the logs may differ everywhere). *)
Theorem C38_causal {S : Scalar} n L T1 T2 t s1 s2 k topk fr :
  obs_wf n L T1 t s1 -> obs_wf n L T2 t s2 -> k <= t + 1 ->
  same_until t (s_sim s1) (s_sim s2) -> same_until t (s_tls s1) (s_tls s2) ->
  s_meta s1 = s_meta s2 -> s_rg s1 = s_rg s2 ->
  observation_from_state s1 k topk fr = observation_from_state s2 k topk fr.
Proof. exact (observation_causal n L T1 T2 t s1 s2 k topk fr). Qed.
Theorem C38_sdc_causal {S : Scalar} n L T1 T2 t s1 s2 k topk fr :
  obs_wf n L T1 t s1 -> obs_wf n L T2 t s2 -> k <= t + 1 ->
  same_until t (s_sim s1) (s_sim s2) -> same_until t (s_tls s1) (s_tls s2) ->
  s_meta s1 = s_meta s2 -> s_rg s1 = s_rg s2 -> s_paths s1 = s_paths s2 ->
  sdc_observation_from_state s1 k topk fr = sdc_observation_from_state s2 k topk fr.
Proof. exact (sdc_observation_causal n L T1 T2 t s1 s2 k topk fr). Qed.

(** Two warm-up steps, two observed steps, one step taken: the configuration is
    accepted, and the light is seen in states 2 and 3. *)
Definition seen_lights (r : res observation) : list (list Z) :=
  match r with Ok (v :: _) => map (map tl_state) (v_tls v) | _ => [] end.
Example C38_example :
  is_ok (make_env_config o_cfg true (Some o_obs) [] []) = true /\
  run_episode StateDynamics o_cfg (o_scn 9) [[sact 100 0; sact 200 0; sact 300 0]] = Ok (o_state 9) /\
  seen_lights (observation_from_state (o_state 9) 2 2 FRAME_GLOBAL) = [[2; 3]]%Z /\
  same_past 2 (o_state 9) (o_state 4) /\ o_state 9 <> o_state 4.
Proof.
  split; [reflexivity|]. split; [exact (o_run 9)|]. split; [vm_compute; reflexivity|]. split.
  - split; [reflexivity|]. split; [reflexivity|].
    split; [intros i k _; reflexivity|].
    split; [intros i k _; reflexivity|].
    split; [|repeat split; reflexivity].
    intros i k Hk; assert (Hk' : (k = 0 \/ k = 1 \/ k = 2)%nat) by (clear - Hk; lia); destruct Hk' as [->|[->| ->]]; destruct i as [|[|i]]; reflexivity.
  - intros E. apply (f_equal (fun s => map (map tl_state) (s_tls s))) in E. vm_compute in E. discriminate.
Qed.

(** Without the check: with one warm-up step and a window of two (a configuration the
    check rejects), the state after reset shows the last two frames of the scenario,
    so two scenarios that only differ at the last step are told apart at step 0. *)
Definition c1 : envcfg := mkcfg 3 1 SDC true.
Definition r1 (last : Z) : state := get ex_state (env_reset c1 (o_scn last)).
Theorem C38_unchecked_refuted :
  make_env_config c1 true (Some o_obs) [] [] = Err ValueError /\
  exists s1 s2 : state (S := QS),
    (exists scn1 scn2, run_episode StateDynamics c1 scn1 [] = Ok s1 /\ run_episode StateDynamics c1 scn2 [] = Ok s2) /\
    obs_wf 3 1 4 0 s1 /\ obs_wf 3 1 4 0 s2 /\ same_past 0 s1 s2 /\
    is_ok (observation_from_state s1 2 2 FRAME_GLOBAL) = true /\
    observation_from_state s1 2 2 FRAME_GLOBAL <> observation_from_state s2 2 2 FRAME_GLOBAL /\
    seen_lights (observation_from_state s1 2 2 FRAME_GLOBAL) = [[3; 9]]%Z.
Proof.
  split; [reflexivity|]. exists (r1 9), (r1 4).
  assert (W : forall l, obs_wf 3 1 4 0 (r1 l)).
  { intros l. split; [|split; [exact (o_tls l)|split; [reflexivity|lia]]].
    repeat split; try reflexivity; try lia;
      intros r [<-|[<-|[<-|[]]]]; reflexivity. }
  split; [exists (o_scn 9), (o_scn 4); split; reflexivity|]. split; [apply W|]. split; [apply W|].
  split; [|split; [vm_compute; reflexivity|split; [|vm_compute; reflexivity]]].
  - split; [reflexivity|]. split; [reflexivity|].
    split; [intros i k _; reflexivity|].
    split; [intros i k _; reflexivity|].
    split; [|repeat split; reflexivity].
    intros i k Hk; assert (Hk' : (k = 0)%nat) by (clear - Hk; lia); subst k; destruct i as [|[|i]]; reflexivity.
  - intros E. apply (f_equal seen_lights) in E. vm_compute in E. discriminate.
Qed.

Print Assumptions C38_window.
Print Assumptions C38_total.
Print Assumptions C38_no_future.
Print Assumptions C38_causal.
Print Assumptions C38_sdc_causal.
Print Assumptions C38_unchecked_refuted.
