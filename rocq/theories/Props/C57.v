(** C57: closed-loop simulation does not look ahead. *)
From Coq Require Import String.
From Coq Require Import List ZArith Bool Lia.
From Verif.Lib Require Import Base JaxIndex Scalar QScalar.
From Verif.Model Require Import Operations State Dynamics BaseEnv Dyn_State Expert Pose Roadgraph Observation Config.
From Verif.Spec Require Import StateSpec DynSpec ObsSpec.
From Verif.Proofs Require Import P_Observation P_Config P_ObsEpisode.
From Verif.Props Require Import Ex ExO.
Import ListNotations.
Local Open Scope nat_scope.

(** Take two scenarios of the same objects, routes and map whose logs and lights agree
    up to step t, the step reached after k steps.  A policy that only uses the past
    and present drives both to states with the same simulated past.  This holds for
    every dynamics model and configuration, and although objects that are not
    controlled replay the log. *)
Theorem C57_no_lookahead {S : Scalar} n L T1 T2 d c pol s1 s2 k r1 r2 :
  wf_scenario n T1 s1 -> wf_scenario n T2 s2 -> rect L T1 (s_tls s1) -> rect L T2 (s_tls s2) ->
  1 <= c_init_steps c -> c_init_steps c + k <= T1 -> c_init_steps c + k <= T2 ->
  causal (c_init_steps c - 1) pol ->
  run_policy d c pol s1 k = Ok r1 -> run_policy d c pol s2 k = Ok r2 ->
  same_start (c_init_steps c + k - 1) s1 s2 ->
  same_past (c_init_steps c + k - 1) r1 r2.
Proof. exact (lookahead n L T1 T2 d c pol s1 s2 k r1 r2). Qed.

(** A policy that looks through an observation of the last k steps is such a policy
    from step k-1 on, whatever it does with the observation. *)
Theorem C57_observers_are_causal {S : Scalar} k topk fr f : causal (k - 1) (observing k topk fr f).
Proof. exact (observing_causal k topk fr f). Qed.

(** So policies on the configured observation of an accepted configuration never look
    ahead. *)
Theorem C57_accepted_observation {S : Scalar} n L T1 T2 c cr o ms rw x d f s1 s2 k r1 r2 :
  make_env_config c cr (Some o) ms rw = Ok x -> 1 <= c_init_steps c ->
  wf_scenario n T1 s1 -> wf_scenario n T2 s2 -> rect L T1 (s_tls s1) -> rect L T2 (s_tls s2) ->
  c_init_steps c + k <= T1 -> c_init_steps c + k <= T2 ->
  run_policy d c (observing (oc_num_steps o) (oc_roadgraph_top_k o) (oc_coordinate_frame o) f) s1 k = Ok r1 ->
  run_policy d c (observing (oc_num_steps o) (oc_roadgraph_top_k o) (oc_coordinate_frame o) f) s2 k = Ok r2 ->
  same_start (c_init_steps c + k - 1) s1 s2 ->
  same_past (c_init_steps c + k - 1) r1 r2.
Proof. exact (observer_no_lookahead n L T1 T2 c cr o ms rw x d f s1 s2 k r1 r2). Qed.

(** A policy that drives to x = state of the light; the scenario with another future
    (log and light change at step 3). *)
Definition chase (o : observation (S := QS)) : res (list act) :=
  match o with
  | v :: _ => match v_tls v with
              | row :: _ => Ok (repeat (sact (tl_state (last row (otl 0))) 0) 3)
              | [] => Err ValueError end
  | [] => Err ValueError
  end.
Definition other : state :=
  mkstate [] (map (fun r => firstn 3 r ++ [expt 50 50 true])%list ex_log) [[otl 1; otl 2; otl 3; otl 4]] ex_meta 17 None (Some o_rg).
Definition policy := observing (S := QS) 2 2 FRAME_GLOBAL chase.
Definition out (s : state) (k : nat) : state := get ex_state (run_policy StateDynamics o_cfg policy s k).
Lemma out_ok s k : is_ok (run_policy StateDynamics o_cfg policy s k) = true ->
  run_policy StateDynamics o_cfg policy s k = Ok (out s k).
Proof. unfold out. apply is_ok_get. Qed.
Lemma other_start : same_start 2 (o_scn 9) other.
Proof.
  split; [|split; [|repeat split; reflexivity]].
  - intros i k Hk; assert (Hk' : (k = 0 \/ k = 1 \/ k = 2)%nat) by (clear - Hk; lia); destruct Hk' as [->|[->| ->]]; destruct i as [|[|[|[|i]]]]; reflexivity.
  - intros i k Hk; assert (Hk' : (k = 0 \/ k = 1 \/ k = 2)%nat) by (clear - Hk; lia); destruct Hk' as [->|[->| ->]]; destruct i as [|[|[|i]]]; reflexivity.
Qed.
Lemma other_neq : o_scn 9 <> other.
Proof. intros E. apply (f_equal (fun s => map (map tl_state) (s_tls s))) in E. vm_compute in E. discriminate. Qed.
Lemma out1 : run_policy StateDynamics o_cfg policy (o_scn 9) 1 = Ok (out (o_scn 9) 1).
Proof. apply out_ok. vm_compute. reflexivity. Qed.
Lemma out2 : run_policy StateDynamics o_cfg policy other 1 = Ok (out other 1).
Proof. apply out_ok. vm_compute. reflexivity. Qed.
Lemma out3 : run_policy StateDynamics o_cfg policy (o_scn 9) 2 = Ok (out (o_scn 9) 2).
Proof. apply out_ok. vm_compute. reflexivity. Qed.
Lemma out4 : xval (at2 (s_sim (out (o_scn 9) 2)) 0 3) = 3%Z.
Proof. vm_compute. reflexivity. Qed.
Lemma out5 : (xval (at2 (s_sim (out (o_scn 9) 2)) 1 3) =? xval (at2 (s_sim (out other 2)) 1 3))%Z = false.
Proof. vm_compute. reflexivity. Qed.
Example C57_example :
  same_start 2 (o_scn 9) other /\ o_scn 9 <> other /\
  run_policy StateDynamics o_cfg policy (o_scn 9) 1 = Ok (out (o_scn 9) 1) /\
  run_policy StateDynamics o_cfg policy other 1 = Ok (out other 1) /\
  run_policy StateDynamics o_cfg policy (o_scn 9) 2 = Ok (out (o_scn 9) 2) /\
  xval (at2 (s_sim (out (o_scn 9) 2)) 0 3) = 3%Z /\
  at2 (s_sim (out (o_scn 9) 2)) 1 3 <> at2 (s_sim (out other 2)) 1 3.
Proof. exact (conj other_start (conj other_neq (conj out1 (conj out2 (conj out3 (conj out4 (xval_neq _ _ out5))))))). Qed.

(** The expert policy does look ahead: it acts differently in two reachable states
    with the same past. *)
Definition st1 : state := Eval vm_compute in out (o_scn 9) 1.
Definition st2 : state := Eval vm_compute in out other 1.
Theorem C57_expert_refuted : ~ causal (S := QS) 2 (infer_expert_action StateDynamics).
Proof.
  intros C.
  assert (W1 : obs_wf 3 1 4 2 st1).
  { split; [|split; [exact (o_tls 9)|split; [reflexivity|lia]]].
    repeat split; try lia; intros r [<-|[<-|[<-|[]]]]; reflexivity. }
  assert (W2 : obs_wf 3 1 4 2 st2).
  { split; [|split; [exact (o_tls 4)|split; [reflexivity|lia]]].
    repeat split; try lia; intros r [<-|[<-|[<-|[]]]]; reflexivity. }
  assert (SP : same_past 2 st1 st2).
  { split; [reflexivity|]. split; [reflexivity|].
    split; [intros i k Hk; assert (Hk' : (k = 0 \/ k = 1 \/ k = 2)%nat) by (clear - Hk; lia); destruct Hk' as [->|[->| ->]]; destruct i as [|[|[|[|i]]]]; reflexivity|].
    split; [intros i k Hk; assert (Hk' : (k = 0 \/ k = 1 \/ k = 2)%nat) by (clear - Hk; lia); destruct Hk' as [->|[->| ->]]; destruct i as [|[|[|[|i]]]]; reflexivity|].
    split; [intros i k Hk; assert (Hk' : (k = 0 \/ k = 1 \/ k = 2)%nat) by (clear - Hk; lia); destruct Hk' as [->|[->| ->]]; destruct i as [|[|[|[|i]]]]; reflexivity|].
    repeat split; reflexivity. }
  specialize (C 3 1 4 4 2 _ _ (le_n 2) W1 W2 SP).
  apply (f_equal (fun r => match r with Ok (a :: _) => map (fun x : @F QS => QArith_base.Qnum x) (a_data a) | _ => [] end)) in C.
  vm_compute in C. discriminate.
Qed.
Example C57_expert_reachable :
  run_policy StateDynamics o_cfg policy (o_scn 9) 1 = Ok st1 /\
  run_policy StateDynamics o_cfg policy other 1 = Ok st2.
Proof.
  split; [exact (eq_refl (Ok st1) <: run_policy StateDynamics o_cfg policy (o_scn 9) 1 = Ok st1)
         |exact (eq_refl (Ok st2) <: run_policy StateDynamics o_cfg policy other 1 = Ok st2)].
Qed.

Print Assumptions C57_no_lookahead.
Print Assumptions C57_observers_are_causal.
Print Assumptions C57_accepted_observation.
Print Assumptions C57_expert_refuted.
