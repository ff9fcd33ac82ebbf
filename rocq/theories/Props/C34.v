(** C34: what a rollout is, for every environment, actor, scenario, key and length. *)
From Coq Require Import String.
From Coq Require Import List ZArith Bool Lia.
From Verif.Lib Require Import Base JaxIndex Scalar QScalar.
From Verif.Model Require Import Operations State Dynamics BaseEnv Dyn_State Expert Actor Envs Rollout.
From Verif.Spec Require Import StateSpec RolloutSpec.
From Verif.Proofs Require Import Core Episode P_Rollout.
From Verif.Props Require Import Ex.
Import ListNotations.
Open Scope nat_scope.

(** The result of rollout is exactly the closed-loop recurrence [is_rollout]: N+1
    rows, row 0 the reset state, the actor asked on each state with its threaded
    state and a fresh key, the environment stepped with the answer, everything in
    row i evaluated on state i, last action zero.  It fails on 0 steps. *)
Theorem C34_rollout_is_closed_loop {P X K Sc St A O M R} (split : K -> nat -> nat -> K)
  (zeros : A -> A) (env : aenv Sc St A O M R) (actor : gactor P X K St A) params scenario rng N rows :
  rollout split zeros env actor params scenario rng N = Ok rows <->
  0 < N /\ exists xs, is_rollout split zeros env actor params scenario rng N rows xs.
Proof. exact (rollout_spec split zeros env actor params scenario rng N rows). Qed.

(** A longer rollout from the same key extends a shorter one: the first N states,
    actions, observations, metrics and rewards agree. *)
Theorem C34_rollout_prefix {P X K Sc St A O M R} (split : K -> nat -> nat -> K)
  (zeros : A -> A) (env : aenv Sc St A O M R) (actor : gactor P X K St A) params scenario rng N N' rows rows' :
  rollout split zeros env actor params scenario rng N = Ok rows ->
  rollout split zeros env actor params scenario rng N' = Ok rows' -> N <= N' ->
  (forall i, i < N -> nth_error rows' i = nth_error rows i) /\
  (exists r r', nth_error rows N = Some r /\ nth_error rows' N = Some r' /\
     rr_state r' = rr_state r /\ rr_obs r' = rr_obs r /\ rr_metrics r' = rr_metrics r).
Proof. exact (rollout_prefix split zeros env actor params scenario rng N N' rows rows'). Qed.

(** In the base environment row i is the state after the first i returned actions
    and its clock is init_steps - 1 + i. *)
Theorem C34_rows_are_episode {S : Scalar} {P X K} (split : K -> nat -> nat -> K) reg (e : benv)
  (ac : gactor P X K state (list act)) params s rng N rows :
  rollout split zero_actions (base_env reg e) ac params s rng N = Ok rows ->
  forall i r, nth_error rows i = Some r ->
    run_episode (be_dyn e) (be_cfg e) s (firstn i (map rr_action rows)) = Ok (rr_state r) /\
    s_t (rr_state r) = (Z.of_nat (c_init_steps (be_cfg e) + i) - 1)%Z /\
    same_scenario s (rr_state r).
Proof. exact (rollout_base_episode split reg e ac params s rng N rows). Qed.

(** The last row's action has the shape of the one before, is all zero and flagged
    invalid for every object. *)
Theorem C34_padding_action_is_invalid {S : Scalar} {P X K} (split : K -> nat -> nat -> K) reg (e : benv)
  (ac : gactor P X K state (list act)) params s rng N rows :
  rollout split zero_actions (base_env reg e) ac params s rng N = Ok rows ->
  exists r r', nth_error rows (N - 1) = Some r /\ nth_error rows N = Some r' /\
    length (rr_action r') = length (rr_action r) /\
    forall i a, nth_error (rr_action r) i = Some a ->
      exists z, nth_error (rr_action r') i = Some z /\ a_valid z = false /\
        length (a_data z) = length (a_data a) /\ Forall (fun y => y = f0) (a_data z).
Proof. exact (rollout_padding split reg e ac params s rng N rows). Qed.

(** rollout_log_by_expert_sdc with StateDynamics reproduces the log of every object. *)
Theorem C34_expert_rollout_replays_log {S : Scalar} {K} (split : K -> nat -> nat -> K) key0 reg
  (e : benv) n T s N rows :
  be_dyn e = StateDynamics -> wf_scenario n T s -> 1 <= c_init_steps (be_cfg e) ->
  c_init_steps (be_cfg e) + N <= T ->
  rollout_log_by_expert_sdc split key0 reg e (be_dyn e) s N = Ok rows ->
  forall j r i t, nth_error rows j = Some r -> i < n -> t < c_init_steps (be_cfg e) + j ->
    exists p l, at2 (s_sim (rr_state r)) i t = Some p /\ at2 (s_log s) i t = Some l /\
      same_pose p l /\ p_ts p = p_ts l.
Proof. exact (expert_rollout_replays split key0 reg e n T s N rows). Qed.

(** A rollout of any positive length succeeds when everything it calls does. *)
Theorem C34_rollout_total {P X K Sc St A O M R} (split : K -> nat -> nat -> K)
  (zeros : A -> A) (env : aenv Sc St A O M R) (actor : gactor P X K St A) params
  (inv : St -> Prop) scenario rng N :
  0 < N ->
  (exists s, ae_reset env scenario = Ok s /\ inv s) ->
  (forall k s, inv s -> exists x, ga_init actor k s = Ok x) ->
  (forall s x k, inv s -> exists a x', ga_select actor params s x k = Ok (a, x') /\
     exists s', ae_step env s a = Ok s' /\ inv s') ->
  (forall s, inv s -> exists o, ae_observe env s = Ok o) ->
  (forall s, inv s -> exists m, ae_metrics env s = Ok m) ->
  (forall s a, inv s -> exists r, ae_reward env s a = Ok r) ->
  exists rows, rollout split zeros env actor params scenario rng N = Ok rows.
Proof. exact (rollout_total split zeros env actor params inv scenario rng N). Qed.

(** Examples: two steps on the example scenario. *)
Definition ex_benv (ty : objtype) : benv := mkbenv StateDynamics (ex_cfg ty false) [] [] false.
Definition ex_split (k : Z) (n i : nat) : Z := (k * 10 + Z.of_nat i)%Z.
Definition ex_rows (N : nat) :=
  get [] (rollout_log_by_expert_sdc ex_split 1%Z [] (ex_benv SDC) StateDynamics ex_state N).
Lemma ex_rows_ok N :
  is_ok (rollout_log_by_expert_sdc ex_split 1%Z [] (ex_benv SDC) StateDynamics ex_state N) = true ->
  rollout_log_by_expert_sdc ex_split 1%Z [] (ex_benv SDC) StateDynamics ex_state N = Ok (ex_rows N).
Proof. apply is_ok_get. Qed.

Example C34_ex_rollout :
  rollout_log_by_expert_sdc ex_split 1%Z [] (ex_benv SDC) StateDynamics ex_state 2 = Ok (ex_rows 2) /\
  length (ex_rows 2) = 3 /\ wf_scenario 3 4 ex_state /\
  map (fun r => s_t (rr_state r)) (ex_rows 2) = [1%Z; 2%Z; 3%Z] /\
  map (fun r => xval (at2 (s_sim (rr_state r)) 0 3)) (ex_rows 2) = [(-1)%Z; (-1)%Z; 3%Z].
Proof.
  split; [apply ex_rows_ok; vm_compute; reflexivity|].
  split; [vm_compute; reflexivity|]. split; [apply ex_wf|].
  split; vm_compute; reflexivity.
Qed.

(** The documentation requires rollout_num_steps to be at most the remaining
    timesteps, but nothing checks it: a longer rollout is accepted, its clock runs
    past the end of the scenario, and its last logged frame is overwritten. *)
Theorem C34_overlong_rollout_rejected_refuted :
  exists (s : state) n T N rows r,
    wf_scenario n T s /\ T < c_init_steps (be_cfg (ex_benv SDC)) + N /\
    rollout_log_by_expert_sdc ex_split 1%Z [] (ex_benv SDC) StateDynamics s N = Ok rows /\
    nth_error rows N = Some r /\ (Z.of_nat T <= s_t (rr_state r))%Z.
Proof.
  assert (E : option_map (fun r => s_t (rr_state r)) (nth_error (ex_rows 4) 4) = Some 5%Z)
    by (vm_compute; reflexivity).
  destruct (nth_error (ex_rows 4) 4) as [r|] eqn:Er; [|discriminate].
  cbn [option_map] in E. apply (f_equal (fun o => match o with Some z => z | None => 0%Z end)) in E. cbn beta iota in E.
  exists ex_state, 3, 4, 4, (ex_rows 4), r.
  split; [apply ex_wf|]. split; [cbn; lia|].
  split; [apply ex_rows_ok; vm_compute; reflexivity|].
  split; [exact Er|]. change (Z.of_nat 4 <= s_t (S := QS) (rr_state r))%Z. rewrite E. lia.
Qed.

Print Assumptions C34_padding_action_is_invalid.
Print Assumptions C34_rollout_is_closed_loop.
Print Assumptions C34_rollout_prefix.
Print Assumptions C34_rollout_total.
Print Assumptions C34_rows_are_episode.
Print Assumptions C34_expert_rollout_replays_log.
Print Assumptions C34_overlong_rollout_rejected_refuted.
