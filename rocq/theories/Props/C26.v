(** C26: the log divergence metric. *)
From Coq Require Import Reals ZArith List Bool Lra Lia.
From Verif.Lib Require Import Base Scalar XR.
From Verif.Model Require Import State Dynamics BaseEnv Dyn_State Expert Comfort Metrics.
From Verif.Spec Require Import StateSpec GeomSpec DynSpec MetricSpec.
From Verif.Proofs Require Import P_Metrics P_MetricsRun.
From Verif.Props Require Import ExM ExR.
Import ListNotations.
Open Scope R_scope.

Theorem C26_total {S : Scalar} n T s : wf_state n T s -> exists ms, log_divergence_compute s = Ok ms.
Proof. exact (log_divergence_total n T s). Qed.

(** The value is the distance between simulated and logged position of the current
    step; it is valid exactly when both frames are. *)
Theorem C26_log_divergence n T (s : state (S := XR)) t ms j p l c d :
  wf_state n T s -> s_t s = Z.of_nat t -> (t < T)%nat -> log_divergence_compute s = Ok ms ->
  at2 (s_sim s) j t = Some p -> at2 (s_log s) j t = Some l -> has_xy p c -> has_xy l d ->
  length ms = n /\ nth_error ms j = Some (mkmres (Fin (dist c d)) (p_valid p && p_valid l)).
Proof. exact (log_divergence_metric n T s t ms j p l c d). Qed.

(** Non-negative, and zero exactly when the positions agree. *)
Theorem C26_nonneg_and_zero n T (s : state (S := XR)) t ms j p l c d :
  wf_state n T s -> s_t s = Z.of_nat t -> (t < T)%nat -> log_divergence_compute s = Ok ms ->
  at2 (s_sim s) j t = Some p -> at2 (s_log s) j t = Some l -> has_xy p c -> has_xy l d ->
  exists m v, nth_error ms j = Some m /\ mr_value m = Fin v /\ 0 <= v /\ (v = 0 <-> c = d).
Proof.
  intros W Ht HT H Hp Hl Hc Hd.
  destruct (log_divergence_metric n T s t ms j p l c d W Ht HT H Hp Hl Hc Hd) as [_ E].
  eexists. exists (dist c d). split; [exact E|]. split; [reflexivity|]. split; [apply sqrt_pos|apply dist_zero].
Qed.

(** The validity flag, for every number type. *)
Theorem C26_validity {S : Scalar} n T s t ms j p l :
  wf_state n T s -> s_t s = Z.of_nat t -> (t < T)%nat -> log_divergence_compute s = Ok ms ->
  at2 (s_sim s) j t = Some p -> at2 (s_log s) j t = Some l ->
  exists v, nth_error ms j = Some (mkmres v (p_valid p && p_valid l)).
Proof. exact (log_divergence_frames n T s t ms j p l). Qed.

(** Closed-loop expert control with StateDynamics has log divergence 0 after any
    number of steps. *)
Theorem C26_expert_has_no_divergence n T c (s s' : state (S := XR)) k i :
  wf_scenario n T s -> run_policy StateDynamics c (infer_expert_action StateDynamics) s k = Ok s' ->
  (1 <= c_init_steps c)%nat -> (c_init_steps c + k <= T)%nat -> (i < n)%nat ->
  (exists l x, at2 (s_log s) i (c_init_steps c + k - 1) = Some l /\ has_xy l x) ->
  exists ms v, log_divergence_compute s' = Ok ms /\ nth_error ms i = Some (mkmres (Fin 0) v).
Proof. exact (expert_divergence n T c s s' k i). Qed.

(** Car 0 is 5 m away from its logged place; car 1 is at its place but was not
    observed. *)
Example C26_example : exists ms, log_divergence_compute car_state = Ok ms /\
  nth_error ms 0 = Some (mkmres (Fin 5) true) /\ nth_error ms 1 = Some (mkmres (Fin 0) false).
Proof.
  destruct (C26_total 3 1 car_state car_wf) as [ms H]. exists ms. split; [exact H|].
  destruct (C26_log_divergence 3 1 car_state 0 ms 0 _ _ (0, 0) (3, 4) car_wf eq_refl (le_n 1) H eq_refl eq_refl
    (bpt_xy _ _ _ _) (bpt_xy _ _ _ _)) as [_ A].
  destruct (C26_log_divergence 3 1 car_state 0 ms 1 _ _ (2, 1) (2, 1) car_wf eq_refl (le_n 1) H eq_refl eq_refl
    (bpt_xy _ _ _ _) (bpt_xy _ _ _ _)) as [_ B].
  rewrite A, B. replace (dist (0, 0) (3, 4)) with 5.
  - replace (dist (2, 1) (2, 1)) with 0 by (symmetry; now apply dist_zero). split; reflexivity.
  - unfold dist; cbn [fst snd]. replace (_ + _) with (5 * 5) by ring. symmetry. apply sqrt_square. lra.
Qed.
Example C26_example_expert :
  wf_scenario 1 3 rscn /\
  (exists s', run_policy StateDynamics rcfg (infer_expert_action StateDynamics) rscn 2 = Ok s') /\
  (exists l x, at2 (s_log rscn) 0 2 = Some l /\ has_xy l x).
Proof.
  split; [exact rscn_wf|]. split; [eexists; reflexivity|].
  eexists. exists (2, 0). split; [reflexivity|]. split; reflexivity.
Qed.

Print Assumptions C26_total.
Print Assumptions C26_log_divergence.
Print Assumptions C26_nonneg_and_zero.
Print Assumptions C26_validity.
Print Assumptions C26_expert_has_no_divergence.
