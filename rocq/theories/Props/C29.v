(** C29: the linear combination reward. *)
From Coq Require Import String.
From Coq Require Import Reals ZArith List Bool Lra Lia.
From Verif.Lib Require Import Base Scalar XR.
From Verif.Model Require Import State Comfort Metrics.
From Verif.Spec Require Import StateSpec GeomSpec MetricSpec RewardSpec.
From Verif.Proofs Require Import P_Metrics P_Reward.
From Verif.Props Require Import ExM C25 C26.
Import ListNotations.
Open Scope R_scope.

(** For every set of registered metrics, whose results on the state are per object
    or one SDC number: the reward of an object in the mask is the weighted sum of
    its valid results, invalid results contribute nothing, SDC metrics contribute to
    every object of the mask, and objects outside the mask get 0. *)
Theorem C29_linear_reward n reg (s : state (S := XR)) mask (wt : string -> R) (val : string -> nat -> R) names :
  length mask = n ->
  (forall name, In name names -> exists m v, lookup name reg = Some m /\ m s = Ok v /\ shaped n v /\
     forall i, (i < n)%nat -> contributes v i (val name i)) ->
  exists r, linear_reward reg (map (fun name => (name, Fin (wt name))) names) s (fmask mask) = Ok r /\
    length r = n /\
    forall i b, nth_error mask i = Some b ->
      nth_error r i = Some (Fin (if b then Rsum (map (fun name => wt name * val name i) names) else 0)).
Proof. exact (linear_reward_spec n reg s mask wt val names). Qed.

(** A reward function is constructed exactly when all its metrics are registered. *)
Theorem C29_construction {S : Scalar} reg rewards :
  ((forall name, In name (map fst rewards) -> In name (get_metric_names reg)) ->
     make_linear_reward reg rewards = Ok rewards) /\
  (~ (forall name, In name (map fst rewards) -> In name (get_metric_names reg)) ->
     make_linear_reward reg rewards = Err ValueError).
Proof. exact (make_reward_iff reg rewards). Qed.

(** Weights -2 on overlap and 10 on log divergence, objects 0 and 1 in the mask.
    Car 0 overlaps (1) and is 5 m off: -2 + 50.  Car 1 overlaps; its divergence is
    invalid: -2.  Object 2 is outside the mask. *)
Local Open Scope string_scope.
Example C29_example : exists r,
  linear_reward initial_registry [("overlap", Fin (-2)); ("log_divergence", Fin 10)] car_state
    (fmask [true; true; false]) = Ok r /\
  nth_error r 0 = Some (Fin 48) /\ nth_error r 1 = Some (Fin (-2)) /\ nth_error r 2 = Some (Fin 0).
Proof.
  destruct C25_example as (mo & Ho & O0 & O1 & O2). destruct C26_example as (md & Hd & D0 & D1).
  destruct (overlap_metric 3 1 car_state 0 mo 0 _ car_wf eq_refl (le_n 1) Ho eq_refl) as [Lo _].
  destruct (C26_log_divergence 3 1 car_state 0 md 2 _ _ (0, 0) (0, 0) car_wf eq_refl (le_n 1) Hd eq_refl eq_refl
    (bpt_xy _ _ _ _) (bpt_xy _ _ _ _)) as [Ld D2].
  set (wt := fun name => if String.eqb name "overlap" then -2 else 10).
  set (val := fun name (i : nat) => if String.eqb name "overlap" then (match i with 2%nat => 0 | _ => 1 end)
                            else (match i with 0%nat => 5 | _ => 0 end)).
  destruct (C29_linear_reward 3 initial_registry car_state [true; true; false] wt val ["overlap"; "log_divergence"] eq_refl)
    as (r & Hr & _ & N).
  - intros name [<-|[<-|[]]].
    + eexists. exists (PerObject mo). split; [reflexivity|]. split; [cbv beta; rewrite Ho; reflexivity|].
      split; [exact Lo|]. intros [|[|[|i]]] Hi; try lia; simpl; eexists; (split; [eassumption|]).
      * left; auto.
      * left; auto.
      * right; auto.
    + eexists. exists (PerObject md). split; [reflexivity|]. split; [cbv beta; rewrite Hd; reflexivity|].
      split; [exact Ld|]. intros [|[|[|i]]] Hi; try lia; simpl; eexists; (split; [eassumption|]).
      * left; auto.
      * right; auto.
      * right; auto.
  - exists r. split; [exact Hr|].
    rewrite (N 0%nat true eq_refl), (N 1%nat true eq_refl), (N 2%nat false eq_refl). simpl.
    repeat split; do 2 f_equal; unfold wt, val; simpl; lra.
Qed.
Example C29_example_construction :
  make_linear_reward (S := XR) initial_registry [("overlap", Fin (-2))] = Ok [("overlap", Fin (-2))] /\
  make_linear_reward (S := XR) initial_registry [("speed", Fin 1)] = Err ValueError.
Proof. split; reflexivity. Qed.

Print Assumptions C29_linear_reward.
Print Assumptions C29_construction.
