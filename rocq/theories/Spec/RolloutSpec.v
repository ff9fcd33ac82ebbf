(** What a rollout is: the rows satisfy the recurrence of the closed loop. *)
From Coq Require Import List ZArith Bool.
From Verif.Lib Require Import Base.
From Verif.Model Require Import Envs Rollout.
Import ListNotations.

(** The random key carried into step [i], and the one the actor gets at step [i]:
    keys are never reused. *)
Fixpoint carried_key {K} (split : K -> nat -> nat -> K) (rng : K) (i : nat) : K :=
  match i with
  | 0 => split rng 2 1
  | S j => split (carried_key split rng j) 2 1
  end.
Definition actor_key {K} (split : K -> nat -> nat -> K) (rng : K) (i : nat) : K :=
  split (carried_key split rng i) 2 0.

(** [rows] is the rollout of [N] steps with actor states [xs]. *)
Record is_rollout {P X K Sc St A O M R} (split : K -> nat -> nat -> K) (zeros_like : A -> A)
  (env : aenv Sc St A O M R) (actor : gactor P X K St A) (params : P)
  (scenario : Sc) (rng : K) (N : nat) (rows : list (row St A O M R)) (xs : list X) : Prop := {
  ir_rows : length rows = S N;
  ir_states : length xs = S N;
  (** row 0 is the reset state *)
  ir_reset : forall r, nth_error rows 0 = Some r -> ae_reset env scenario = Ok (rr_state r);
  ir_init : forall r x, nth_error rows 0 = Some r -> nth_error xs 0 = Some x ->
    ga_init actor (split rng 2 0) (rr_state r) = Ok x;
  (** the actor acts on row i with its threaded state, the environment steps *)
  ir_act : forall i r x x', i < N -> nth_error rows i = Some r ->
    nth_error xs i = Some x -> nth_error xs (S i) = Some x' ->
    ga_select actor params (rr_state r) x (actor_key split rng i) = Ok (rr_action r, x');
  ir_step : forall i r r', i < N -> nth_error rows i = Some r -> nth_error rows (S i) = Some r' ->
    ae_step env (rr_state r) (rr_action r) = Ok (rr_state r');
  (** observation, metrics and reward of row i are those of the state of row i *)
  ir_eval : forall i r, nth_error rows i = Some r ->
    ae_observe env (rr_state r) = Ok (rr_obs r) /\
    ae_metrics env (rr_state r) = Ok (rr_metrics r) /\
    ae_reward env (rr_state r) (rr_action r) = Ok (rr_reward r);
  (** the last row has the zero action *)
  ir_pad : forall r r', nth_error rows (N - 1) = Some r -> nth_error rows N = Some r' ->
    rr_action r' = zeros_like (rr_action r) }.
