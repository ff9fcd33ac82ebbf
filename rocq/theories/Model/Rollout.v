(** Model of waymax/env/rollout.py. *)
From Coq Require Import List ZArith Bool.
From Verif.Lib Require Import Base JaxIndex Scalar.
From Verif.Model Require Import State Dynamics Dyn_State BaseEnv Expert Actor Envs.
Import ListNotations.

Section Rollout.
  Context {P X K Sc St A O M R : Type}.

  (** actor_core.py:63-102, WaymaxActorCore as the rollout uses it: init and
      select_action (action and new actor state). *)
  Record gactor := mkgactor {
    ga_init : K -> St -> res X;
    ga_select : P -> St -> X -> K -> res (A * X) }.

  (** rollout.py:28-45, RolloutCarry. *)
  Record carry := mkcarry { ca_state : St; ca_obs : O; ca_rng : K; ca_actor : X }.

  (** rollout.py:48-90, RolloutOutput; a stacked output is the list of its rows
      along the leading time axis. *)
  Record row := mkrow {
    rr_action : A; rr_state : St; rr_obs : O; rr_metrics : M; rr_reward : R }.

  (** jax.random.split(rng, n): entry i of the n new keys. *)
  Variable split : K -> nat -> nat -> K.
  (** jnp.zeros_like on every leaf of an action. *)
  Variable zeros_like : A -> A.
  Variables (env : aenv Sc St A O M R) (actor : gactor) (params : P).

  (** rollout.py:137-184, _step. *)
  Definition roll_step (c : carry) : res (carry * row) :=
    let action_rng := split (ca_rng c) 2 0 in
    let rng := split (ca_rng c) 2 1 in
    let* o := ga_select actor params (ca_state c) (ca_actor c) action_rng in
    let* next := ae_step env (ca_state c) (fst o) in
    let* next_obs := ae_observe env next in
    let* m := ae_metrics env (ca_state c) in
    let* r := ae_reward env (ca_state c) (fst o) in
    Ok (mkcarry next next_obs rng (snd o), mkrow (fst o) (ca_state c) (ca_obs c) m r).

  (** jax.lax.scan over rollout_num_steps steps. *)
  Fixpoint scan (n : nat) (c : carry) : res (carry * list row) :=
    match n with
    | 0 => Ok (c, [])
    | S n' =>
        let* cr := roll_step c in
        let* crs := scan n' (fst cr) in
        Ok (fst crs, snd cr :: snd crs)
    end.

  (** rollout.py:103-214, rollout.  x[-1] of an axis of size 0 is out of range.
      output.validate() compares leading dimensions that are all
      rollout_num_steps + 1 and is left out. *)
  Definition rollout (scenario : Sc) (rng : K) (rollout_num_steps : nat) : res (list row) :=
    let* s0 := ae_reset env scenario in
    let init_rng := split rng 2 0 in
    let rng' := split rng 2 1 in
    let* x0 := ga_init actor init_rng s0 in
    let* o0 := ae_observe env s0 in
    let* cr := scan rollout_num_steps (mkcarry s0 o0 rng' x0) in
    match rev (snd cr) with
    | [] => Err IndexError
    | r :: _ =>
        let c := fst cr in
        let padding := zeros_like (rr_action r) in
        let* m := ae_metrics env (ca_state c) in
        let* rw := ae_reward env (ca_state c) padding in
        Ok (snd cr ++ [mkrow padding (ca_state c) (ca_obs c) m rw])
    end.
End Rollout.
Arguments gactor : clear implicits.
Arguments carry : clear implicits.
Arguments row : clear implicits.

Section Instances.
  Context {S : Scalar}.

  (** An actor of the agents package as the rollout of a BaseEnvironment uses it. *)
  Definition base_actor {P X K} (a : actor P X K) : gactor P X K state (list act) :=
    mkgactor (fun k s => ac_init a (Some k) s)
      (fun p s x k => let* o := ac_select a p s x (Some k) in Ok (o_action o, o_state o)).

  (** jnp.zeros_like on the leaves of an Action. *)
  Definition zero_action (a : act) : act := mkact (map (fun _ => f0) (a_data a)) false.
  Definition zero_actions (l : list act) : list act := map zero_action l.

  (** rollout.py:217-230, rollout_log_by_expert_sdc for a BaseEnvironment; the key
      plays no role in the expert actor. *)
  Definition rollout_log_by_expert_sdc {K} (split : K -> nat -> nat -> K) (key0 : K)
    (reg : Metrics.registry) (e : benv) (d : dynamics) (scenario : state) (n : nat) :=
    rollout split zero_actions (base_env reg e)
      (base_actor (expert_actor (P := unit) tt d control_sdc)) tt scenario key0 n.
End Instances.
