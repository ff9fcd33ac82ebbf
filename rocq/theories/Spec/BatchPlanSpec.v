(** Vocabulary for batched sim agents and the batched planning environment: what it means
    that a function on batches treats every scenario on its own. *)
From Coq Require Import String.
From Coq Require Import List ZArith Bool.
From Verif.Lib Require Import Base Scalar.
From Verif.Model Require Import State Dynamics Dyn_State Dyn_Delta Dyn_Bicycle Actor PlanningEnv Batch BatchAgents BatchPlanning.
From Verif.Spec Require Import BatchSpec.
Import ListNotations.

Section BatchPlanSpec.
  Context {S : Scalar} {P X XB K : Type}.

  (** A batch with the shared clock that reset leaves. *)
  Definition running (B : list nat) (n T : nat) (s : bstate) : Prop :=
    batch_of B n T s /\ dims (b_t s) = [].

  (** A choice of objects: one flag per object of every scenario, the scenario's own. *)
  Definition choice_of (B : list nat) (n T : nat) (bc : bstate -> arr bool) (c : state -> list bool) : Prop :=
    forall s, batch_of B n T s -> dims (bc s) = B ++ [n] /\
      forall b, inside B b -> vector (bc s) b = c (scenario s b).

  (** The inverse of a dynamics model between two frames: one action of [w] columns per
      object of every scenario, the scenario's own. *)
  Definition inverse_of (B : list nat) (n w : nat) (bi : binverse)
    (i : traj -> list meta -> Z -> res (list act)) : Prop :=
    forall tr ms, dims tr = B ++ [n; 2] -> dims ms = B ++ [n] ->
      exists acts, bi tr ms (scalar 0%Z) = Ok acts /\ actions_of B n w acts /\
        forall b, inside B b -> i (matrix tr b) (vector ms b) 0%Z = Ok (vector acts b).

  (** What a batched actor remembers of the scenario at a batch index. *)
  Variable part : XB -> list nat -> X.

  (** A batched sim agent that does in every scenario what the agent does when it sees
      that scenario alone. *)
  Definition agent_of (B : list nat) (n T : nat) (ba : bactor P XB K) (a : actor P X K) : Prop :=
    (forall k s, running B n T s ->
       exists x, ba_init ba k s = Ok x /\
         forall b, inside B b -> ac_init a k (scenario s b) = Ok (part x b)) /\
    (forall p s x k, running B n T s ->
       exists o, ba_select ba p s x k = Ok o /\
         actions_of B n 5 (bo_action o) /\ dims (bo_controlled o) = B ++ [n] /\
         forall b, inside B b ->
           ac_select a p (scenario s b) (part x b) k
           = Ok (mkout (part (bo_state o) b) (vector (bo_action o) b) (vector (bo_controlled o) b))).

  (** The planning state at a batch index. *)
  Definition pscenario (ps : bpstate XB) (b : list nat) : pstate X :=
    mkps (scenario (bp_state ps) b) (map (fun x => part x b) (bp_actors ps)).

  (** One planner action of [w] columns per scenario. *)
  Definition planner_actions (B : list nat) (w : nat) (a : arr act) : Prop :=
    dims a = B /\ forall b, inside B b -> length (a_data (cell a b)) = w.
  (** The environment for single scenarios that belongs to a batched one whose dynamics
      updates object by object with [f]. *)
  Definition alone (f : act -> pt -> res upd) inv (e : bpenv P XB K) (ags : list (actor P X K)) : penv P X K :=
    mkpenv (mkdyn (per_object f) inv) (bp_cfg e) (bp_rewards e) (bp_metrics e) (bp_compute_reward e) ags (bp_params e).
End BatchPlanSpec.

(** The shipped dynamics models: the model for single scenarios, its update of one
    object, its inverse on batches and its number of action columns. *)
Inductive shipped {S : Scalar} : dynamics -> (act -> pt -> res upd) -> binverse -> nat -> Prop :=
| ShippedState : shipped StateDynamics state_update b_state_inverse 5
| ShippedGlobal q : shipped (DeltaGlobal q) (delta_global_update q) (b_pair_inverse (delta_global_inverse1 q)) 3
| ShippedLocal q : shipped (DeltaLocal q) (delta_local_update q) (b_local_inverse q) 3
| ShippedBicycle q : shipped (InvertibleBicycleModel q) (bicycle_update q)
                       (b_pair_inverse (bicycle_inverse_action q)) 2.
