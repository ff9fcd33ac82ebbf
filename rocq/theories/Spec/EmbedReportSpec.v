(** Vocabulary for C69: what two listings of one scene say about the SDC. *)
From Coq Require Import String.
From Coq Require Import Reals ZArith List Bool.
From Verif.Lib Require Import Base Scalar XR.
From Verif.Model Require Import Operations State BaseEnv Comfort Metrics Discretizer Actor PlanningEnv.
From Verif.Spec Require Import StateSpec AgentSpec MovedSpec MovedPlanSpec.
Import ListNotations.

(** The metrics of which the planning environment reports the SDC's entry. *)
Definition reported_for_sdc (name : string) : Prop :=
  In name ("kinematic_infeasibility"%string :: per_object_names).

(** Two results per object, finite for everyone (the code sums all values with weight 0
    or 1), with the same entry for the SDC: object [i] of one listing, [i'] of the other. *)
Definition same_sdc_entry (ms : list meta) (i : nat) (ms' : list meta) (i' : nat) (v v' : mval (S := XR)) : Prop :=
  exists l l' m, v = PerObject l /\ v' = PerObject l' /\ length l = length ms /\ length l' = length ms' /\
    Forall (fun x => finite (mr_value x)) l /\ Forall (fun x => finite (mr_value x)) l' /\
    nth_error l i = Some m /\ nth_error l' i' = Some m.

(** The metric called [name] says the same about the SDC. *)
Definition tells_same (ms : list meta) (i : nat) (ms' : list meta) (i' : nat) (name : string) (v v' : mval (S := XR)) : Prop :=
  (reported_for_sdc name -> same_sdc_entry ms i ms' i' v v') /\ (~ reported_for_sdc name -> v' = v).

(** For the reward: the same entry for the SDC, or one result for the scenario, finite if
    it is valid. *)
Definition counted_same (ms : list meta) (i : nat) (ms' : list meta) (i' : nat) (v v' : mval (S := XR)) : Prop :=
  same_sdc_entry ms i ms' i' v v' \/
  exists m, v = Scalar0 m /\ v' = Scalar0 m /\ (mr_valid m = true -> finite (mr_value m)).

(** What each shipped metric needs for that. *)
Definition listing_comparable (name : string) (s s' : state (S := XR)) (i i' : nat) : Prop :=
  if String.eqb name "log_divergence" then finite_now s /\ finite_now s'
  else if String.eqb name "offroad" then exists rg, s_rg s = Some rg /\ rg <> []
  else if String.eqb name "overlap" then True
  else if String.eqb name "kinematic_infeasibility" then (2 <= num_timesteps (s_log s))%nat
  else route_readable s i /\ route_readable s' i'.
