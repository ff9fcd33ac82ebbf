(** C30: the metric registry. *)
From Coq Require Import String.
From Coq Require Import List Bool ZArith.
From Verif.Lib Require Import Base Scalar QScalar.
From Verif.Model Require Import State Comfort Metrics.
From Verif.Spec Require Import RewardSpec.
From Verif.Proofs Require Import P_Reward.
From Verif.Props Require Import Ex.
Import ListNotations.
Local Open Scope string_scope.

(** Registering a taken name raises and changes nothing; a new name is appended. *)
Theorem C30_register {S : Scalar} name m (reg : registry) :
  (In name (get_metric_names reg) -> register_metric name m reg = (Err ValueError, reg)) /\
  (~ In name (get_metric_names reg) -> register_metric name m reg = (Ok tt, (reg ++ [(name, m)])%list)).
Proof. exact (register_spec name m reg). Qed.

(** After any history of registration attempts, each name means the first metric
    ever given to it (the built-in ones first), and the names are listed once each in
    that order. *)
Theorem C30_history {S : Scalar} (attempts : registry) :
  (forall name, lookup name (after attempts) = first_named name (initial_registry ++ attempts)%list) /\
  get_metric_names (after attempts) = distinct (map fst (initial_registry ++ attempts)%list) /\
  NoDup (get_metric_names (after attempts)).
Proof. exact (after_spec attempts). Qed.

(** run_metrics returns exactly the requested names, once each, with the value of
    the registered metric. *)
Theorem C30_run_metrics {S : Scalar} (reg : registry) s names results :
  run_metrics reg s names = Ok results ->
  map fst results = distinct names /\
  forall name, In name names ->
    exists m v, lookup name reg = Some m /\ m s = Ok v /\ lookup name results = Some v.
Proof. exact (run_metrics_Ok reg s names results). Qed.

(** It succeeds when every name is registered and every metric succeeds, and fails
    when a name is unknown: with ValueError if all before it succeed. *)
Theorem C30_run_metrics_total {S : Scalar} (reg : registry) s names :
  (forall name, In name names -> exists m v, lookup name reg = Some m /\ m s = Ok v) ->
  exists results, run_metrics reg s names = Ok results.
Proof. exact (run_metrics_total reg s names). Qed.
Theorem C30_unknown_name {S : Scalar} (reg : registry) s names name :
  In name names -> ~ In name (get_metric_names reg) -> exists e, run_metrics reg s names = Err e.
Proof. exact (run_metrics_unknown reg s names name). Qed.
Theorem C30_unknown_name_value_error {S : Scalar} (reg : registry) s pre name post results :
  run_metrics reg s pre = Ok results -> ~ In name (get_metric_names reg) ->
  run_metrics reg s (pre ++ name :: post)%list = Err ValueError.
Proof. exact (run_metrics_unknown_first reg s pre name post results). Qed.

(** Two attempts on "fuel" and one on "overlap": the first "fuel" counts, "overlap"
    keeps its built-in meaning. *)
Definition fuel (k : nat) : state (S := QS) -> res mval := fun _ => Ok (Scalar0 (mkmres (q (Z.of_nat k)) true)).
Example C30_example :
  get_metric_names (after [("fuel", fuel 1); ("overlap", fuel 2); ("fuel", fuel 3)])
  = ["log_divergence"; "overlap"; "offroad"; "kinematic_infeasibility"; "sdc_wrongway";
     "sdc_progression"; "sdc_off_route"; "fuel"] /\
  lookup "fuel" (after [("fuel", fuel 1); ("overlap", fuel 2); ("fuel", fuel 3)]) = Some (fuel 1) /\
  (exists r, run_metrics (after [("fuel", fuel 1)]) ex_state ["fuel"; "fuel"] = Ok r /\ length r = 1%nat) /\
  run_metrics (after [("fuel", fuel 1)]) ex_state ["fuel"; "speed"; "overlap"] = Err ValueError.
Proof. repeat split; try reflexivity. eexists. split; reflexivity. Qed.

Print Assumptions C30_register.
Print Assumptions C30_history.
Print Assumptions C30_run_metrics.
Print Assumptions C30_run_metrics_total.
Print Assumptions C30_unknown_name.
Print Assumptions C30_unknown_name_value_error.
