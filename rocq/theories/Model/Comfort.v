(** Model of waymax/metrics/abstract_metric.py and waymax/metrics/comfort.py. *)
From Coq Require Import List ZArith Bool.
From Verif.Lib Require Import Base JaxIndex Scalar.
From Verif.Model Require Import Operations State Dynamics Dyn_Bicycle.
Import ListNotations.

Section Comfort.
  Context {S : Scalar}.
  Local Open Scope F_scope.

  (** abstract_metric.py:26-40, MetricResult of one object (equal shapes of value
      and valid are enforced by validate). *)
  Record mres := mkmres { mr_value : F; mr_valid : bool }.

  (** comfort.py:25, _KIM_EPSILON. *)
  Definition kim_epsilon : F := flit 1 1000.

  (** comfort.py:38-52, constructor parameters and defaults. *)
  Record kim_params := mkkim { km_dt : F; km_max_acc : F; km_max_steering : F }.
  Definition kim_default : kim_params := mkkim (flit 1 10) (flit 104 10) (flit 3 10).

  (** comfort.py:100-111, one object. *)
  Definition kim1 (k : kim_params) (a : act) : mres :=
    match a_data a with
    | accel :: steering :: _ =>
        mkmres (fmul f1 (fbool (fgtb (fabs accel) (km_max_acc k + kim_epsilon)
                        || fgtb (fabs steering) (km_max_steering k + kim_epsilon))))
               (a_valid a)
    | _ => mkmres f0 (a_valid a)
    end.

  (** comfort.py:83-112, compute_kinematics_infeasibility (compute_inverse has
      estimate_yaw_with_velocity=True by default, bicycle_model.py:50). *)
  Definition compute_kinematics_infeasibility (k : kim_params) (tr : traj)
    (timestep : Z) : res (list mres) :=
    let* acts := compute_inverse tr (timestep - 1) (km_dt k) true in
    Ok (map (kim1 k) acts).

  (** comfort.py:54-81, KinematicsInfeasibilityMetric.compute. *)
  Definition kim_compute (k : kim_params) (s : state) : res (list mres) :=
    compute_kinematics_infeasibility k (s_sim s) (s_t s).
End Comfort.
