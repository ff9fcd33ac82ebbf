(** C55: validity flags of updates and inverse actions. *)
From Coq Require Import List ZArith QArith Lia Bool.
From Verif.Lib Require Import Base JaxIndex Scalar QScalar.
From Verif.Model Require Import Operations State Dynamics Dyn_State Dyn_Delta Dyn_Bicycle.
From Verif.Spec Require Import StateSpec ValidSpec.
From Verif.Proofs Require Import P_Valid.
From Verif.Props Require Import Ex.
Import ListNotations.

(** The delta and bicycle models flag an object's update valid exactly when its
    current frame and its action are valid; StateDynamics looks at the action
    only. *)
Theorem C55_update_valid_iff_frame_and_action {S : Scalar} q q' :
  update_valid (fun a p => p_valid p && a_valid a) (DeltaGlobal q) /\
  update_valid (fun a p => p_valid p && a_valid a) (DeltaLocal q) /\
  update_valid (fun a p => p_valid p && a_valid a) (InvertibleBicycleModel q').
Proof. exact (conj (delta_global_valid q) (conj (delta_local_valid q) (bicycle_valid q'))). Qed.

Theorem C55_state_update_valid_iff_action {S : Scalar} :
  update_valid (fun a _ => a_valid a) StateDynamics.
Proof. exact state_valid. Qed.

(** Inverse actions are valid exactly when both frames are; for StateDynamics when
    the next frame is. *)
Theorem C55_inverse_valid_iff_both_frames {S : Scalar} q q' :
  inverse_valid (fun p0 p1 => p_valid p0 && p_valid p1) (DeltaGlobal q) /\
  inverse_valid (fun p0 p1 => p_valid p0 && p_valid p1) (DeltaLocal q) /\
  inverse_valid (fun p0 p1 => p_valid p0 && p_valid p1) (InvertibleBicycleModel q').
Proof. exact (conj (delta_global_inv_valid q) (conj (delta_local_inv_valid q) (bicycle_inv_valid q'))). Qed.

Theorem C55_state_inverse_valid_iff_next_frame {S : Scalar} :
  inverse_valid (fun _ p1 => p_valid p1) StateDynamics.
Proof. exact state_inv_valid. Qed.

(** Non-vacuity: three objects, the third invalid in its frame, the second with an
    invalid action. *)
Definition dact (v : bool) : act := mkact [q 1; q 2; q 0] v.
Example C55_ex :
  match d_update (DeltaGlobal delta_default) [dact true; dact false; dact true]
          [expt 0 0 true; expt 1 0 true; expt 2 0 false] with
  | Ok us => map u_valid us
  | Err _ => []
  end = [true; false; false] /\
  match d_inverse (DeltaLocal delta_default) ex_log ex_meta 2 with
  | Ok us => map a_valid us
  | Err _ => []
  end = [true; false; true].
Proof. split; vm_compute; reflexivity. Qed.

Print Assumptions C55_update_valid_iff_frame_and_action.
Print Assumptions C55_inverse_valid_iff_both_frames.
