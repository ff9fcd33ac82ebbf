(** C53: forward of the planning-agent dynamics wrapper. *)
From Coq Require Import List ZArith QArith Lia Bool.
From Verif.Lib Require Import Base JaxIndex Scalar QScalar.
From Verif.Model Require Import Operations State Dynamics BaseEnv Dyn_State Actor PlanningEnv.
From Verif.Spec Require Import StateSpec PlanSpec.
From Verif.Proofs Require Import Core P_PlanRun.
From Verif.Props Require Import Ex.
Import ListNotations.
Open Scope nat_scope.

(** The documented use, one action of shape (dim,) for a scene of any number of
    objects, raises for every scene that does not have exactly one object, whatever
    the shape of the validity array. *)
Theorem C53_forward_fails_unless_one_object {S : Scalar} d a vsh (sim ref : traj) ctrl t inj :
  length sim <> 1 ->
  planning_forward d a vsh sim ref ctrl t inj = Err AssertionError.
Proof. exact (planning_forward_fails d a vsh sim ref ctrl t inj). Qed.

(** With one object it is the wrapped model's forward with object injection off,
    whatever the caller asks for. *)
Theorem C53_forward_one_object {S : Scalar} d a vsh (sim ref : traj) ctrl t inj :
  (vsh = [] \/ vsh = [1]) -> length sim = 1 ->
  planning_forward d a vsh sim ref ctrl t inj = forward d [a] sim ref ctrl t false.
Proof. exact (planning_forward_one d a vsh sim ref ctrl t inj). Qed.

(** So allow_new_objects has no effect, although it is documented to have one:
    the wrapped model itself distinguishes the two settings. *)
Theorem C53_allow_new_objects_ignored {S : Scalar} d a vsh (sim ref : traj) ctrl t inj inj' :
  planning_forward d a vsh sim ref ctrl t inj = planning_forward d a vsh sim ref ctrl t inj'.
Proof. exact (planning_forward_blind d a vsh sim ref ctrl t inj inj'). Qed.

Definition one_sim : traj := [[expt 0 0 false; expt 0 1 false]].
Definition one_log : traj := [[expt 0 0 true; expt 0 1 true]].
Definition first_valid (r : res traj) : bool :=
  match r with Ok m => pvalid (at2 m 0 1) | Err _ => false end.
Theorem C53_wrapped_model_uses_injection_refuted :
  exists d (a : act) sim ref ctrl t,
    forward d [a] sim ref ctrl t true <> forward d [a] sim ref ctrl t false /\
    planning_forward d a [1] sim ref ctrl t true = forward d [a] sim ref ctrl t false.
Proof.
  exists StateDynamics, (sact 5 5), one_sim, one_log, [false], 0%Z.
  split; [|reflexivity].
  intros E. apply (f_equal first_valid) in E. vm_compute in E. discriminate.
Qed.

Example C53_ex : length (s_log ex_state) = 3 /\
  planning_forward StateDynamics (sact 5 5) [1] (s_log ex_state) (s_log ex_state)
    [true; false; false] 0 false = Err AssertionError /\
  is_ok (planning_forward StateDynamics (sact 5 5) [1] one_sim one_log [true] 0 true) = true.
Proof. split; [reflexivity|]. split; [reflexivity|]. vm_compute. reflexivity. Qed.

Print Assumptions C53_forward_fails_unless_one_object.
