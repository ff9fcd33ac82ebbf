(** A concrete scenario used by the non-vacuity examples: three objects, four
    logged steps, two warm-up steps, rational coordinates.  Object 0 (the SDC) is
    always present, object 1 leaves at step 3, object 2 enters at step 2. *)
From Coq Require Import List ZArith QArith Bool.
From Verif.Lib Require Import Base JaxIndex Scalar QScalar.
From Verif.Model Require Import Operations State Dynamics BaseEnv Dyn_State Dyn_Delta Dyn_Bicycle.
From Verif.Spec Require Import StateSpec.
Import ListNotations.

#[global] Existing Instance QS.

Definition q (z : Z) : @F QS := inject_Z z.

Definition expt (i t : Z) (v : bool) : pt :=
  mkpt (q (10 * i + t)) (q i) (q t) (q 10) (q 0) (q 0) v (100000 * t)
    (q (4 + t)) (q 2) (q 1).

Definition ex_log : traj :=
  [ [expt 0 0 true;  expt 0 1 true;  expt 0 2 true; expt 0 3 true];
    [expt 1 0 true;  expt 1 1 true;  expt 1 2 true; expt 1 3 false];
    [expt 2 0 false; expt 2 1 false; expt 2 2 true; expt 2 3 true] ].

Definition ex_meta : list meta :=
  [ mkmeta 7 1 true true true false false;
    mkmeta 8 1 false true true false false;
    mkmeta 9 2 false false true false false ].

(** The incoming simulated trajectory is garbage on purpose. *)
Definition ex_state : state :=
  mkstate [] ex_log [] ex_meta 17 None None.

Definition ex_cfg (ty : objtype) (inj : bool) : envcfg := mkcfg 3 2 ty inj.

(** A StateDynamics action for one object. *)
Definition sact (x y : Z) : act := mkact [q x; q y; q 0; q 1; q 0] true.
Definition ex_acts : list (list act) :=
  [ [sact 100 0; sact 200 0; sact 300 0]; [sact 101 0; sact 201 0; sact 301 0] ].

Definition get {A} (d : A) (r : res A) : A := match r with Ok a => a | Err _ => d end.
Definition is_ok {A} (r : res A) : bool := match r with Ok _ => true | Err _ => false end.
Lemma is_ok_get {A} (d : A) r : is_ok r = true -> r = Ok (get d r).
Proof. destruct r; [reflexivity | discriminate]. Qed.

Lemma ex_wf : wf_scenario 3 4 ex_state.
Proof.
  split; [|repeat split; auto with arith].
  split; [reflexivity|]. intros r [<-|[<-|[<-|[]]]]; reflexivity.
Qed.

(** Final state of a run, [ex_state] if it fails. *)
Definition ex_run (ty : objtype) (inj : bool) (acts : list (list act)) : state :=
  get ex_state (run_episode StateDynamics (ex_cfg ty inj) ex_state acts).

Lemma ex_run_ok ty inj acts :
  is_ok (run_episode StateDynamics (ex_cfg ty inj) ex_state acts) = true ->
  run_episode StateDynamics (ex_cfg ty inj) ex_state acts = Ok (ex_run ty inj acts).
Proof. apply is_ok_get. Qed.

(** x coordinate of an entry as an integer (0 if absent), to separate frames. *)
Definition xval (o : option pt) : Z := match o with Some p => Qnum (p_x p) | None => 0 end.
Lemma xval_neq o o' : (xval o =? xval o')%Z = false -> o <> o'.
Proof. intros H ->. rewrite Z.eqb_refl in H. discriminate. Qed.
Definition pvalid (o : option pt) : bool := match o with Some p => p_valid p | None => false end.
