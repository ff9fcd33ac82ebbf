(** Independent vocabulary for batched states: which scenario sits at which batch
    index. *)
From Coq Require Import List ZArith Bool.
From Verif.Lib Require Import Base Scalar.
From Verif.Model Require Import State Dynamics Batch.
Import ListNotations.

(** A multi-index into an array of shape [ds]. *)
Definition inside (ds idx : list nat) : Prop := Forall2 (fun d i => i < d) ds idx.

(** The list [f 0; ...; f (n-1)]. *)
Definition tabulate {A} (n : nat) (f : nat -> A) : list A := map f (seq 0 n).

(** The vector stored at batch index [b] of an array of shape B ++ [n]. *)
Definition vector {A} (x : arr A) (b : list nat) : list A :=
  tabulate (nth (length b) (dims x) 0) (fun i => cell x (b ++ [i])).

(** The matrix stored at batch index [b] of an array of shape B ++ [n; T]. *)
Definition matrix {A} (x : arr A) (b : list nat) : list (list A) :=
  tabulate (nth (length b) (dims x) 0) (fun i =>
    tabulate (nth (Datatypes.S (length b)) (dims x) 0) (fun t => cell x (b ++ [i; t]))).

(** The clock of batch index [b]: the timestep array is a scalar shared by the
    whole batch, or has one entry per batch index. *)
Definition clock (t : arr Z) (b : list nat) : Z := cell t (firstn (length (dims t)) b).

Section Spec.
  Context {S : Scalar}.

  (** The paths at batch index [b]. *)
  Definition paths_at (p : arr pathpt * arr bool) (b : list nat) : list path :=
    map (fun q => mkpath (fst q) (snd q))
      (combine (matrix (fst p) b) (vector (snd p) b)).

  (** The single scenario stored at batch index [b]. *)
  Definition scenario (s : bstate) (b : list nat) : state :=
    mkstate (matrix (b_sim s) b) (matrix (b_log s) b) (matrix (b_tls s) b)
      (vector (b_meta s) b) (clock (b_t s) b)
      (option_map (fun p => paths_at p b) (b_paths s))
      (option_map (fun r => vector r b) (b_rg s)).

  (** A batch of shape [B] of scenarios with [n] objects and [T] steps.  The sim
      trajectory has the shape of the log; the timestep is a scalar or has shape
      [B] (simulator_state.py:60-61). *)
  Definition batch_of (B : list nat) (n T : nat) (s : bstate) : Prop :=
    dims (b_sim s) = B ++ [n; T] /\ dims (b_log s) = B ++ [n; T] /\
    dims (b_meta s) = B ++ [n] /\ (dims (b_t s) = [] \/ dims (b_t s) = B).

  (** A batch as loaded; nothing is assumed of the simulated trajectory and the
      timestep. *)
  Definition loaded_batch (B : list nat) (n T : nat) (s : bstate) : Prop :=
    dims (b_log s) = B ++ [n; T] /\ dims (b_meta s) = B ++ [n].

  (** The batch carries [p] paths of [k] points per scenario. *)
  Definition has_paths (B : list nat) (p k : nat) (s : bstate) : Prop :=
    exists pts on_route, b_paths s = Some (pts, on_route) /\
      dims pts = B ++ [p; k] /\ dims on_route = B ++ [p].

  (** The batch carries [m] roadgraph points per scenario. *)
  Definition has_roadgraph (B : list nat) (m : nat) (s : bstate) : Prop :=
    exists rg, b_rg s = Some rg /\ dims rg = B ++ [m].
End Spec.

Section Actions.
  Context {S : Scalar}.

  (** An action array of shape B ++ [n] whose data has [w] columns. *)
  Definition actions_of (B : list nat) (n w : nat) (a : arr act) : Prop :=
    dims a = B ++ [n] /\
    forall i, inside (B ++ [n]) i -> length (a_data (cell a i)) = w.

  (** The update of one object fails only because of the number of action
      columns. *)
  Definition column_checked (f : act -> pt -> res upd) : Prop :=
    forall w, (forall a p, length (a_data a) = w -> exists u, f a p = Ok u) \/
              (exists e, forall a p, length (a_data a) = w -> f a p = Err e).
End Actions.
