(** Independent description of the dm_env protocol and of episodic environments. *)
From Coq Require Import List ZArith Bool Lia.
From Verif.Lib Require Import Base.
From Verif.Model Require Import Envs Wrappers.
Import ListNotations.

(** What a caller sees of one call: the kind of time step or the exception. *)
Inductive outcome := Returned (t : step_type) | Raised (e : exn).
Definition outcome_of {O R} (r : res (dm_timestep O R)) : outcome :=
  match r with Ok t => Returned (ts_type t) | Err e => Raised e end.

(** The dm_env protocol as an automaton.  Its state is the number of steps left in
    the running episode (None: never reset); [ks] are the episode lengths of the
    scenarios still to come. *)
Fixpoint protocol {RA} (ks : list nat) (left : option nat) (h : list (call RA)) : list outcome :=
  match h with
  | [] => []
  | CallReset :: h' =>
      match ks with
      | [] => Raised StopIteration :: protocol ks left h'
      | k :: ks' => Returned FIRST :: protocol ks' (Some k) h'
      end
  | CallStep _ :: h' =>
      match left with
      | None => Raised SimulationNotInitializedError :: protocol ks left h'
      | Some 0 => Raised EpisodeAlreadyFinishedError :: protocol ks left h'
      | Some 1 => Returned LAST :: protocol ks (Some 0) h'
      | Some (S k) => Returned MID :: protocol ks (Some k) h'
      end
  end.

(** An environment with episodes of known length: [scn sc k] - scenario [sc] gives an
    episode of [k] steps; [inv s k] - state [s] has [k] steps left; [ok] - legal user
    actions.  Resetting and stepping never fail and count down; the state is done and
    truncated exactly when no step is left; it never terminates. *)
Record episodic {Sc St A O M R RA} (env : aenv Sc St A O M R)
  (raw_reward : St -> RA -> res R) (to_action : St -> RA -> res A)
  (scn : Sc -> nat -> Prop) (ok : RA -> Prop) (inv : St -> nat -> Prop) : Prop := {
  ep_reset : forall sc k, scn sc k -> exists s, ae_reset env sc = Ok s /\ inv s k;
  ep_step : forall s k raw, inv s (S k) -> ok raw -> exists r a s',
    raw_reward s raw = Ok r /\ to_action s raw = Ok a /\ ae_step env s a = Ok s' /\ inv s' k;
  ep_observe : forall s k, inv s k -> exists o, ae_observe env s = Ok o;
  ep_done : forall s k, inv s k -> ae_is_done env s = (k =? 0);
  ep_batch : forall s k, inv s k -> exists b, 0 < b /\
    ae_termination env s = repeat false b /\ ae_truncation env s = repeat (k =? 0) b }.

(** The states along [raws] steps from [s]. *)
Fixpoint user_steps {Sc St A O M R RA} (env : aenv Sc St A O M R)
  (to_action : St -> RA -> res A) (s : St) (raws : list RA) : res St :=
  match raws with
  | [] => Ok s
  | x :: rest => let* a := to_action s x in let* s' := ae_step env s a in
                 user_steps env to_action s' rest
  end.

Definition is_reset {RA} (c : call RA) : bool := match c with CallReset => true | _ => false end.
Definition resets {RA} (h : list (call RA)) : nat := length (filter is_reset h).
Definition legal {RA} (ok : RA -> Prop) (h : list (call RA)) : Prop :=
  forall a, In (CallStep a) h -> ok a.
