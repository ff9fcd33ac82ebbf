(** Vocabulary for dictionaries of arrays. *)
From Coq Require Import String.
From Coq Require Import List ZArith Bool Arith.
From Verif.Lib Require Import Base Scalar.
From Verif.Model Require Import Womd.
Import ListNotations.
Local Open Scope nat_scope.

Section DictSpec.
  Context {S : Scalar}.

  (** [a] is p, c, f one after the other on the axis that has [after] axes behind it. *)
  Definition joined (after : nat) (p c f a : tensor) : Prop :=
    exists before np nc nf behind,
      length behind = after /\
      dims p = before ++ np :: behind /\ dims c = before ++ nc :: behind /\
      dims f = before ++ nf :: behind /\ dims a = before ++ (np + nc + nf) :: behind /\
      forall pre k post, length pre = length before ->
        cell a (pre ++ k :: post) =
          if k <? np then cell p (pre ++ k :: post)
          else if k <? np + nc then cell c (pre ++ (k - np) :: post)
          else cell f (pre ++ (k - np - nc) :: post).

  (** The three arrays can be put one after the other. *)
  Definition joinable (after : nat) (p c f : tensor) : Prop :=
    exists before np nc nf behind,
      length behind = after /\
      dims p = before ++ np :: behind /\ dims c = before ++ nc :: behind /\
      dims f = before ++ nf :: behind.

  (** The key of a feature that is split by time and has a current part. *)
  Definition split_key (d : dict) (k : string) : Prop :=
    exists kind feature time,
      (kind = "state" \/ kind = "traffic_light_state")%string /\
      (time = "past" \/ time = "current" \/ time = "future")%string /\
      k = (kind ++ "/" ++ time ++ "/" ++ feature)%string /\
      get d (kind ++ "/current/" ++ feature) <> None.

  (** Axes behind the time axis. *)
  Definition axes_behind_time (kind feature : string) : nat :=
    if String.eqb kind "traffic_light_state" then
      if String.eqb feature "timestamp_micros" then 0 else 1
    else 0.
  (** Every feature with a current part has all three parts, and they fit together. *)
  Definition complete (d : dict) : Prop :=
    (forall kind f, (kind = "state" \/ kind = "traffic_light_state")%string ->
       get d (kind ++ "/current/" ++ f) <> None ->
       exists p c fu, get d (kind ++ "/past/" ++ f) = Some p /\ get d (kind ++ "/current/" ++ f) = Some c /\
         get d (kind ++ "/future/" ++ f) = Some fu /\ joinable (axes_behind_time kind f) p c fu) /\
    (exists pv, get d "state/past/valid" = Some pv /\ 2 <= length (dims pv)) /\
    (exists fv, get d "state/future/valid" = Some fv /\ 2 <= length (dims fv)).
End DictSpec.
