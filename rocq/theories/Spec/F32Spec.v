(** Vocabulary for statements about float32 values. *)
From Coq Require Import ZArith Reals.
From Flocq Require Import IEEE754.BinarySingleNaN.
From Verif.Lib Require Import F32.
Open Scope R_scope.

(** The float [x] is finite and has the value [r]. *)
Definition fin (x : f32) (r : R) : Prop := is_finite x = true /\ B2R x = r.

(** The float32 nearest to pi. *)
Definition pi32 : R := 13176795 / 4194304.

(** A move from coordinate [a] to [b] that is no longer than the distance of
    either end from the origin. *)
Definition away_from_origin (a b : R) : Prop :=
  Rabs (b - a) <= Rabs a /\ Rabs (b - a) <= Rabs b.

(** Bounds and bin count of one dimension of a float32 action space: the bounds
    are finite, the lower one no further from 0 than the range is wide, and the
    range neither tiny nor huge; at most 2^20 bins. *)
Definition disc_dim (lo hi : f32) (bins : Z) : Prop :=
  exists a b, fin lo a /\ fin hi b /\ a < b /\ Rabs a <= b - a /\
    / 2 ^ 60 <= b - a <= 2 ^ 60 /\ (1 <= bins <= 2 ^ 20)%Z.
