(** Vocabulary for geometry in float32. *)
From Coq Require Import List ZArith Reals.
From Verif.Lib Require Import Base Scalar XR F32.
From Verif.Model Require Import State Geometry.
From Verif.Spec Require Import F32Spec GeomSpec.
Open Scope R_scope.

(** The float32 box [b] is the rectangle [r]: centre coordinates at most [P], length
    and width between 0 and [P / 8], heading in [-4, 4]. *)
Definition box32 {lm} (P : R) (b : box (S := F32 lm)) (r : rbox) : Prop :=
  fin (b_x b) (rx r) /\ fin (b_y b) (ry r) /\ fin (b_len b) (rlen r) /\ fin (b_wid b) (rwid r) /\ fin (b_yaw b) (ryaw r) /\
  Rabs (rx r) <= P /\ Rabs (ry r) <= P /\ 0 <= rlen r <= P / 8 /\ 0 <= rwid r <= P / 8 /\ Rabs (ryaw r) <= 4.

(** The rectangle with each side moved outwards by [e] (inwards if [e] is
    negative). *)
Definition grown (e : R) (r : rbox) : rbox := mkrbox (rx r) (ry r) (rlen r + 2 * e) (rwid r + 2 * e) (ryaw r).

(** Two rectangles share an interior point. *)
Definition share (a b : rbox) : Prop := exists p, interior a p /\ interior b p.

(** Length and width are at least [w]. *)
Definition wide (w : R) (r : rbox) : Prop := w <= rlen r /\ w <= rwid r.
