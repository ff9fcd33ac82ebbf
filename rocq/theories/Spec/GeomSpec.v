(** Independent plane geometry over the reals, used in C14-C24. *)
From Coq Require Import Reals ZArith List.
From Verif.Lib Require Import Scalar XR.
From Verif.Model Require Import Geometry.
Import ListNotations.
Open Scope R_scope.

(** The half-open interval of normalised angles. *)
Definition normalised (a : R) : Prop := - PI <= a < PI.

(** Equal up to full turns. *)
Definition same_angle (a b : R) : Prop := exists k : Z, a = b + IZR k * (2 * PI).

(** Euclidean distance. *)
Definition dist (p q : R * R) : R :=
  sqrt ((fst p - fst q) * (fst p - fst q) + (snd p - snd q) * (snd p - snd q)).

(** A rectangle: centre (x, y), length along heading [yaw], width across. *)
Record rbox := mkrbox { rx : R; ry : R; rlen : R; rwid : R; ryaw : R }.

(** The point at signed offset [u] along the heading and [v] to the left. *)
Definition rpoint (b : rbox) (u v : R) : R * R :=
  (rx b + u * cos (ryaw b) - v * sin (ryaw b),
   ry b + u * sin (ryaw b) + v * cos (ryaw b)).

(** Interior of the rectangle (a negative length or width counts as its absolute
    value). *)
Definition interior (b : rbox) (p : R * R) : Prop :=
  exists u v, Rabs u < Rabs (rlen b) / 2 /\ Rabs v < Rabs (rwid b) / 2 /\ p = rpoint b u v.

(** Rotation by [a] about the origin followed by translation by (tx, ty). *)
Definition move (a tx ty : R) (p : R * R) : R * R :=
  (fst p * cos a - snd p * sin a + tx, fst p * sin a + snd p * cos a + ty).

Definition move_box (a tx ty : R) (b : rbox) : rbox :=
  mkrbox (fst (move a tx ty (rx b, ry b))) (snd (move a tx ty (rx b, ry b)))
    (rlen b) (rwid b) (ryaw b + a).

(** Signed area of the triangle p q r (twice): orientation. *)
Definition orient (p q r : R * R) : R :=
  (fst q - fst p) * (snd r - snd p) - (snd q - snd p) * (fst r - fst p).

(** Real points and rectangles as inputs of the modelled functions. *)
Definition finv (p : R * R) : vec := (Fin (fst p), Fin (snd p)).

Definition fbox (b : rbox) : box :=
  mkbox (Fin (rx b)) (Fin (ry b)) (Fin (rlen b)) (Fin (rwid b)) (Fin (ryaw b)).
