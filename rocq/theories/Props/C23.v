(** C23: the corners returned for a box are those of the rectangle it denotes. *)
From Coq Require Import Reals ZArith List Bool Lra.
From Verif.Lib Require Import Base Scalar XR.
From Verif.Model Require Import Geometry.
From Verif.Spec Require Import GeomSpec.
From Verif.Proofs Require Import P_Pose.
Import ListNotations.
Open Scope R_scope.

(** Front right, front left, rear left, rear right. *)
Theorem C23_corners : forall b : rbox,
  corners_from_bbox (fbox b) =
  map finv [ rpoint b (rlen b / 2) (- (rwid b / 2)); rpoint b (rlen b / 2) (rwid b / 2);
             rpoint b (- (rlen b / 2)) (rwid b / 2); rpoint b (- (rlen b / 2)) (- (rwid b / 2)) ].
Proof. exact corners_Fin. Qed.

(** In metric terms: consecutive corners form a counter-clockwise rectangle with
    the given side lengths, centre and heading. *)
Theorem C23_corners_rectangle : forall b : rbox,
  exists c0 c1 c2 c3 : R * R,
    corners_from_bbox (fbox b) = map finv [c0; c1; c2; c3] /\
    orient c0 c1 c2 = rlen b * rwid b /\ orient c1 c2 c3 = rlen b * rwid b /\
    orient c2 c3 c0 = rlen b * rwid b /\ orient c3 c0 c1 = rlen b * rwid b /\
    dist c0 c1 = Rabs (rwid b) /\ dist c2 c3 = Rabs (rwid b) /\
    dist c1 c2 = Rabs (rlen b) /\ dist c3 c0 = Rabs (rlen b) /\
    dist c0 c2 = dist c1 c3 /\
    (fst c0 + fst c1 + fst c2 + fst c3) / 4 = rx b /\
    (snd c0 + snd c1 + snd c2 + snd c3) / 4 = ry b /\
    fst c0 - fst c3 = rlen b * cos (ryaw b) /\ snd c0 - snd c3 = rlen b * sin (ryaw b).
Proof. exact corners_sides. Qed.

Example C23_example :
  corners_from_bbox (fbox (mkrbox 1 2 4 2 (PI / 2)))
  = [ (Fin 2, Fin 4); (Fin 0, Fin 4); (Fin 0, Fin 0); (Fin 2, Fin 0) ].
Proof.
  rewrite corners_Fin. unfold rpoint, finv; cbn [map fst snd rx ry rlen rwid ryaw].
  rewrite cos_PI2, sin_PI2.
  repeat (apply f_equal2; [f_equal; f_equal; field|]). reflexivity.
Qed.

Print Assumptions C23_corners.
Print Assumptions C23_corners_rectangle.
