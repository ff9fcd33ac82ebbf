(** C22: an object pose is the rigid change of frame that puts the object at the
    origin facing +x, and combining two poses changes between object frames. *)
From Coq Require Import Reals ZArith List Bool Lra.
From Verif.Lib Require Import Base Scalar XR.
From Verif.Model Require Import Geometry Pose.
From Verif.Spec Require Import GeomSpec.
From Verif.Proofs Require Import P_Pose.
Import ListNotations.
Open Scope R_scope.

(** Points: the transform is a distance- and orientation-preserving map of the
    plane taking the object's own position to the origin and the point one metre
    ahead of it to (1, 0) (which determines it uniquely). *)
Theorem C22_pose_is_rigid : forall (x y yaw : R) (v : bool),
  let m := ps_mat (from_center_and_yaw (Fin x, Fin y) (Fin yaw) v) in
  exists g : R * R -> R * R,
    (forall p, transform_point m (finv p) = finv (g p)) /\
    (forall p q, dist (g p) (g q) = dist p q) /\
    (forall p q r, orient (g p) (g q) (g r) = orient p q r) /\
    g (x, y) = (0, 0) /\ g (x + cos yaw, y + sin yaw) = (1, 0).
Proof. exact pose_rigid. Qed.

(** Headings: a heading [a] becomes [a - yaw] (so the own heading becomes 0), and
    directions turn with it. *)
Theorem C22_pose_headings : forall (x y yaw : R) (v : bool) (a : R),
  let ps := from_center_and_yaw (Fin x, Fin y) (Fin yaw) v in
  transform_yaw (ps_dyaw ps) (Fin a) = Fin (a - yaw) /\
  transform_direction (ps_mat ps) (Fin (cos a), Fin (sin a))
    = (Fin (cos (a - yaw)), Fin (sin (a - yaw))).
Proof. exact pose_directions. Qed.

(** Velocities are transformed as directions (they are not translated). *)
Theorem C22_pose_velocities : forall (x y yaw : R) (v : bool) (d : R * R),
  let m := ps_mat (from_center_and_yaw (Fin x, Fin y) (Fin yaw) v) in
  transform_velocity m (finv d) = transform_direction m (finv d).
Proof. exact pose_velocity. Qed.

(** Combination: every point [l] given in the source object's frame is the image
    of some global point [p], and the combined pose sends [l] to the coordinates
    of [p] in the destination object's frame. *)
Theorem C22_combine_changes_frames :
  forall (x y yaw x' y' yaw' : R) (v v' : bool) (l : R * R),
  let src := from_center_and_yaw (Fin x, Fin y) (Fin yaw) v in
  let dst := from_center_and_yaw (Fin x', Fin y') (Fin yaw') v' in
  let comb := combine_two_object_pose_2d src dst in
  exists p : R * R,
    transform_point (ps_mat src) (finv p) = finv l /\
    transform_point (ps_mat comb) (finv l) = transform_point (ps_mat dst) (finv p).
Proof. exact combine_lemma. Qed.

Theorem C22_combine_headings :
  forall (x y yaw x' y' yaw' : R) (v v' : bool) (a : R),
  let src := from_center_and_yaw (Fin x, Fin y) (Fin yaw) v in
  let dst := from_center_and_yaw (Fin x', Fin y') (Fin yaw') v' in
  let comb := combine_two_object_pose_2d src dst in
  transform_yaw (ps_dyaw comb) (transform_yaw (ps_dyaw src) (Fin a))
  = transform_yaw (ps_dyaw dst) (Fin a).
Proof. exact combine_yaw. Qed.

(** The position and heading recorded in the combined pose are those of the
    destination object seen from the source object. *)
Theorem C22_combine_origin :
  forall (x y yaw x' y' yaw' : R) (v v' : bool),
  let src := from_center_and_yaw (Fin x, Fin y) (Fin yaw) v in
  let dst := from_center_and_yaw (Fin x', Fin y') (Fin yaw') v' in
  let comb := combine_two_object_pose_2d src dst in
  ps_xy comb = transform_point (ps_mat src) (Fin x', Fin y') /\
  ps_yaw comb = transform_yaw (ps_dyaw src) (Fin yaw').
Proof. exact combine_origin. Qed.

(** A concrete non-trivial pose: an object at (1, 2) heading along +y sees the
    point (0, 2) one metre to its left. *)
Example C22_example :
  transform_point (ps_mat (from_center_and_yaw (Fin 1, Fin 2) (Fin (PI / 2)) true))
    (Fin 0, Fin 2) = (Fin 0, Fin 1).
Proof.
  change (Fin 0, Fin 2) with (finv (0, 2)). rewrite pose_transform.
  unfold finv, to_local; cbn [fst snd]. rewrite cos_PI2, sin_PI2. f_equal; f_equal; ring.
Qed.

Print Assumptions C22_pose_is_rigid.
Print Assumptions C22_pose_headings.
Print Assumptions C22_pose_velocities.
Print Assumptions C22_combine_changes_frames.
Print Assumptions C22_combine_headings.
Print Assumptions C22_combine_origin.
