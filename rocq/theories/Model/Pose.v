(** Model of ObjectPose2D, waymax/datatypes/observation.py:35-182 and
    combine_two_object_pose_2d 430-454, for one object. *)
From Coq Require Import List ZArith Bool.
From Verif.Lib Require Import Base Scalar.
From Verif.Model Require Import Geometry.
Import ListNotations.

Section Pose.
  Context {S : Scalar}.
  Local Open Scope F_scope.

  (** jnp.matmul of 3x3 matrices. *)
  Definition mat3_mul (a b : mat3) : mat3 :=
    mkmat3
      (m3_00 a * m3_00 b + m3_01 a * m3_10 b + m3_02 a * m3_20 b)
      (m3_00 a * m3_01 b + m3_01 a * m3_11 b + m3_02 a * m3_21 b)
      (m3_00 a * m3_02 b + m3_01 a * m3_12 b + m3_02 a * m3_22 b)
      (m3_10 a * m3_00 b + m3_11 a * m3_10 b + m3_12 a * m3_20 b)
      (m3_10 a * m3_01 b + m3_11 a * m3_11 b + m3_12 a * m3_21 b)
      (m3_10 a * m3_02 b + m3_11 a * m3_12 b + m3_12 a * m3_22 b)
      (m3_20 a * m3_00 b + m3_21 a * m3_10 b + m3_22 a * m3_20 b)
      (m3_20 a * m3_01 b + m3_21 a * m3_11 b + m3_22 a * m3_21 b)
      (m3_20 a * m3_02 b + m3_21 a * m3_12 b + m3_22 a * m3_22 b).

  (** jnp.linalg.inv of a 3x3 matrix.  Simplification: by cofactors instead of an
      LU factorisation (the same matrix in exact arithmetic). *)
  Definition mat3_inv (m : mat3) : mat3 :=
    let c00 := m3_11 m * m3_22 m - m3_12 m * m3_21 m in
    let c01 := m3_12 m * m3_20 m - m3_10 m * m3_22 m in
    let c02 := m3_10 m * m3_21 m - m3_11 m * m3_20 m in
    let det := m3_00 m * c00 + m3_01 m * c01 + m3_02 m * c02 in
    mkmat3 (c00 / det)
      ((m3_02 m * m3_21 m - m3_01 m * m3_22 m) / det)
      ((m3_01 m * m3_12 m - m3_02 m * m3_11 m) / det)
      (c01 / det)
      ((m3_00 m * m3_22 m - m3_02 m * m3_20 m) / det)
      ((m3_02 m * m3_10 m - m3_00 m * m3_12 m) / det)
      (c02 / det)
      ((m3_01 m * m3_20 m - m3_00 m * m3_21 m) / det)
      ((m3_00 m * m3_11 m - m3_01 m * m3_10 m) / det).

  (** observation.py:35-75, ObjectPose2D of one object. *)
  Record pose2d := mkpose {
    ps_xy : vec; ps_yaw : F; ps_mat : mat3; ps_dyaw : F; ps_valid : bool }.

  (** observation.py:99-125, from_center_and_yaw. *)
  Definition from_center_and_yaw (xy : vec) (yaw : F) (valid : bool) : pose2d :=
    let '(m, py) := pose_from_xy_yaw xy yaw in
    mkpose xy yaw m py valid.

  (** observation.py:127-160, from_transformation. *)
  Definition from_transformation (m : mat3) (dyaw : F) (valid : bool) : pose2d :=
    mkpose (transform_point (mat3_inv m) (f0, f0)) (- dyaw) m dyaw valid.

  (** observation.py:430-454, combine_two_object_pose_2d. *)
  Definition combine_two_object_pose_2d (src dst : pose2d) : pose2d :=
    from_transformation (mat3_mul (ps_mat dst) (mat3_inv (ps_mat src)))
      (ps_dyaw dst - ps_dyaw src) (ps_valid dst && ps_valid src).
End Pose.
