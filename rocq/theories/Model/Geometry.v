(** Model of waymax/utils/geometry.py.  Leading prefix dimensions are mapped
    pointwise in the code and are left out. *)
From Coq Require Import List ZArith Bool.
From Verif.Lib Require Import Base Scalar.
Import ListNotations.

Section Geometry.
  Context {S : Scalar}.
  Local Open Scope F_scope.

  (** A point or vector (x, y). *)
  Definition vec : Type := F * F.

  (** A 2x2 matrix, row major. *)
  Record mat2 := mkmat2 { m2_00 : F; m2_01 : F; m2_10 : F; m2_11 : F }.

  (** A 3x3 homogeneous matrix, row major. *)
  Record mat3 := mkmat3 {
    m3_00 : F; m3_01 : F; m3_02 : F;
    m3_10 : F; m3_11 : F; m3_12 : F;
    m3_20 : F; m3_21 : F; m3_22 : F }.

  (** geometry.py:26-44, rotation_matrix_2d. *)
  Definition rotation_matrix_2d (angle : F) : mat2 :=
    mkmat2 (fcos angle) (- fsin angle) (fsin angle) (fcos angle).

  (** matmul of a 2x2 matrix and a column (used by rotate_points 47-65 and
      delta.py:186-188). *)
  Definition rotate_point (m : mat2) (p : vec) : vec :=
    (m2_00 m * fst p + m2_01 m * snd p, m2_10 m * fst p + m2_11 m * snd p).

  (** geometry.py:69-114, pose_from_xy_yaw (helper 88-105). *)
  Definition pose_from_xy_yaw (xy : vec) (yaw : F) : mat3 * F :=
    let pose_yaw := - yaw in
    let c := fcos pose_yaw in
    let s := fsin pose_yaw in
    (mkmat3 c (- s) (- (c * fst xy - s * snd xy))
            s c (- (s * fst xy + c * snd xy))
            f0 f0 f1, pose_yaw).

  (** geometry.py:117-148, transform_points for one point: pad with 1, multiply
      by the transposed matrix, drop the homogeneous coordinate. *)
  Definition transform_point (m : mat3) (p : vec) : vec :=
    (fst p * m3_00 m + snd p * m3_01 m + f1 * m3_02 m,
     fst p * m3_10 m + snd p * m3_11 m + f1 * m3_12 m).

  (** geometry.py:151-153, transform_yaw. *)
  Definition transform_yaw (pose_yaw yaw : F) : F := yaw + pose_yaw.

  (** geometry.py:157-199, the velocity part of transform_trajectories (dof 7):
      transformed velocity minus transformed origin. *)
  Definition transform_velocity (m : mat3) (v : vec) : vec :=
    let o := transform_point m (f0, f0) in
    let w := transform_point m v in
    (fst w - fst o, snd w - snd o).

  (** geometry.py:203-218, transform_direction: the rotation block only. *)
  Definition transform_direction (m : mat3) (d : vec) : vec :=
    rotate_point (mkmat2 (m3_00 m) (m3_01 m) (m3_10 m) (m3_11 m)) d.

  (** A 5 dof box [x, y, length, width, yaw]. *)
  Record box := mkbox { b_x : F; b_y : F; b_len : F; b_wid : F; b_yaw : F }.

  (** geometry.py:221-236, corners_from_bbox. *)
  Definition corners_from_bbox (b : box) : list vec :=
    let c := fcos (b_yaw b) in
    let s := fsin (b_yaw b) in
    let lc := b_len b / f2 * c in
    let ls := b_len b / f2 * s in
    let wc := b_wid b / f2 * c in
    let ws := b_wid b / f2 * s in
    map (fun p => (fst p + b_x b, snd p + b_y b))
      [ (lc + ws, ls - wc); (lc - ws, ls + wc);
        (- lc - ws, - ls + wc); (- lc + ws, - ls - wc) ].

  (** jnp.min / jnp.max over a non-empty axis. *)
  Definition fminl (x : F) (l : list F) : F := fold_left fmin l x.
  Definition fmaxl (x : F) (l : list F) : F := fold_left fmax l x.
  Definition list_min (l : list F) : F :=
    match l with [] => finf | x :: r => fminl x r end.
  Definition list_max (l : list F) : F :=
    match l with [] => - finf | x :: r => fmaxl x r end.

  (** geometry.py:284-287: overlap of the projections on one axis. *)
  Definition axis_overlap (pa pb : list F) : bool :=
    fltb f0 (fmin (list_max pa) (list_max pb) - fmax (list_min pa) (list_min pb)).

  (** geometry.py:270-287, _overlap_a_over_b: projections on the axes of
      [first]. *)
  Definition overlap_a_over_b (first second : box) : bool :=
    let c := fcos (b_yaw first) in
    let s := fsin (b_yaw first) in
    let px (p : vec) := fst p * c + snd p * s in
    let py (p : vec) := fst p * (- s) + snd p * c in
    let ca := corners_from_bbox first in
    let cb := corners_from_bbox second in
    axis_overlap (map px ca) (map px cb) && axis_overlap (map py ca) (map py cb).

  (** geometry.py:248-299, has_overlap. *)
  Definition has_overlap (a b : box) : bool :=
    overlap_a_over_b a b && overlap_a_over_b b a.

  (** geometry.py:303-333, compute_pairwise_overlaps for one timestep.  Entry
      [i][j] is the overlap of object i with object j, False on the diagonal. *)
  Definition compute_pairwise_overlaps (bs : list box) : list (list bool) :=
    mapi (fun i bi => mapi (fun j bj =>
            if (i =? j)%nat then false else has_overlap bi bj) bs) bs.

  (** geometry.py:336-338, wrap_yaws. *)
  Definition wrap_yaws (y : F) : F := fmod (y + fpi) (f2 * fpi) - fpi.
End Geometry.
