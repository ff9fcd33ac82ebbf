(** Proofs for C22 and C23. *)
From Coq Require Import Reals ZArith Lra Lia List Bool Nsatz.
From Verif.Lib Require Import Base Scalar XR.
From Verif.Model Require Import Geometry Pose.
From Verif.Spec Require Import GeomSpec.
From Verif.Proofs Require Import P_Angles.
Import ListNotations.
Open Scope R_scope.

Lemma cs1 a : cos a * cos a + sin a * sin a = 1.
Proof. pose proof (sin2_cos2 a) as E. unfold Rsqr in E. lra. Qed.

(** The local coordinates of a global point, written out. *)
Definition to_local (x y yaw : R) (p : R * R) : R * R :=
  (cos yaw * (fst p - x) + sin yaw * (snd p - y),
   - sin yaw * (fst p - x) + cos yaw * (snd p - y)).

Ltac fin_pair := unfold finv; cbn [fst snd]; f_equal; f_equal.

Lemma pose_transform x y yaw p v :
  transform_point (ps_mat (from_center_and_yaw (Fin x, Fin y) (Fin yaw) v)) (finv p)
  = finv (to_local x y yaw p).
Proof.
  unfold from_center_and_yaw, pose_from_xy_yaw, transform_point, finv, to_local; cbn [fst snd ps_mat m3_00 m3_01 m3_02 m3_10 m3_11 m3_12].
  xr. rewrite cos_neg, sin_neg. f_equal; f_equal; ring.
Qed.

Lemma pose_direction x y yaw d v :
  transform_direction (ps_mat (from_center_and_yaw (Fin x, Fin y) (Fin yaw) v)) (finv d)
  = finv (to_local 0 0 yaw d).
Proof.
  unfold from_center_and_yaw, pose_from_xy_yaw, transform_direction, rotate_point, finv, to_local.
  cbn [fst snd ps_mat m3_00 m3_01 m3_02 m3_10 m3_11 m3_12 m2_00 m2_01 m2_10 m2_11].
  xr. rewrite cos_neg, sin_neg. f_equal; f_equal; ring.
Qed.

Lemma to_local_dist x y yaw p q :
  dist (to_local x y yaw p) (to_local x y yaw q) = dist p q.
Proof.
  unfold dist, to_local; cbn [fst snd]. f_equal.
  set (c := cos yaw). set (s := sin yaw). set (a := fst p). set (b := snd p).
  set (d := fst q). set (e := snd q).
  assert (E : c * c + s * s = 1) by apply cs1.
  transitivity ((c * c + s * s) * ((a - d) * (a - d) + (b - e) * (b - e))); [ring|].
  rewrite E. ring.
Qed.

Lemma to_local_orient x y yaw p q r :
  orient (to_local x y yaw p) (to_local x y yaw q) (to_local x y yaw r) = orient p q r.
Proof.
  unfold orient, to_local; cbn [fst snd].
  set (c := cos yaw). set (s := sin yaw).
  assert (E : c * c + s * s = 1) by apply cs1.
  transitivity ((c * c + s * s) *
    ((fst q - fst p) * (snd r - snd p) - (snd q - snd p) * (fst r - fst p))); [ring|].
  rewrite E. ring.
Qed.

Lemma to_local_self x y yaw : to_local x y yaw (x, y) = (0, 0).
Proof. unfold to_local; cbn [fst snd]. f_equal; ring. Qed.

(* The inverse of a pose matrix maps local back to global. *)
Definition to_global (x y yaw : R) (p : R * R) : R * R :=
  (x + cos yaw * fst p - sin yaw * snd p, y + sin yaw * fst p + cos yaw * snd p).

Lemma to_local_global x y yaw p : to_local x y yaw (to_global x y yaw p) = p.
Proof.
  destruct p as [a b]. unfold to_local, to_global; cbn [fst snd].
  set (c := cos yaw). set (s := sin yaw). assert (E : c * c + s * s = 1) by apply cs1.
  f_equal.
  - transitivity ((c * c + s * s) * a); [ring | rewrite E; ring].
  - transitivity ((c * c + s * s) * b); [ring | rewrite E; ring].
Qed.
Lemma to_global_local x y yaw p : to_global x y yaw (to_local x y yaw p) = p.
Proof.
  destruct p as [a b]. unfold to_local, to_global; cbn [fst snd].
  set (c := cos yaw). set (s := sin yaw). assert (E : c * c + s * s = 1) by apply cs1.
  f_equal.
  - transitivity (x + (c * c + s * s) * (a - x)); [ring | rewrite E; ring].
  - transitivity (y + (c * c + s * s) * (b - y)); [ring | rewrite E; ring].
Qed.

Lemma combine_mat x y yaw x' y' yaw' v v' p :
  let src := from_center_and_yaw (Fin x, Fin y) (Fin yaw) v in
  let dst := from_center_and_yaw (Fin x', Fin y') (Fin yaw') v' in
  transform_point (ps_mat (combine_two_object_pose_2d src dst)) (finv (to_local x y yaw p))
  = finv (to_local x' y' yaw' p).
Proof.
  intros src dst. subst src dst.
  unfold combine_two_object_pose_2d, from_transformation; cbn [ps_mat].
  unfold from_center_and_yaw, pose_from_xy_yaw; cbn [ps_mat fst snd].
  unfold mat3_inv. cbn [m3_00 m3_01 m3_02 m3_10 m3_11 m3_12 m3_20 m3_21 m3_22].
  xr. rewrite ?cos_neg, ?sin_neg.
  set (c := cos yaw). set (s := sin yaw). assert (E : c * c + s * s = 1) by apply cs1.
  match goal with |- context [fdiv _ (Fin ?d)] => assert (D : d = 1) end.
  { transitivity (c * c + s * s); [ring | exact E]. }
  rewrite !fdiv_Fin by (rewrite D; lra). rewrite D.
  unfold mat3_mul. cbn [m3_00 m3_01 m3_02 m3_10 m3_11 m3_12 m3_20 m3_21 m3_22].
  unfold transform_point. cbn [m3_00 m3_01 m3_02 m3_10 m3_11 m3_12 m3_20 m3_21 m3_22].
  unfold finv; cbn [fst snd]. xr. rewrite ?cos_neg, ?sin_neg.
  set (c' := cos yaw'). set (s' := sin yaw').
  destruct p as [a b]. unfold to_local; cbn [fst snd]. fold c s c' s'.
  clearbody c s c' s'. clear D.
  f_equal; f_equal; unfold Rdiv; rewrite Rinv_1; first [ring | nsatz].
Qed.

Lemma combine_lemma x y yaw x' y' yaw' v v' (l : R * R) :
  let src := from_center_and_yaw (Fin x, Fin y) (Fin yaw) v in
  let dst := from_center_and_yaw (Fin x', Fin y') (Fin yaw') v' in
  let comb := combine_two_object_pose_2d src dst in
  exists p : R * R,
    transform_point (ps_mat src) (finv p) = finv l /\
    transform_point (ps_mat comb) (finv l) = transform_point (ps_mat dst) (finv p).
Proof.
  intros src dst comb. exists (to_global x y yaw l). subst src dst comb. split.
  - rewrite pose_transform, to_local_global. reflexivity.
  - rewrite pose_transform, <- (combine_mat x y yaw x' y' yaw' v v').
    rewrite to_local_global. reflexivity.
Qed.

Lemma combine_yaw x y yaw x' y' yaw' v v' (a : R) :
  let src := from_center_and_yaw (Fin x, Fin y) (Fin yaw) v in
  let dst := from_center_and_yaw (Fin x', Fin y') (Fin yaw') v' in
  let comb := combine_two_object_pose_2d src dst in
  transform_yaw (ps_dyaw comb) (transform_yaw (ps_dyaw src) (Fin a))
  = transform_yaw (ps_dyaw dst) (Fin a).
Proof.
  simpl. f_equal. ring.
Qed.

Lemma combine_valid src dst :
  ps_valid (S := XR) (combine_two_object_pose_2d src dst) = ps_valid dst && ps_valid src.
Proof. reflexivity. Qed.

Definition rigid (c s tx ty : R) : mat3 :=
  mkmat3 (Fin c) (Fin (- s)) (Fin tx) (Fin s) (Fin c) (Fin ty) (Fin 0) (Fin 0) (Fin 1).

Lemma rigid_inv c s tx ty : c * c + s * s = 1 ->
  mat3_inv (rigid c s tx ty) = rigid c (- s) (- (c * tx + s * ty)) (s * tx - c * ty).
Proof.
  intros E. unfold mat3_inv, rigid.
  cbn [m3_00 m3_01 m3_02 m3_10 m3_11 m3_12 m3_20 m3_21 m3_22]. xr.
  match goal with |- context [fdiv _ (Fin ?d)] => assert (D : d = 1) end.
  { transitivity (c * c + s * s); [ring | exact E]. }
  rewrite !fdiv_Fin by (rewrite D; lra). rewrite D. clear D.
  f_equal; f_equal; unfold Rdiv; rewrite Rinv_1; first [ring | nsatz].
Qed.

Lemma rigid_mul c s tx ty c' s' tx' ty' :
  mat3_mul (rigid c s tx ty) (rigid c' s' tx' ty')
  = rigid (c * c' - s * s') (s * c' + c * s')
      (c * tx' - s * ty' + tx) (s * tx' + c * ty' + ty).
Proof.
  unfold mat3_mul, rigid. cbn [m3_00 m3_01 m3_02 m3_10 m3_11 m3_12 m3_20 m3_21 m3_22]. xr.
  f_equal; f_equal; ring.
Qed.

Lemma pose_mat_eq x y yaw v :
  ps_mat (from_center_and_yaw (Fin x, Fin y) (Fin yaw) v)
  = rigid (cos yaw) (- sin yaw) (- (cos yaw * x + sin yaw * y)) (sin yaw * x - cos yaw * y).
Proof.
  unfold from_center_and_yaw, pose_from_xy_yaw, rigid; cbn [ps_mat fst snd].
  xr. rewrite cos_neg, sin_neg. f_equal; f_equal; ring.
Qed.

Lemma comb_mat_eq x y yaw x' y' yaw' v v' :
  let src := from_center_and_yaw (Fin x, Fin y) (Fin yaw) v in
  let dst := from_center_and_yaw (Fin x', Fin y') (Fin yaw') v' in
  mat3_mul (ps_mat dst) (mat3_inv (ps_mat src))
  = rigid (cos (yaw' - yaw)) (- sin (yaw' - yaw))
      (cos yaw' * (x - x') + sin yaw' * (y - y')) (cos yaw' * (y - y') - sin yaw' * (x - x')).
Proof.
  intros src dst. subst src dst. rewrite !pose_mat_eq.
  rewrite rigid_inv by (rewrite <- (cs1 yaw); ring). rewrite rigid_mul.
  rewrite cos_minus, sin_minus.
  pose proof (cs1 yaw) as E. pose proof (cs1 yaw') as E'.
  set (c := cos yaw) in *. set (s := sin yaw) in *.
  set (c' := cos yaw') in *. set (s' := sin yaw') in *. clearbody c s c' s'.
  unfold rigid. f_equal; f_equal; first [ring | nsatz].
Qed.

(** The combined pose records where the destination frame is in source
    coordinates. *)
Lemma combine_origin x y yaw x' y' yaw' v v' :
  let src := from_center_and_yaw (Fin x, Fin y) (Fin yaw) v in
  let dst := from_center_and_yaw (Fin x', Fin y') (Fin yaw') v' in
  let comb := combine_two_object_pose_2d src dst in
  ps_xy comb = transform_point (ps_mat src) (Fin x', Fin y') /\
  ps_yaw comb = transform_yaw (ps_dyaw src) (Fin yaw').
Proof.
  intros src dst comb. subst src dst comb. split.
  2:{ simpl. f_equal. ring. }
  unfold combine_two_object_pose_2d, from_transformation; cbn [ps_xy].
  rewrite comb_mat_eq. change (Fin x', Fin y') with (finv (x', y')). rewrite pose_transform.
  rewrite rigid_inv by (rewrite <- (cs1 (yaw' - yaw)); ring).
  unfold transform_point, rigid, finv, to_local. cbn [fst snd m3_00 m3_01 m3_02 m3_10 m3_11 m3_12].
  xr. rewrite cos_minus, sin_minus.
  pose proof (cs1 yaw) as E. pose proof (cs1 yaw') as E'.
  set (c := cos yaw) in *. set (s := sin yaw) in *.
  set (c' := cos yaw') in *. set (s' := sin yaw') in *. clearbody c s c' s'.
  f_equal; f_equal; first [ring | nsatz].
Qed.

Lemma pose_rigid x y yaw v :
  let m := ps_mat (from_center_and_yaw (Fin x, Fin y) (Fin yaw) v) in
  exists g : R * R -> R * R,
    (forall p, transform_point m (finv p) = finv (g p)) /\
    (forall p q, dist (g p) (g q) = dist p q) /\
    (forall p q r, orient (g p) (g q) (g r) = orient p q r) /\
    g (x, y) = (0, 0) /\ g (x + cos yaw, y + sin yaw) = (1, 0).
Proof.
  intros m. exists (to_local x y yaw). split; [intros; apply pose_transform|].
  split; [intros; apply to_local_dist|]. split; [intros; apply to_local_orient|].
  split; [apply to_local_self|].
  unfold to_local; cbn [fst snd]. pose proof (cs1 yaw). f_equal; lra.
Qed.

Lemma pose_directions x y yaw v a :
  let ps := from_center_and_yaw (Fin x, Fin y) (Fin yaw) v in
  transform_yaw (ps_dyaw ps) (Fin a) = Fin (a - yaw) /\
  transform_direction (ps_mat ps) (Fin (cos a), Fin (sin a))
    = (Fin (cos (a - yaw)), Fin (sin (a - yaw))).
Proof.
  intros ps. split; [reflexivity|].
  change (Fin (cos a), Fin (sin a)) with (finv (cos a, sin a)). subst ps.
  rewrite pose_direction. unfold to_local, finv; cbn [fst snd].
  rewrite cos_minus, sin_minus. f_equal; f_equal; ring.
Qed.

Lemma pose_velocity x y yaw v d :
  let m := ps_mat (from_center_and_yaw (Fin x, Fin y) (Fin yaw) v) in
  transform_velocity m (finv d) = transform_direction m (finv d).
Proof.
  intros m. unfold transform_velocity. subst m.
  replace (f0, f0) with (finv (0, 0)) by (unfold finv; cbn [fst snd]; xr; reflexivity).
  rewrite !pose_transform, pose_direction. unfold finv, to_local; cbn [fst snd]. xr.
  f_equal; f_equal; ring.
Qed.

(* ---------------- corners ---------------- *)

Lemma corners_Fin b :
  corners_from_bbox (fbox b) =
  map finv [ rpoint b (rlen b / 2) (- (rwid b / 2)); rpoint b (rlen b / 2) (rwid b / 2);
             rpoint b (- (rlen b / 2)) (rwid b / 2); rpoint b (- (rlen b / 2)) (- (rwid b / 2)) ].
Proof.
  unfold corners_from_bbox, fbox; cbn [b_x b_y b_len b_wid b_yaw]. xr.
  rewrite !fdiv_Fin by lra. xr. cbn [map fst snd]. xr.
  unfold finv, rpoint; cbn [fst snd].
  repeat (apply f_equal2; [f_equal; f_equal; ring|]). reflexivity.
Qed.

Lemma rpoint_dist b u v u' v' :
  dist (rpoint b u v) (rpoint b u' v') = sqrt ((u - u') * (u - u') + (v - v') * (v - v')).
Proof.
  unfold dist, rpoint; cbn [fst snd]. f_equal.
  set (c := cos (ryaw b)). set (s := sin (ryaw b)).
  assert (E : c * c + s * s = 1) by apply cs1.
  transitivity ((c * c + s * s) * ((u - u') * (u - u') + (v - v') * (v - v'))); [ring|].
  rewrite E. ring.
Qed.

Lemma corners_sides b :
  exists c0 c1 c2 c3 : R * R,
    corners_from_bbox (fbox b) = map finv [c0; c1; c2; c3] /\
    (* cyclic order, counter-clockwise for positive sizes *)
    orient c0 c1 c2 = rlen b * rwid b /\ orient c1 c2 c3 = rlen b * rwid b /\
    orient c2 c3 c0 = rlen b * rwid b /\ orient c3 c0 c1 = rlen b * rwid b /\
    (* side lengths and equal diagonals *)
    dist c0 c1 = Rabs (rwid b) /\ dist c2 c3 = Rabs (rwid b) /\
    dist c1 c2 = Rabs (rlen b) /\ dist c3 c0 = Rabs (rlen b) /\
    dist c0 c2 = dist c1 c3 /\
    (* centre, and the side c3 -> c0 points along the heading *)
    (fst c0 + fst c1 + fst c2 + fst c3) / 4 = rx b /\
    (snd c0 + snd c1 + snd c2 + snd c3) / 4 = ry b /\
    fst c0 - fst c3 = rlen b * cos (ryaw b) /\ snd c0 - snd c3 = rlen b * sin (ryaw b).
Proof.
  eexists. eexists. eexists. eexists. split; [apply corners_Fin|].
  assert (SQ : forall x, sqrt (x * x) = Rabs x) by (intros; apply sqrt_Rsqr_abs).
  assert (O : forall u v u' v' u'' v'', orient (rpoint b u v) (rpoint b u' v') (rpoint b u'' v'')
            = (u' - u) * (v'' - v) - (v' - v) * (u'' - u)).
  { intros. unfold orient, rpoint; cbn [fst snd].
    set (c := cos (ryaw b)). set (s := sin (ryaw b)).
    assert (E : c * c + s * s = 1) by apply cs1.
    transitivity ((c * c + s * s) * ((u' - u) * (v'' - v) - (v' - v) * (u'' - u))); [ring|].
    rewrite E. ring. }
  rewrite !O, !rpoint_dist.
  split; [field|]. split; [field|]. split; [field|]. split; [field|].
  split; [rewrite <- SQ; f_equal; field|]. split; [rewrite <- SQ; f_equal; field|].
  split; [rewrite <- SQ; f_equal; field|]. split; [rewrite <- SQ; f_equal; field|].
  split; [f_equal; field|].
  unfold rpoint; cbn [fst snd].
  split; [field|]. split; [field|]. split; field.
Qed.
