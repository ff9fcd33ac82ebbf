(** Vocabulary for map metrics in float32. *)
From Coq Require Import List ZArith Reals.
From Verif.Lib Require Import Base Scalar XR F32.
From Verif.Model Require Import State.
From Verif.Spec Require Import F32Spec GeomSpec MetricSpec.
Import ListNotations.
Open Scope R_scope.

(** The float32 map point [r] is the map point [e]: coordinates at most [P], direction
    components at most 1. *)
Definition edge32 {lm} (P : R) (r : rgpt (S := F32 lm)) (e : redge) : Prop :=
  let '(x, y, z) := re_p e in
  let '(dx, dy, _) := re_d e in
  fin (rg_x r) x /\ fin (rg_y r) y /\ fin (rg_z r) z /\ fin (rg_dx r) dx /\ fin (rg_dy r) dy /\
  Rabs x <= P /\ Rabs y <= P /\ Rabs z <= P /\ Rabs dx <= 1 /\ Rabs dy <= 1 /\
  rg_type r = re_type e /\ rg_id r = re_id e /\ rg_valid r = re_valid e.

(** How far [q] lies to the right of the line through [p] in direction [d], if [d] is a
    unit vector. *)
Definition to_right (q p d : R * R * R) : R :=
  let '(qx, qy, _) := q in
  let '(px, py, _) := p in
  let '(dx, dy, _) := d in
  (qx - px) * dy - (qy - py) * dx.

(** Point [k] of the map is a road edge point, and no other one is nearer to [q] by more
    than [e].  Height differences count twice. *)
Definition almost_nearest (e : R) (es : list redge) (q : R * R * R) (k : nat) (ed : redge) : Prop :=
  nth_error es k = Some ed /\ is_edge ed /\
  forall j e', nth_error es j = Some e' -> is_edge e' ->
    sqrt (stretched q (re_p ed)) <= sqrt (stretched q (re_p e')) + e.

(** [q] lies more than [e] to the right of edge point [k], and of the direction of the
    preceding point as well if that belongs to the same curve. *)
Definition beyond (e : R) (es : list redge) (q : R * R * R) (k : nat) (ed : redge) : Prop :=
  e < to_right q (re_p ed) (re_d ed) /\
  forall ep, nth_error es (k - 1) = Some ep -> re_id ed = re_id ep -> e < to_right q (re_p ed) (re_d ep).

(** Positions of objects and valid path points are finite and at most [P]. *)
Definition frame32 {lm} (P : R) (tr : traj (S := F32 lm)) (t : nat) : Prop :=
  forall i p, at2 tr i t = Some p -> exists x y, fin (p_x p) x /\ fin (p_y p) y /\ Rabs x <= P /\ Rabs y <= P.
Definition xy32 {lm} (q : pathpt (S := F32 lm)) (c : R * R) : Prop := fin (pp_x q) (fst c) /\ fin (pp_y q) (snd c).
Definition paths32 {lm} (P : R) (paths : list (path (S := F32 lm))) : Prop :=
  forall pa q, In pa paths -> In q (path_pts pa) -> pp_valid q = true ->
    exists c, xy32 q c /\ Rabs (fst c) <= P /\ Rabs (snd c) <= P.

(** A valid point of some path (of a path with the given on-route flag). *)
Definition path_point32 {lm} (paths : list (path (S := F32 lm))) (c : R * R) : Prop :=
  exists pa q, In pa paths /\ In q (path_pts pa) /\ pp_valid q = true /\ xy32 q c.
Definition path_point_with32 {lm} (flag : bool) (paths : list (path (S := F32 lm))) (c : R * R) : Prop :=
  exists pa q, In pa paths /\ path_on_route pa = flag /\ In q (path_pts pa) /\ pp_valid q = true /\ xy32 q c.

(** Arc lengths of path points are finite and at most [2^30], and different ones on a
    path differ by at least [2^-20]. *)
Definition arcs32 {lm} (paths : list (path (S := F32 lm))) : Prop :=
  forall pa q, In pa paths -> In q (path_pts pa) -> pp_valid q = true ->
    exists a, fin (pp_arc q) a /\ Rabs a <= 2 ^ 30 /\
      forall q' a', In q' (path_pts pa) -> pp_valid q' = true -> fin (pp_arc q') a' -> a' <> a -> / 2 ^ 20 <= Rabs (a' - a).

(** [a] is the arc length of a valid point of [pts] to which no other valid one is nearer
    to [x] by more than [e]. *)
Definition arc32 {lm} (e : R) (pts : list (pathpt (S := F32 lm))) (x : R * R) (a : R) : Prop :=
  exists q c, In q pts /\ pp_valid q = true /\ xy32 q c /\ fin (pp_arc q) a /\
    forall q' c', In q' pts -> pp_valid q' = true -> xy32 q' c' -> dist x c <= dist x c' + e.

(** No on-route path comes nearer to [x] than path [pa] by more than [e]. *)
Definition ref_path32 {lm} (e : R) (paths : list (path (S := F32 lm))) (x : R * R) (pa : path (S := F32 lm)) : Prop :=
  In pa paths /\ path_on_route pa = true /\
  exists q c, In q (path_pts pa) /\ pp_valid q = true /\ xy32 q c /\
    forall c', path_point_with32 true paths c' -> dist x c <= dist x c' + e.
