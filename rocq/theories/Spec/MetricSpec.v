(** Independent vocabulary for the metrics: who is the SDC, finite positions,
    nearest points, sides of a directed line. *)
From Coq Require Import Reals ZArith List Bool.
From Verif.Lib Require Import Base Scalar XR.
From Verif.Model Require Import State.
From Verif.Spec Require Import GeomSpec DiscSpec.
Import ListNotations.
Open Scope R_scope.

(** Object [i] is the one and only SDC. *)
Definition the_sdc (ms : list meta) (i : nat) : Prop :=
  (exists m, nth_error ms i = Some m /\ m_is_sdc m = true) /\
  forall j m, nth_error ms j = Some m -> m_is_sdc m = true -> j = i.

(** The frame is at the finite position [c]. *)
Definition has_xy (p : pt (S := XR)) (c : R * R) : Prop :=
  p_x p = Fin (fst c) /\ p_y p = Fin (snd c).

(** Every object has some finite position at step [t]. *)
Definition finite_xy (tr : traj (S := XR)) (t : nat) : Prop :=
  forall i p, at2 tr i t = Some p -> exists c, has_xy p c.

(** [d] is the distance from [x] to the nearest point satisfying [P]. *)
Definition nearest_dist (P : R * R -> Prop) (x : R * R) (d : R) : Prop :=
  (exists c, P c /\ dist x c = d) /\ forall c, P c -> d <= dist x c.

(** Path points with finite coordinates. *)
Definition path_xy (q : pathpt (S := XR)) (c : R * R) : Prop :=
  pp_x q = Fin (fst c) /\ pp_y q = Fin (snd c).
Definition finite_paths (paths : list (path (S := XR))) : Prop :=
  forall pa q, In pa paths -> In q (path_pts pa) -> exists c, path_xy q c.

(** A valid point of some path (of a path with the given on-route flag). *)
Definition on_paths (paths : list (path (S := XR))) (c : R * R) : Prop :=
  exists pa q, In pa paths /\ In q (path_pts pa) /\ pp_valid q = true /\ path_xy q c.
Definition on_paths_with (flag : bool) (paths : list (path (S := XR))) (c : R * R) : Prop :=
  exists pa q, In pa paths /\ path_on_route pa = flag /\ In q (path_pts pa) /\
    pp_valid q = true /\ path_xy q c.

(** [a] is the arc length of the first valid point of [pts] nearest to [x]. *)
Definition nearest_arc (pts : list (pathpt (S := XR))) (x : R * R) (a : R) : Prop :=
  exists k q c, nth_error pts k = Some q /\ pp_valid q = true /\ path_xy q c /\ pp_arc q = Fin a /\
    forall j q' c', nth_error pts j = Some q' -> pp_valid q' = true -> path_xy q' c' ->
      dist x c <= dist x c' /\ ((j < k)%nat -> dist x c < dist x c').

(** Road edges (types 15 and 16 of the WOMD map schema). *)
Record redge := mkre { re_p : R * R * R; re_d : R * R * R; re_type : Z; re_id : Z; re_valid : bool }.
Definition fedge (e : redge) : rgpt (S := XR) :=
  let '(x, y, z) := re_p e in
  let '(dx, dy, dz) := re_d e in
  mkrg (Fin x) (Fin y) (Fin z) (Fin dx) (Fin dy) (Fin dz) (re_type e) (re_id e) (re_valid e).
Definition is_edge (e : redge) : Prop := re_valid e = true /\ (re_type e = 15%Z \/ re_type e = 16%Z).

(** Squared distance with height differences counted twice. *)
Definition stretched (q p : R * R * R) : R :=
  let '(qx, qy, qz) := q in
  let '(px, py, pz) := p in
  (px - qx) * (px - qx) + (py - qy) * (py - qy) + (2 * (pz - qz)) * (2 * (pz - qz)).

(** [q] lies strictly to the right of the line through [p] in direction [d]. *)
Definition right_of (q p d : R * R * R) : Prop :=
  let '(qx, qy, _) := q in
  let '(px, py, _) := p in
  let '(dx, dy, _) := d in
  0 < (qx - px) * dy - (qy - py) * dx.

(** The point [q] is off the road: it is to the right of its nearest road edge
    point [k] (the first of the nearest ones), and, if the preceding point belongs
    to the same curve, also to the right of the preceding direction. *)
Definition off_road (es : list redge) (q : R * R * R) : Prop :=
  exists k e ep, nth_error es k = Some e /\ nth_error es (k - 1) = Some ep /\ is_edge e /\
    (forall j e', nth_error es j = Some e' -> is_edge e' ->
       stretched q (re_p e) <= stretched q (re_p e') /\
       ((j < k)%nat -> stretched q (re_p e) < stretched q (re_p e'))) /\
    right_of q (re_p e) (re_d e) /\
    (re_id e = re_id ep -> right_of q (re_p e) (re_d ep)).

(** The four corners of a rectangle. *)
Definition corner_of (b : rbox) (c : R * R) : Prop :=
  exists u v, (u = rlen b / 2 \/ u = - (rlen b / 2)) /\ (v = rwid b / 2 \/ v = - (rwid b / 2)) /\
    c = rpoint b u v.
