(** What a rendered scene should show. *)
From Coq Require Import String.
From Coq Require Import List ZArith QArith Bool Reals.
From Verif.Lib Require Import Base Scalar XR.
From Verif.Model Require Import State Geometry Discretizer Metrics Comfort Viz.
From Verif.Spec Require Import GeomSpec.
Import ListNotations.
Local Open Scope nat_scope.

Section VizSpec.
  Context {S : Scalar}.

  (** The same box with a tenth of the length and width. *)
  Definition tenth (b : box) : box :=
    mkbox (b_x b) (b_y b) (fdiv (b_len b) (flit 10 1)) (fdiv (b_wid b) (flit 10 1)) (b_yaw b).

  (** Grey, blue, light grey and red. *)
  Definition other_paint : rgb := (6 # 10, 6 # 10, 6 # 10)%Q.
  Definition highlight_paint : rgb := (0, 6 # 10, 8 # 10)%Q.
  Definition past_paint : rgb := (8 # 10, 8 # 10, 8 # 10)%Q.
  Definition collision_paint : rgb := (1, 0, 0)%Q.

  (** A box is drawn as its outline and its heading arrow. *)
  Definition drawn (b : box) (c : rgb) (m : mark) : Prop :=
    m = Outline (box_outline b) c \/ m = Arrow (box_arrow b) c.

  (** The marks of a trajectory at step [now]: valid entries only; the past as
      points, the present in full size, the future a tenth of it; controlled and
      other objects in different colours; objects in collision at the present step
      once more in red; the number of each present object if [ids]. *)
  Inductive shows (tr : traj) (ctl : list bool) (ids : bool) (now : nat) : mark -> Prop :=
  | ShowsPast i t p : at2 tr i t = Some p -> p_valid p = true -> t < now ->
      shows tr ctl ids now (Dot (p_x p, p_y p) past_paint)
  | ShowsPresent i p c m : at2 tr i now = Some p -> p_valid p = true -> nth_error ctl i = Some c ->
      drawn (pt_box p) (if c : bool then highlight_paint else other_paint) m ->
      shows tr ctl ids now m
  | ShowsFuture i t p c m : at2 tr i t = Some p -> p_valid p = true -> now < t ->
      nth_error ctl i = Some c ->
      drawn (tenth (pt_box p)) (if c : bool then highlight_paint else other_paint) m ->
      shows tr ctl ids now m
  | ShowsCollision i j p q m : at2 tr i now = Some p -> at2 tr j now = Some q -> i <> j ->
      p_valid p = true -> p_valid q = true -> has_overlap (pt_box p) (pt_box q) = true ->
      drawn (pt_box p) collision_paint m ->
      shows tr ctl ids now m
  | ShowsLabel i p : ids = true -> at2 tr i now = Some p -> p_valid p = true ->
      shows tr ctl ids now (Label (fsub (p_x p) f2, fadd (p_y p) f2) i).

  (** Road graph points: lane centers, road edges, stop signs, crosswalks and speed
      bumps (roadgraph.py:25-58). *)
  Definition road_paint (ty : Z) : option rgb :=
    match ty with
    | 1%Z | 2%Z | 3%Z => Some (230 # 255, 230 # 255, 230 # 255)%Q
    | 15%Z | 16%Z => Some (80 # 255, 80 # 255, 80 # 255)%Q
    | 17%Z => Some (1, 0, 0)%Q
    | 18%Z | 19%Z => Some (200 # 255, 200 # 255, 200 # 255)%Q
    | _ => None
    end.
  Definition shows_road (rg : list rgpt) (m : mark) : Prop :=
    exists p c, In p rg /\ rg_valid p = true /\ road_paint (rg_type p) = Some c /\
      m = RoadDot (rg_x p, rg_y p) c.

  (** Traffic lights: stop red, caution and flashing yellow, go green, unknown
      grey. *)
  Definition light_paint (state : Z) : option rgb :=
    match state with
    | 0%Z => Some (75 # 100, 75 # 100, 75 # 100)%Q
    | 1%Z | 4%Z => Some (1, 0, 0)%Q
    | 2%Z | 5%Z | 7%Z | 8%Z => Some (1, 1, 0)%Q
    | 3%Z | 6%Z => Some (0, 1, 0)%Q
    | _ => None
    end.
  Definition shows_light (tls : list (list tlight)) (now : nat) (m : mark) : Prop :=
    exists i l c, at2 tls i now = Some l /\ tl_valid l = true /\ light_paint (tl_state l) = Some c /\
      m = LightDot (tl_x l, tl_y l) c.

  (** The objects painted in the colour of controlled ones. *)
  Definition highlighted (h : objtype) (m : meta) : bool :=
    match h with
    | SDC => m_is_sdc m
    | MODELED => m_is_modeled m
    | VALID => m_is_valid m
    | NON_SDC => false
    end.

  (** Object [i] is the first that is marked as the SDC. *)
  Definition the_sdc (ms : list meta) (i : nat) : Prop :=
    (exists m, nth_error ms i = Some m /\ m_is_sdc m = true) /\
    forall j m, j < i -> nth_error ms j = Some m -> m_is_sdc m = false.

  (** The window around a point. *)
  Definition window (p : pt) (cfg : viz_config) : limits :=
    mklim (fsub (p_x p) (vz_back_x cfg)) (fadd (p_x p) (vz_front_x cfg))
          (fsub (p_y p) (vz_back_y cfg)) (fadd (p_y p) (vz_front_y cfg)).

  (** Everything a picture of a scene shows. *)
  Definition shows_scene (tr : traj) (ctl : list bool) (rg : list rgpt)
    (tls : list (list tlight)) (ids : bool) (now : nat) (m : mark) : Prop :=
    shows tr ctl ids now m \/ shows_road rg m \/ shows_light tls now m.

  (** The valid points of the paths that start at a valid point. *)
  Definition shows_path (paths : list path) (m : mark) : Prop :=
    exists pa p, In pa paths /\ (exists p0 r, path_pts pa = p0 :: r /\ pp_valid p0 = true) /\
      In p (path_pts pa) /\ pp_valid p = true /\ m = PathDot (pp_x p, pp_y p) (path_on_route pa).

  (** The names and values of the valid metrics. *)
  Definition shows_metric (metrics : list (string * mres)) (p : vec) (m : mark) : Prop :=
    exists name r, In (name, r) metrics /\ mr_valid r = true /\ m = MetricText p name (mr_value r).
End VizSpec.

Local Open Scope R_scope.

(** The point of a box [a] half lengths in front of and [c] half widths to the left
    of its center. *)
Definition on_box (b : rbox) (a c : R) : vec (S := XR) :=
  let q := rpoint b (a * (rlen b / 2)) (c * (rwid b / 2)) in (Fin (fst q), Fin (snd q)).
