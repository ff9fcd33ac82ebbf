(** Vocabulary for C68: the same scene described in another coordinate frame. *)
From Coq Require Import Reals ZArith List Bool.
From Verif.Lib Require Import Base Scalar XR.
From Verif.Model Require Import State Dynamics BaseEnv Comfort Metrics Observation.
From Verif.Spec Require Import GeomSpec DynSpec MetricSpec ObsSpec.
Import ListNotations.
Open Scope R_scope.

(** Another choice of the map's orientation and origin: turn by [mt_turn], then shift. *)
Record motion := mkmotion { mt_turn : R; mt_dx : R; mt_dy : R }.

Definition moved_point (g : motion) (p : R * R) : R * R := move (mt_turn g) (mt_dx g) (mt_dy g) p.
Definition moved_vector (g : motion) (v : R * R) : R * R := move (mt_turn g) 0 0 v.

(** Position, velocity and heading in the other frame; headings are compared up to
    full turns. *)
Definition moved_kin (g : motion) (k k' : kin) : Prop :=
  (kx k', ky k') = moved_point g (kx k, ky k) /\
  (kvx k', kvy k') = moved_vector g (kvx k, kvy k) /\
  same_angle (kyaw k') (kyaw k + mt_turn g).

Definition sized (p : pt (S := XR)) : Prop :=
  exists z l w, p_z p = Fin z /\ p_len p = Fin l /\ p_wid p = Fin w.

(** One entry of a trajectory in the two frames.  Entries that are not valid may hold
    anything: the markers in them are not coordinates. *)
Definition moved_pt (g : motion) (p p' : pt (S := XR)) : Prop :=
  same_static p p' /\ sized p /\ p_valid p' = p_valid p /\
  (p_valid p = true -> exists k k', has_kin p k /\ has_kin p' k' /\ moved_kin g k k').

Definition moved_traj (g : motion) : traj (S := XR) -> traj -> Prop := Forall2 (Forall2 (moved_pt g)).

Definition moved_light (g : motion) (p p' : tlight (S := XR)) : Prop :=
  tl_z p' = tl_z p /\ tl_state p' = tl_state p /\ tl_lane p' = tl_lane p /\ tl_valid p' = tl_valid p /\
  (tl_valid p = true -> exists c, tl_at p c /\ tl_at p' (moved_point g c)).

Definition moved_rgpt (g : motion) (p p' : rgpt (S := XR)) : Prop :=
  rg_z p' = rg_z p /\ rg_dz p' = rg_dz p /\ rg_type p' = rg_type p /\ rg_id p' = rg_id p /\
  rg_valid p' = rg_valid p /\
  (rg_valid p = true -> (exists z, rg_z p = Fin z) /\
     exists c d, rg_kin p c d /\ rg_kin p' (moved_point g c) (moved_vector g d)).

Definition moved_pathpt (g : motion) (q q' : pathpt (S := XR)) : Prop :=
  pp_z q' = pp_z q /\ pp_id q' = pp_id q /\ pp_arc q' = pp_arc q /\ pp_valid q' = pp_valid q /\
  (pp_valid q = true -> exists c, path_xy q c /\ path_xy q' (moved_point g c)).
Definition moved_path (g : motion) (a a' : path (S := XR)) : Prop :=
  path_on_route a' = path_on_route a /\ Forall2 (moved_pathpt g) (path_pts a) (path_pts a').

Definition opt_rel {A} (R : A -> A -> Prop) (x y : option A) : Prop :=
  match x, y with Some a, Some b => R a b | None, None => True | _, _ => False end.

(** The whole scene: log and simulation, map, lights and routes in the other frame,
    everything else unchanged. *)
Definition moved_state (g : motion) (s s' : state (S := XR)) : Prop :=
  moved_traj g (s_sim s) (s_sim s') /\ moved_traj g (s_log s) (s_log s') /\
  Forall2 (Forall2 (moved_light g)) (s_tls s) (s_tls s') /\
  s_meta s' = s_meta s /\ s_t s' = s_t s /\
  opt_rel (Forall2 (moved_path g)) (s_paths s) (s_paths s') /\
  opt_rel (Forall2 (moved_rgpt g)) (s_rg s) (s_rg s').

(** The same outcome of a call: both succeed with related results or both fail with the
    same exception. *)
Definition alike {A} (R : A -> A -> Prop) (r r' : res A) : Prop :=
  match r, r' with Ok a, Ok a' => R a a' | Err e, Err e' => e' = e | _, _ => False end.

(** The same metric result: same validity and, if valid, same value. *)
Definition same_result (m m' : mres (S := XR)) : Prop :=
  mr_valid m' = mr_valid m /\ (mr_valid m = true -> mr_value m' = mr_value m).

(** The same results for all objects that are in the scene now. *)
Definition same_for_valid (s : state (S := XR)) (ms ms' : list (mres (S := XR))) : Prop :=
  length ms' = length ms /\
  forall cur i p, current_sim s = Ok cur -> nth_error cur i = Some p -> p_valid p = true ->
    nth_error ms' i = nth_error ms i.

(** A map with some road edge, and whose padding does not continue the curve of an edge. *)
Definition edges_clean (rg : list (rgpt (S := XR))) : Prop :=
  (exists e, In e rg /\ rg_valid e = true /\ is_road_edge (rg_type e) = true) /\
  forall i e ep, nth_error rg i = Some e -> rg_valid e = true -> is_road_edge (rg_type e) = true ->
    nth_error rg (i - 1) = Some ep -> rg_id ep = rg_id e -> rg_valid ep = true.

(** The vehicle's position can be read: it is the one SDC, and no object's entry at the
    step holds a number that is not finite (the code sums all of them with weight 0 or 1). *)
Definition readable (ms : list meta) (frame : list (pt (S := XR))) (i : nat) : Prop :=
  length frame = length ms /\ the_sdc ms i /\ (forall q, In q frame -> exists c, has_xy q c) /\
  exists p, nth_error frame i = Some p /\ p_valid p = true.

(** How an action is described in the other frame. *)
(** Displacements in the vehicle's own frame and bicycle controls: as they are. *)
Definition same_action (a a' : act (S := XR)) : Prop :=
  a' = a /\ Forall (fun x => exists r, x = Fin r) (a_data a).
(** Displacements along the axes of the map turn with it. *)
Definition turned_action (g : motion) (a a' : act (S := XR)) : Prop :=
  exists dx dy dyaw, a_data a = [Fin dx; Fin dy; Fin dyaw] /\
    a_data a' = [Fin (fst (moved_vector g (dx, dy))); Fin (snd (moved_vector g (dx, dy))); Fin dyaw] /\
    a_valid a' = a_valid a.
(** Complete states move with the map. *)
Definition moved_action (g : motion) (a a' : act (S := XR)) : Prop :=
  exists k k', moved_kin g k k' /\
    a_data a = [Fin (kx k); Fin (ky k); Fin (kyaw k); Fin (kvx k); Fin (kvy k)] /\
    a_data a' = [Fin (kx k'); Fin (ky k'); Fin (kyaw k'); Fin (kvx k'); Fin (kvy k')] /\
    a_valid a' = a_valid a.

(** Inferred actions: same validity and, if valid, related data. *)
Definition same_expert (a a' : act (S := XR)) : Prop :=
  a_valid a' = a_valid a /\ (a_valid a = true -> a' = a).
Definition turned_expert (g : motion) (a a' : act (S := XR)) : Prop :=
  a_valid a' = a_valid a /\ (a_valid a = true -> turned_action g a a').

(** No object moves further than [m] in one step. *)
Definition short_steps (m : R) (tr : traj (S := XR)) : Prop :=
  forall r i p q k l, In r tr -> nth_error r i = Some p -> nth_error r (i + 1) = Some q ->
    p_valid p = true -> p_valid q = true -> has_kin p k -> has_kin q l ->
    dist (kx k, ky k) (kx l, ky l) <= m.

(** What an observer sees is the same: the same entries are valid, and valid ones have
    the same position, velocity, size and time, and the same heading up to full turns. *)
Definition seen_pt (p p' : pt (S := XR)) : Prop :=
  same_static p p' /\ p_valid p' = p_valid p /\
  (p_valid p = true -> exists k k', has_kin p k /\ has_kin p' k' /\
     kx k' = kx k /\ ky k' = ky k /\ kvx k' = kvx k /\ kvy k' = kvy k /\ same_angle (kyaw k') (kyaw k)).
Definition seen_light (p p' : tlight (S := XR)) : Prop :=
  tl_valid p' = tl_valid p /\ tl_state p' = tl_state p /\ tl_lane p' = tl_lane p /\ tl_z p' = tl_z p /\
  (tl_valid p = true -> tl_x p' = tl_x p /\ tl_y p' = tl_y p).
Definition seen_rgpt (p p' : rgpt (S := XR)) : Prop :=
  rg_valid p' = rg_valid p /\ rg_type p' = rg_type p /\ rg_id p' = rg_id p /\ rg_z p' = rg_z p /\
  rg_dz p' = rg_dz p /\
  (rg_valid p = true -> rg_x p' = rg_x p /\ rg_y p' = rg_y p /\ rg_dx p' = rg_dx p /\ rg_dy p' = rg_dy p).

(** Two views that an observer cannot tell apart, apart from the recorded pose of the
    frame itself and the routes, which are handed over in map coordinates. *)
Definition same_view (v v' : view (S := XR)) : Prop :=
  Forall2 (Forall2 seen_pt) (v_traj v) (v_traj v') /\ v_is_ego v' = v_is_ego v /\ v_meta v' = v_meta v /\
  Forall2 seen_rgpt (v_rg v) (v_rg v') /\ Forall2 (Forall2 seen_light) (v_tls v) (v_tls v').

(** Observations agree for every observer in the scene whose frame is that of an object
    in the scene. *)
Definition sees_same (fr : coordinate_frame) (s : state (S := XR)) (o o' : observation) : Prop :=
  length o' = length o /\
  forall cur i p ci c v v', current_sim s = Ok cur -> nth_error cur i = Some p -> p_valid p = true ->
    centre fr s i ci -> nth_error cur ci = Some c -> p_valid c = true ->
    nth_error o i = Some v -> nth_error o' i = Some v' -> same_view v v'.

(** A driver for every object that only looks at what is observed in the object's own
    frame. *)
Definition own_frame_driver (drv : view (S := XR) -> act) : Prop :=
  (forall v v', same_view v v' -> drv v' = drv v) /\
  forall v, Forall (fun x => exists r, x = Fin r) (a_data (drv v)) /\
    forall v', length (a_data (drv v')) = length (a_data (drv v)).

(** [n] steps of an episode in which every object is steered by the driver [drv]. *)
Fixpoint driven (d : dynamics) (c : envcfg) (k topk : nat) (drv : view (S := XR) -> act) (n : nat)
  (s : state) : res state :=
  match n with
  | O => Ok s
  | S m => let* o := observation_from_state s k topk FRAME_OBJECT in
           let* s1 := env_step d c s (map drv o) in
           driven d c k topk drv m s1
  end.

(** A scene whose valid entries hold finite numbers. *)
Definition tame_pt (p : pt (S := XR)) : Prop := sized p /\ (p_valid p = true -> exists k, has_kin p k).
Definition tame (s : state (S := XR)) : Prop :=
  Forall (Forall tame_pt) (s_sim s) /\ Forall (Forall tame_pt) (s_log s) /\
  Forall (Forall (fun p => tl_valid p = true -> exists c, tl_at p c)) (s_tls s) /\
  match s_paths s with
  | Some ps => Forall (fun pa => Forall (fun q => pp_valid q = true -> exists c, path_xy q c) (path_pts pa)) ps
  | None => True
  end /\
  match s_rg s with
  | Some rg => Forall (fun p => rg_valid p = true -> (exists z, rg_z p = Fin z) /\ exists c d, rg_kin p c d) rg
  | None => True
  end.
