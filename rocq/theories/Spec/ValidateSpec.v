(** Independent vocabulary for shapes and element types. *)
From Coq Require Import List.
From Verif.Model Require Import Validate.
Import ListNotations.

(** An array of shape [d] holding numbers, integers or flags of any width. *)
Definition floats (d : list nat) (t : tensor) : Prop := t_shape t = d /\ e_kind (t_type t) = Kfloat.
Definition ints (d : list nat) (t : tensor) : Prop := t_shape t = d /\ e_kind (t_type t) = Kint.
Definition flags (d : list nat) (t : tensor) : Prop := t_shape t = d /\ e_kind (t_type t) = Kbool.

(** The documented layout of each data type. *)
Definition is_trajectory (d : list nat) (t : ttraj) : Prop :=
  floats d (tt_x t) /\ floats d (tt_y t) /\ floats d (tt_z t) /\
  floats d (tt_vel_x t) /\ floats d (tt_vel_y t) /\ floats d (tt_yaw t) /\
  flags d (tt_valid t) /\ ints d (tt_timestamp t) /\
  floats d (tt_length t) /\ floats d (tt_width t) /\ floats d (tt_height t).
Definition is_metadata (d : list nat) (m : tmeta) : Prop :=
  ints d (tm_ids m) /\ ints d (tm_types m) /\ flags d (tm_is_sdc m) /\
  flags d (tm_is_modeled m) /\ flags d (tm_is_valid m) /\ flags d (tm_interest m) /\
  flags d (tm_is_controlled m).
Definition is_roadgraph (d : list nat) (r : troad) : Prop :=
  floats d (tr_x r) /\ floats d (tr_y r) /\ floats d (tr_z r) /\
  floats d (tr_dx r) /\ floats d (tr_dy r) /\ floats d (tr_dz r) /\
  ints d (tr_types r) /\ ints d (tr_ids r) /\ flags d (tr_valid r).
Definition is_lights (d : list nat) (r : tlights) : Prop :=
  floats d (tl_x r) /\ floats d (tl_y r) /\ floats d (tl_z r) /\
  ints d (tl_state r) /\ ints d (tl_lanes r) /\ flags d (tl_valid r).
(** Paths: one on_route flag per path. *)
Definition is_paths (batch : list nat) (points : nat) (r : tpaths) : Prop :=
  let d := batch ++ [points] in
  floats d (tp_x r) /\ floats d (tp_y r) /\ floats d (tp_z r) /\ ints d (tp_ids r) /\
  flags d (tp_valid r) /\ floats d (tp_arc r) /\ flags (batch ++ [1]) (tp_on_route r).
Definition is_update (d : list nat) (u : tupd) : Prop :=
  floats d (tu_x u) /\ floats d (tu_y u) /\ floats d (tu_yaw u) /\
  floats d (tu_vel_x u) /\ floats d (tu_vel_y u) /\ flags d (tu_valid u).

(** [d] starts with [p]. *)
Definition starts_with (p d : list nat) : Prop := exists rest, d = p ++ rest.

(** The element types of the library's own arrays. *)
Definition is_float32 (t : tensor) : Prop := t_type t = mket Kfloat 32.

(** [small] can be stretched to [big]: read from the last axis, every axis of [small]
    has the size of the axis of [big] it meets, or size 1. *)
Definition stretches_to (small big : list nat) : Prop :=
  length small <= length big /\
  forall i, i < length small ->
    nth i (rev small) 0 = nth i (rev big) 0 \/ nth i (rev small) 0 = 1.
