(** Independent vocabulary for the waypoint-following agents, over the reals. *)
From Coq Require Import Reals List ZArith Bool.
From Verif.Lib Require Import Base Scalar XR.
From Verif.Model Require Import State Geometry Waypoint.
From Verif.Spec Require Import GeomSpec.
Import ListNotations.
Open Scope R_scope.

(** Object [j] is hit at waypoint [t]. *)
Definition hit (coll valid : list (list bool)) (j t : nat) : Prop :=
  at2 coll j t = Some true /\ at2 valid j t = Some true.

(** [t0] is the first waypoint at which anything is hit. *)
Definition first_hit (h : nat -> nat -> Prop) (t0 : nat) : Prop :=
  (exists j, h j t0) /\ forall t j, (t < t0)%nat -> ~ h j t.

(** [v] is the smallest of the values [f j] over the objects satisfying [P]. *)
Definition smallest (P : nat -> Prop) (f : nat -> R -> Prop) (v : R) : Prop :=
  (exists j, P j /\ f j v) /\ forall j r, P j -> f j r -> v <= r.

(** IDM parameters as real numbers in their meaningful range. *)
Record idm_real (p : idm_params (S := XR)) (v0 s0 th a b delta : R) : Prop := {
  ir_v0 : desired_vel p = Fin v0; ir_s0 : min_spacing_s0 p = Fin s0;
  ir_th : safe_time_headway p = Fin th; ir_a : max_accel p = Fin a;
  ir_b : max_decel p = Fin b; ir_delta : idm_delta p = Fin delta;
  ir_v0_pos : 0 < v0; ir_s0_nonneg : 0 <= s0; ir_th_nonneg : 0 <= th;
  ir_a_pos : 0 < a; ir_b_pos : 0 < b; ir_delta_ge1 : 1 <= delta }.

(** The gap IDM wants to keep behind a leader of speed [u]. *)
Definition wanted_gap (s0 th a b v u : R) : R :=
  s0 + Rmax 0 (v * th + v * (v - u) / (2 * sqrt (a * b))).

(** A gap of exactly 0 is replaced by 10 cm. *)
Definition effective_gap (d : R) : R := if Req_EM_T d 0 then 1 / 10 else d.

(** A frame with finite real entries. *)
Record rframe := mkrf {
  fx : R; fy : R; fz : R; fvx : R; fvy : R; fyaw : R; flen : R; fwid : R }.
Definition is_frame (p : pt (S := XR)) (f : rframe) : Prop :=
  p_x p = Fin (fx f) /\ p_y p = Fin (fy f) /\ p_z p = Fin (fz f) /\
  p_vx p = Fin (fvx f) /\ p_vy p = Fin (fvy f) /\ p_yaw p = Fin (fyaw f) /\
  p_len p = Fin (flen f) /\ p_wid p = Fin (fwid f).

Definition rspeed (f : rframe) : R := sqrt (fvx f * fvx f + fvy f * fvy f).

(** The rectangle of a frame, advanced [d] metres along its heading. *)
Definition advanced (f : rframe) (d : R) : rbox :=
  mkrbox (fx f + d * cos (fyaw f)) (fy f + d * sin (fyaw f)) (flen f) (fwid f) (fyaw f).

(** Advancing object [i] by [d] metres makes it overlap the present rectangle of the
    valid object [j]. *)
Definition obstructs (cur : list (pt (S := XR))) (i j : nat) (d : R) : Prop :=
  j <> i /\ exists pi pj fi fj,
    nth_error cur i = Some pi /\ nth_error cur j = Some pj /\
    p_valid pi = true /\ p_valid pj = true /\ is_frame pi fi /\ is_frame pj fj /\
    exists q, interior (advanced fi d) q /\ interior (advanced fj 0) q.

(** Object [j] is in the way of object [i] at the [k]-th of the [N] evenly spaced check
    points on the next [D] metres (the 0-th being the present position). *)
Definition in_the_way (cur : list (pt (S := XR))) (D : R) (N i j k : nat) : Prop :=
  (k <= N)%nat /\ obstructs cur i j (D * INR k / INR N).

(** Leader of object [i]: [u] is the smallest speed among the objects in the way at the
    first blocked check point and [d] the distance of that point; both are -1 on a free
    road. *)
Definition leader (cur : list (pt (S := XR))) (D : R) (N i : nat) (u d : R) : Prop :=
  ((forall j k, ~ in_the_way cur D N i j k) /\ u = -1 /\ d = -1) \/
  exists k0, first_hit (in_the_way cur D N i) k0 /\ d = D * INR k0 / INR N /\
    smallest (fun j => in_the_way cur D N i j k0)
      (fun j r => exists p f, nth_error cur j = Some p /\ is_frame p f /\ r = rspeed f) u.

(** Real power of a non-negative base. *)
Definition nonneg_pow (x d : R) : R := if Rlt_dec 0 x then Rpower x d else 0.

(** The published IDM acceleration. *)
Definition idm_law (v0 s0 th a b delta v u d : R) : R :=
  let gap_term := if Req_EM_T d (-1) then 0
                  else wanted_gap s0 th a b v u / effective_gap d in
  a * (1 - nonneg_pow (v / v0) delta - gap_term * gap_term).

(** Nearest point of the line through (wx, wy) with direction [yaw] to (x, y). *)
Definition on_line (wx wy yaw : R) (p : R * R) : Prop :=
  exists u, p = (wx + u * cos yaw, wy + u * sin yaw).
Definition nearest_on_line (wx wy yaw : R) (q p : R * R) : Prop :=
  on_line wx wy yaw p /\ forall p', on_line wx wy yaw p' -> dist q p <= dist q p'.

(** A waypoint with real position and heading. *)
Record way := mkway { wx : R; wy : R; wyaw : R }.
Definition is_way (p : pt (S := XR)) (w : way) : Prop :=
  p_x p = Fin (wx w) /\ p_y p = Fin (wy w) /\ p_yaw p = Fin (wyaw w).
Definition wxy (w : way) : R * R := (wx w, wy w).

(** [w] is the valid waypoint nearest to [q], the first one if there are several. *)
Definition nearest_waypoint (log : list (pt (S := XR))) (q : R * R) (w : way) : Prop :=
  exists k p, nth_error log k = Some p /\ p_valid p = true /\ is_way p w /\
    forall j p' w', nth_error log j = Some p' -> p_valid p' = true -> is_way p' w' ->
      dist q (wxy w) <= dist q (wxy w') /\ ((j < k)%nat -> dist q (wxy w) < dist q (wxy w')).

(** [w] is the last valid waypoint. *)
Definition last_waypoint (log : list (pt (S := XR))) (w : way) : Prop :=
  exists k p, nth_error log k = Some p /\ p_valid p = true /\ is_way p w /\
    forall j p', nth_error log j = Some p' -> p_valid p' = true -> (j <= k)%nat.

(** The end of the route is reached: the nearest waypoint is within 5 cm of the last
    one, or more than 5 m away. *)
Definition route_end (log : list (pt (S := XR))) (q : R * R) (w : way) : Prop :=
  (exists l, last_waypoint log l /\ dist (wxy l) (wxy w) < 5 / 100) \/ 5 < dist q (wxy w).

(** Where straight motion at the mean of the old and the new speed ends after 0.1 s. *)
Definition straight (f : rframe) (v' : R) : R * R :=
  let d := (v' + rspeed f) / 2 * (1 / 10) in (fx f + d * cos (fyaw f), fy f + d * sin (fyaw f)).
