(** Independent vocabulary for observations and roadgraph filtering (C38-C40). *)
From Coq Require Import Reals ZArith List Bool.
From Verif.Lib Require Import Base Scalar XR.
From Verif.Model Require Import State Dynamics BaseEnv Pose Observation.
From Verif.Spec Require Import StateSpec GeomSpec DynSpec MetricSpec.
Import ListNotations.
Open Scope R_scope.

Section Causality.
  Context {S : Scalar}.

  (** Two tables agree on columns 0..t. *)
  Definition same_until {A} (t : nat) (m1 m2 : list (list A)) : Prop :=
    forall i k, (k <= t)%nat -> at2 m1 i k = at2 m2 i k.

  (** Two states at the same step [t] that cannot be told apart by looking at
      steps 0..t: the simulated past, the logged past, the traffic lights so far
      and everything static agree.  Steps after [t] are arbitrary. *)
  Definition same_past (t : nat) (s1 s2 : state) : Prop :=
    s_t s1 = Z.of_nat t /\ s_t s2 = Z.of_nat t /\
    same_until t (s_sim s1) (s_sim s2) /\ same_until t (s_log s1) (s_log s2) /\
    same_until t (s_tls s1) (s_tls s2) /\ s_meta s1 = s_meta s2 /\
    s_paths s1 = s_paths s2 /\ s_rg s1 = s_rg s2.

  (** A state whose arrays are shaped as promised, with [L] traffic lights, at
      step [t]. *)
  Definition obs_wf (n L T t : nat) (s : state) : Prop :=
    wf_state n T s /\ rect L T (s_tls s) /\ s_t s = Z.of_nat t /\ (t < T)%nat.

  (** A policy that, from step [t0] on, only looks at the past and present. *)
  Definition causal {A} (t0 : nat) (pol : state -> A) : Prop :=
    forall n L T1 T2 t s1 s2, (t0 <= t)%nat -> obs_wf n L T1 t s1 -> obs_wf n L T2 t s2 ->
      same_past t s1 s2 -> pol s1 = pol s2.

  (** Two scenarios with the same static data whose logs agree on steps 0..t. *)
  Definition same_start (t : nat) (s1 s2 : state) : Prop :=
    same_until t (s_log s1) (s_log s2) /\
    same_until t (s_tls s1) (s_tls s2) /\
    s_meta s1 = s_meta s2 /\ s_paths s1 = s_paths s2 /\ s_rg s1 = s_rg s2.

  (** A policy that looks through an observation of the last [k] steps. *)
  Definition observing (k topk : nat) (fr : coordinate_frame)
    (f : observation -> res (list act)) (s : state) : res (list act) :=
    let* o := observation_from_state s k topk fr in f o.
  (** What a view shows of the last [k] of the [t] + 1 steps of a state. *)
  Definition shows_window (n L t k : nat) (s : state) (v : view) : Prop :=
    rect n k (v_traj v) /\ rect L k (v_tls v) /\ v_meta v = s_meta s /\
    (forall j x, (j < n)%nat -> (x < k)%nat -> at2 (v_traj v) j x = at2 (s_sim s) j (t + 1 - k + x)%nat) /\
    (forall j x, (j < L)%nat -> (x < k)%nat -> at2 (v_tls v) j x = at2 (s_tls s) j (t + 1 - k + x)%nat).

End Causality.

(** Integers a 32-bit float can hold: a significand of at most 24 bits times a
    power of two. *)
Definition f32_integer (w : Z) : Prop :=
  exists m e : Z, (0 <= e)%Z /\ (Z.abs m <= 2 ^ 24)%Z /\ w = (m * 2 ^ e)%Z.

(** [w] is the 32-bit float nearest to [z]; of two nearest ones it is the one
    with an even significand. *)
Definition f32_nearest (z w : Z) : Prop :=
  f32_integer w /\
  (forall y, f32_integer y -> (Z.abs (z - w) <= Z.abs (z - y))%Z) /\
  (forall y, f32_integer y -> y <> w -> Z.abs (z - y) = Z.abs (z - w) ->
     exists m e : Z, (0 <= e)%Z /\ (2 ^ 23 <= Z.abs m <= 2 ^ 24)%Z /\
       w = (m * 2 ^ e)%Z /\ Z.Even m).

(** Point [i] of the map ranks before point [j] as seen from [ref]: valid points
    first, then by distance, then by position in the map.  [pos] gives the
    coordinates of the valid points. *)
Definition ranks_before (rg : list (rgpt (S := XR))) (pos : nat -> R * R) (ref : R * R)
  (i j : nat) : Prop :=
  exists p q, nth_error rg i = Some p /\ nth_error rg j = Some q /\
    ((rg_valid p = true /\ rg_valid q = false) \/
     (rg_valid p = true /\ rg_valid q = true /\ dist ref (pos i) < dist ref (pos j)) \/
     ((rg_valid p = true /\ rg_valid q = true /\ dist ref (pos i) = dist ref (pos j) \/
       rg_valid p = false /\ rg_valid q = false) /\ (i < j)%nat)).

(** The same sample with its integer fields passed through 32-bit floats. *)
Definition same_sample (p q : rgpt (S := XR)) : Prop :=
  rg_x q = rg_x p /\ rg_y q = rg_y p /\ rg_z q = rg_z p /\
  rg_dx q = rg_dx p /\ rg_dy q = rg_dy p /\ rg_dz q = rg_dz p /\
  rg_valid q = rg_valid p /\
  f32_nearest (rg_type p) (rg_type q) /\ f32_nearest (rg_id p) (rg_id q).

(** A global vector has components (u, v) along and to the left of heading [a]. *)
Definition components (a : R) (g : R * R) (u v : R) : Prop :=
  fst g = u * cos a - v * sin a /\ snd g = u * sin a + v * cos a.

(** The observer [o] sees the global kinematic state [g] as [l]: [l]'s position
    and velocity are the components along and across the observer's heading, and
    [l]'s heading is the difference of headings. *)
Definition seen_as (o g l : kin) : Prop :=
  components (kyaw o) (kx g - kx o, ky g - ky o) (kx l) (ky l) /\
  components (kyaw o) (kvx g, kvy g) (kvx l) (kvy l) /\
  kyaw g = kyaw l + kyaw o.

(** Everything about a frame that does not depend on the coordinate frame. *)
Definition same_static (p q : pt (S := XR)) : Prop :=
  p_z q = p_z p /\ p_ts q = p_ts p /\ p_len q = p_len p /\ p_wid q = p_wid p /\ p_hei q = p_hei p.

(** Finite map samples and traffic lights. *)
Definition rg_kin (p : rgpt (S := XR)) (g d : R * R) : Prop :=
  rg_x p = Fin (fst g) /\ rg_y p = Fin (snd g) /\ rg_dx p = Fin (fst d) /\ rg_dy p = Fin (snd d).
Definition tl_at (p : tlight (S := XR)) (g : R * R) : Prop :=
  tl_x p = Fin (fst g) /\ tl_y p = Fin (snd g).

(** The point [l] in the observer's frame is the global point [g]. *)
Definition seen_at (o : kin) (g l : R * R) : Prop :=
  components (kyaw o) (fst g - kx o, snd g - ky o) (fst l) (snd l).

(** Whose frame an observation is expressed in: the observer's, the SDC's, or object
    0's when no object is marked as SDC. *)
Definition centre (fr : coordinate_frame) (s : state (S := XR)) (i : nat) (c : nat) : Prop :=
  (fr = FRAME_OBJECT /\ c = i) \/ (fr = FRAME_SDC /\ the_sdc (s_meta s) c) \/
  (fr = FRAME_SDC /\ (forall m, In m (s_meta s) -> m_is_sdc m = false) /\ c = 0%nat).

(** The valid map points have real positions [pos]. *)
Definition rg_real (rg : list (rgpt (S := XR))) (pos : nat -> R * R) : Prop :=
  forall i p, nth_error rg i = Some p -> rg_valid p = true ->
    rg_x p = Fin (fst (pos i)) /\ rg_y p = Fin (snd (pos i)).
