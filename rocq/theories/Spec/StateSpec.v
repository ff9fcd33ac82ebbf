(** Independent vocabulary used in the statements about states and episodes. *)
From Coq Require Import List ZArith Bool.
From Verif.Lib Require Import Base JaxIndex Scalar.
From Verif.Model Require Import State Dynamics BaseEnv.
Import ListNotations.

Section Spec.
  Context {S : Scalar}.

  (** A scenario with [n] objects and [T] logged timesteps: all arrays have the
      shapes the data types promise (simulator_state.py:43-72), and there is at
      least one object and one timestep. *)
  Definition wf_state (n T : nat) (s : state) : Prop :=
    rect n T (s_sim s) /\ rect n T (s_log s) /\ length (s_meta s) = n /\
    0 < n /\ 0 < T.

  (** Everything except the simulated trajectory and the clock is the same. *)
  Definition same_scenario (s s' : state) : Prop :=
    s_log s' = s_log s /\ s_tls s' = s_tls s /\ s_meta s' = s_meta s /\
    s_paths s' = s_paths s /\ s_rg s' = s_rg s.

  (** The five pose/velocity fields a dynamics model controls
      (abstract_dynamics.py:25). *)
  Definition same_pose (p q : pt) : Prop :=
    p_x p = p_x q /\ p_y p = p_y q /\ p_yaw p = p_yaw q /\
    p_vx p = p_vx q /\ p_vy p = p_vy q.

  (** A dynamics model produces one update per object, never fails on equally
      long inputs. *)
  Definition dyn_total (d : dynamics) (ok : act -> Prop) : Prop :=
    forall acts cur, length acts = length cur -> Forall ok acts ->
      exists us, d_update d acts cur = Ok us /\ length us = length cur.

  (** A dynamics model is per-object: the update of object i is a function of
      object i's action and frame only. *)
  Definition dyn_local (d : dynamics) : Prop :=
    exists f : act -> pt -> res upd,
    forall acts cur us, d_update d acts cur = Ok us ->
      forall i a p, nth_error acts i = Some a -> nth_error cur i = Some p ->
        exists u, f a p = Ok u /\ nth_error us i = Some u.
End Spec.

Section Episode.
  Context {S : Scalar}.

  (** A scenario as delivered by the data loader: [n] objects, [T] logged steps.
      Nothing is assumed about its simulated trajectory or timestep. *)
  Definition wf_scenario (n T : nat) (s : state) : Prop :=
    rect n T (s_log s) /\ length (s_meta s) = n /\ 0 < n /\ 0 < T.

  (** An episode: reset, then one step per action array. *)
  Definition run_episode (d : dynamics) (c : envcfg) (s : state)
    (acts : list (list act)) : res state :=
    let* s0 := env_reset c s in env_steps d c s0 acts.

  (** Object [i] is in the control mask of the episode of scenario [s] under
      configuration [c], stated directly on the scenario: by metadata flag, or,
      for ObjectType.VALID without object injection, by being present in the log
      at the last warm-up step. *)
  Definition in_control (c : envcfg) (s : state) (i : nat) : Prop :=
    match c_controlled c, c_allow_new_objects c with
    | VALID, false =>
        exists p, at2 (s_log s) i (c_init_steps c - 1) = Some p /\ p_valid p = true
    | SDC, _ => exists m, nth_error (s_meta s) i = Some m /\ m_is_sdc m = true
    | MODELED, _ => exists m, nth_error (s_meta s) i = Some m /\ m_is_modeled m = true
    | VALID, true => exists m, nth_error (s_meta s) i = Some m /\ m_is_valid m = true
    | NON_SDC, _ => False
    end.

  (** Object [i] is logged as valid at step [t]. *)
  Definition log_valid (s : state) (i t : nat) : Prop :=
    exists p, at2 (s_log s) i t = Some p /\ p_valid p = true.
  (** Object [i] is simulated as valid at step [t]. *)
  Definition sim_valid (s : state) (i t : nat) : Prop :=
    exists p, at2 (s_sim s) i t = Some p /\ p_valid p = true.

  (** Two action arrays for the same number of objects that agree on every
      controlled object. *)
  Definition agree_on_controlled (c : envcfg) (s : state) (a a' : list act) : Prop :=
    length a = length a' /\
    forall i, in_control c s i -> nth_error a i = nth_error a' i.
End Episode.
