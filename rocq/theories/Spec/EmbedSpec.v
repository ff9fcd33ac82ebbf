(** Vocabulary for C69: the same scene with its objects listed in another order and with
    rows added for objects that are never there. *)
From Coq Require Import List ZArith Bool.
From Verif.Lib Require Import Base Scalar.
From Verif.Model Require Import State Dynamics BaseEnv Observation Geometry Discretizer Actor PlanningEnv.
From Verif.Spec Require Import StateSpec.
Import ListNotations.

(** Object [i] of the first scene is row [f i] of the second. *)
Definition places (n n' : nat) (f : nat -> nat) : Prop :=
  (forall i, i < n -> f i < n') /\ forall i j, i < n -> j < n -> f i = f j -> i = j.
(** A row of the second scene that belongs to no object. *)
Definition spare (n n' : nat) (f : nat -> nat) (j : nat) : Prop :=
  j < n' /\ forall i, i < n -> f i <> j.

(** Rows and tables agree object by object. *)
Definition same_rows {A} (n : nat) (f : nat -> nat) (l l' : list A) : Prop :=
  forall i, i < n -> nth_error l' (f i) = nth_error l i.
Definition same_table {A} (n : nat) (f : nat -> nat) (m m' : list (list A)) : Prop :=
  forall i t, i < n -> at2 m' (f i) t = at2 m i t.

Section Embed.
  Context {S : Scalar}.

  (** The spare rows of a trajectory are never valid. *)
  Definition spares_absent (n n' : nat) (f : nat -> nat) (tr : traj) : Prop :=
    forall j t p, spare n n' f j -> at2 tr j t = Some p -> p_valid p = false.

  (** Two descriptions of one logged scenario. *)
  Definition same_scene (n n' T : nat) (f : nat -> nat) (s s' : state) : Prop :=
    wf_scenario n T s /\ wf_scenario n' T s' /\ places n n' f /\
    same_table n f (s_log s) (s_log s') /\ spares_absent n n' f (s_log s') /\
    same_rows n f (s_meta s) (s_meta s') /\
    (forall j m, spare n n' f j -> nth_error (s_meta s') j = Some m -> m_is_sdc m = false) /\
    s_tls s' = s_tls s /\ s_paths s' = s_paths s /\ s_rg s' = s_rg s.

  (** Two descriptions of one state of an episode. *)
  Definition same_episode (n n' T : nat) (f : nat -> nat) (s s' : state) : Prop :=
    same_scene n n' T f s s' /\ rect n T (s_sim s) /\ rect n' T (s_sim s') /\
    same_table n f (s_sim s) (s_sim s') /\ spares_absent n n' f (s_sim s') /\ s_t s' = s_t s.

  (** The same environment configuration for the two numbers of rows. *)
  Definition same_config (n n' : nat) (c c' : envcfg) : Prop :=
    c_max_num_objects c = n /\ c_max_num_objects c' = n' /\ c_init_steps c' = c_init_steps c /\
    c_controlled c' = c_controlled c /\ c_allow_new_objects c' = c_allow_new_objects c.

  (** The same actions, with any actions for the spare rows. *)
  Definition same_actions (n n' : nat) (f : nat -> nat) (a a' : list act) : Prop :=
    length a = n /\ length a' = n' /\ same_rows n f a a'.

  (** What one observer sees, row by row; spare rows are not valid.  (Which row is the
      observer's own is not part of it.) *)
  Definition same_sight (n n' : nat) (f : nat -> nat) (v v' : view) : Prop :=
    same_table n f (v_traj v) (v_traj v') /\ spares_absent n n' f (v_traj v') /\
    same_rows n f (v_meta v) (v_meta v') /\
    v_pose v' = v_pose v /\ v_rg v' = v_rg v /\ v_tls v' = v_tls v /\ v_paths v' = v_paths v.
End Embed.

Section EmbedPlanning.
  Context {S : Scalar} {P X K : Type}.

  (** A sim agent for each of the two listings: in the same scene, with related actor
      states, the two choose the same actions and claim the same objects. *)
  Definition same_agent (R : X -> X -> Prop) (n n' T : nat) (f : nat -> nat) (ag ag' : actor P X K) : Prop :=
    (forall k s s' x x', same_episode n n' T f s s' -> ac_init ag k s = Ok x -> ac_init ag' k s' = Ok x' -> R x x') /\
    forall p k s s' x x' o o', same_episode n n' T f s s' -> R x x' ->
      ac_select ag p s x k = Ok o -> ac_select ag' p s' x' k = Ok o' ->
      R (o_state o) (o_state o') /\ same_rows n f (o_action o) (o_action o') /\
      same_rows n f (o_controlled o) (o_controlled o').

  (** The same planning environment for the two listings. *)
  Definition same_planning (R : X -> X -> Prop) (n n' T : nat) (f : nat -> nat) (e e' : penv P X K) : Prop :=
    pe_dyn e' = pe_dyn e /\ same_config n n' (pe_cfg e) (pe_cfg e') /\ pe_params e' = pe_params e /\
    Forall2 (same_agent R n n' T f) (pe_agents e) (pe_agents e').

  (** At log step 0 no spare row's box overlaps an object's box. *)
  Definition starts_clear (n n' : nat) (f : nat -> nat) (s' : state) : Prop :=
    forall i j p q, i < n -> spare n n' f j -> at2 (s_log s') (f i) 0 = Some p -> at2 (s_log s') j 0 = Some q ->
      has_overlap (pt_box p) (pt_box q) = false.
End EmbedPlanning.
