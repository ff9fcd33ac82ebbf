(** Vocabulary for C73: planning episodes with sim agents in another coordinate frame. *)
From Coq Require Import String.
From Coq Require Import Reals ZArith List Bool.
From Verif.Lib Require Import Base JaxIndex Scalar XR.
From Verif.Model Require Import Operations State Dynamics BaseEnv Geometry Discretizer Dyn_State Dyn_Delta Dyn_Bicycle
  Comfort Metrics Observation Actor PlanningEnv.
From Verif.Spec Require Import StateSpec GeomSpec DynSpec MetricSpec ObsSpec MovedSpec.
Import ListNotations.
Open Scope R_scope.

Section MovedPlanSpec.
  Context {P X K : Type}.

  (** Every object that is somewhere in the simulation is somewhere in the log.  Reset
      and steps without injection keep this. *)
  Definition on_record (s : state (S := XR)) : Prop :=
    forall i r l, nth_error (s_sim s) i = Some r -> nth_error (s_log s) i = Some l ->
      (exists p, In p r /\ p_valid p = true) -> exists q, In q l /\ p_valid q = true.

  (** No object enters or leaves during the log. *)
  Definition no_traffic (log : traj (S := XR)) : Prop :=
    forall l p q, In l log -> In p l -> In q l -> p_valid p = true -> p_valid q = true.

  (** What a sim agent answers in the two frames: the same actor state, the same objects
      claimed, actions of five columns, and for every claimed object that is in the scene
      the same action described in the two frames. *)
  Definition same_choice (g : motion) (s : state (S := XR)) (o o' : output X) : Prop :=
    o_state o' = o_state o /\ o_controlled o' = o_controlled o /\ length (o_action o') = length (o_action o) /\
    Forall (fun a => length (a_data a) = 5%nat) (o_action o) /\
    Forall (fun a => length (a_data a) = 5%nat) (o_action o') /\
    forall cur i c a a', current_sim s = Ok cur -> nth_error cur i = Some c -> p_valid c = true ->
      nth_error (o_controlled o) i = Some true -> nth_error (o_action o) i = Some a ->
      nth_error (o_action o') i = Some a' -> moved_action g a a'.

  (** A choice of objects that does not look at coordinates. *)
  Definition same_objects (g : motion) (c : state (S := XR) -> list bool) : Prop :=
    forall s s', moved_state g s s' -> c s' = c s.

  (** A sim agent without a preferred frame, in scenes with such logs. *)
  Definition frame_free (g : motion) (ok : traj (S := XR) -> Prop) (a : actor P X K) : Prop :=
    (forall k s s', moved_state g s s' -> alike eq (ac_init a k s) (ac_init a k s')) /\
    forall p s s' x k, moved_state g s s' -> on_record s -> ok (s_log s) ->
      alike (same_choice g s) (ac_select a p s x k) (ac_select a p s' x k).

  (** The planning state in the two frames. *)
  Definition moved_pstate (g : motion) (ps ps' : pstate (S := XR) X) : Prop :=
    moved_state g (ps_state ps) (ps_state ps') /\ ps_actors ps' = ps_actors ps.

  (** The boxes of absent objects, which are no boxes but markers, overlap the same boxes
      at the first step of the log in both frames.  (Objects that overlap there are not
      driven by sim agents.) *)
  Definition markers_alike (s s' : state (S := XR)) : Prop :=
    forall f f' i j p q p' q', dynamic_index (s_log s) 0 = Ok f -> dynamic_index (s_log s') 0 = Ok f' ->
      nth_error f i = Some p -> nth_error f j = Some q -> nth_error f' i = Some p' -> nth_error f' j = Some q' ->
      p_valid p && p_valid q = false ->
      has_overlap (pt_box p') (pt_box q') = has_overlap (pt_box p) (pt_box q).

  (** The planner's actions in the two frames, per dynamics model. *)
  Inductive planned (g : motion) : dynamics (S := XR) -> (act (S := XR) -> act -> Prop) -> Prop :=
  | PlannedState : planned g StateDynamics (moved_action g)
  | PlannedGlobal dt mx my myaw : dt <> 0 ->
      planned g (DeltaGlobal (mkdp (Fin dt) (Fin mx) (Fin my) (Fin myaw))) (turned_action g)
  | PlannedLocal dt mx my myaw : dt <> 0 ->
      planned g (DeltaLocal (mkdp (Fin dt) (Fin mx) (Fin my) (Fin myaw))) same_action
  | PlannedBicycle dt ma ms nrm : 0 <= ma -> 0 <= ms ->
      planned g (InvertibleBicycleModel (mkbp (Fin dt) (Fin ma) (Fin ms) nrm)) same_action.

  (** A planner that looks at the scene in the SDC's own frame, and [n] steps of an
      episode planned by it. *)
  Definition own_frame_planner (pl : list (view (S := XR)) -> act (S := XR)) : Prop :=
    (forall v v', Forall2 same_view v v' -> pl v' = pl v) /\
    forall v, Forall (fun x => exists r, x = Fin r) (a_data (pl v)).
  Fixpoint planned_episode (split : K -> nat -> nat -> K) (e : penv P X K) (k topk : nat)
    (pl : list (view (S := XR)) -> act) (keys : list (option K)) (ps : pstate X) : res (pstate X) :=
    match keys with
    | [] => Ok ps
    | rng :: rest =>
        let* o := sdc_observation_from_state (ps_state ps) k topk FRAME_SDC in
        let* ps1 := penv_step split e ps (pl o) rng in
        planned_episode split e k topk pl rest ps1
    end.
  (** Two results of a metric that say the same about the SDC, object [i]: both per object,
      with a finite value for everyone (the code sums the values of all objects with
      weight 0 or 1) and the same result for the SDC, or both for the SDC alone. *)
  Definition same_for_sdc (ms : list meta) (i : nat) (v v' : mval (S := XR)) : Prop :=
    match v, v' with
    | PerObject l, PerObject l' =>
        length l = length ms /\ length l' = length ms /\
        Forall (fun m => exists r, mr_value m = Fin r) l /\ Forall (fun m => exists r, mr_value m = Fin r) l' /\
        exists m m', nth_error l i = Some m /\ nth_error l' i = Some m' /\ same_result m m'
    | Scalar0 m, Scalar0 m' => same_result m m'
    | _, _ => False
    end.
  Definition same_report (ms : list meta) (i : nat) : list (string * mval (S := XR)) -> list (string * mval) -> Prop :=
    Forall2 (fun x x' => fst x' = fst x /\ same_for_sdc ms i (snd x) (snd x')).
  (** What the shipped metrics read is finite: every object's position now, in the
      simulation and in the log, ... *)
  Definition finite_now (s : state (S := XR)) : Prop :=
    (forall cur q, current_sim s = Ok cur -> In q cur -> exists c, has_xy q c) /\
    (forall lg q, dynamic_index (s_log s) (s_t s) = Ok lg -> In q lg -> exists c, has_xy q c).
  (** ... and at the ends of the log, where the SDC [i] is in the scene as well as now. *)
  Definition route_readable (s : state (S := XR)) (i : nat) : Prop :=
    (exists cur, current_sim s = Ok cur /\ readable (s_meta s) cur i) /\
    (exists a, log_frame (s_log s) 0 = Ok a /\ readable (s_meta s) a i) /\
    (exists a, log_frame (s_log s) (num_timesteps (s_log s) - 1) = Ok a /\ readable (s_meta s) a i).
  Definition comparable (name : string) (s s' : state (S := XR)) (i : nat) : Prop :=
    if String.eqb name "log_divergence" then finite_now s /\ finite_now s'
    else if String.eqb name "offroad" then exists rg, s_rg s = Some rg /\ edges_clean rg
    else if String.eqb name "overlap" then True
    else if String.eqb name "kinematic_infeasibility" then True
    else route_readable s i /\ route_readable s' i.
End MovedPlanSpec.
