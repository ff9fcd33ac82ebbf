(** C44: constant-speed and frozen agents. *)
From Coq Require Import List ZArith Reals Lra Lia Bool.
From Verif.Lib Require Import Base JaxIndex Scalar XR.
From Verif.Model Require Import Operations State Dynamics BaseEnv Dyn_State Dyn_Delta Dyn_Bicycle Geometry Discretizer
  Comfort Metrics Actor PlanningEnv.
From Verif.Spec Require Import StateSpec GeomSpec DynSpec PlanSpec AgentSpec ValidSpec.
From Verif.Proofs Require Import Core Episode P_Step P_Plan P_PlanRun P_Valid P_Agents.
From Verif.Props Require Import Ex ExP ExR.
Import ListNotations.
Open Scope R_scope.

(** In a closed-loop StateDynamics episode, j+1 steps after the last warm-up
    frame a constant-speed object has moved (j+1) * 0.1 s * velocity, with the
    heading of that frame; the velocity is the logged one if no speed is given,
    and the given speed along the heading otherwise. *)
Theorem C44_constant_speed_moves_linearly {P X K} n T c none ctrl speed (p : P) (x : X)
  (key : option K) (s s' : state (S := XR)) k i p0 k0 :
  wf_scenario n T s ->
  run_policy (S := XR) StateDynamics c
    (actor_policy (constant_speed_actor (S := XR) none StateDynamics ctrl (option_map Fin speed)) p x key)
    s k = Ok s' ->
  (1 <= c_init_steps c)%nat -> (c_init_steps c + k <= T)%nat -> (i < n)%nat ->
  in_control c s i ->
  at2 (s_log s) i (c_init_steps c - 1) = Some p0 -> has_kin p0 k0 ->
  forall j, (j < k)%nat ->
  exists q, at2 (s_sim s') i (c_init_steps c + j) = Some q /\
    has_kin q (mkkin (kx k0 + INR (j + 1) * (fst (kept_velocity speed k0) * (1 / 10)))
                     (ky k0 + INR (j + 1) * (snd (kept_velocity speed k0) * (1 / 10)))
                     (kyaw k0) (fst (kept_velocity speed k0)) (snd (kept_velocity speed k0))).
Proof. exact (constant_speed_episode n T c none ctrl speed p x key s s' k i p0 k0). Qed.

(** The actor's action is valid exactly for objects it controls whose current frame
    is valid, with every built-in dynamics. *)
Theorem C44_constant_speed_validity {S : Scalar} {P X K} n T (d : dynamics) q q' none ctrl speed
  (p : P) (x : X) (k : option K) s o (t : nat) :
  In d [StateDynamics; DeltaGlobal q; DeltaLocal q; InvertibleBicycleModel q'] ->
  wf_state n T s -> s_t s = Z.of_nat t -> (t < T)%nat ->
  ac_select (constant_speed_actor none d ctrl speed) p s x k = Ok o ->
  length (o_action o) = n /\
  forall i c, (i < n)%nat -> at2 (s_sim s) i t = Some c ->
    exists a, nth_error (o_action o) i = Some a /\
      (a_valid a = true <-> claims (S := S) o i /\ p_valid c = true).
Proof.
  intros D. assert (E : exists v, inverse_valid v d /\
    forall p0 p1, v p0 p1 = p_valid p1 \/ v p0 p1 = p_valid p0 && p_valid p1).
  { simpl in D. destruct D as [<-|[<-|[<-|[<-|[]]]]];
      [exists (fun _ p1 => p_valid p1); split; [exact state_inv_valid|auto] |
       exists (fun p0 p1 => p_valid p0 && p_valid p1); split; [|auto] ..];
      [apply delta_global_inv_valid | apply delta_local_inv_valid | apply bicycle_inv_valid]. }
  destruct E as (v & IV & Hv).
  exact (constant_speed_valid n T d v none ctrl speed p x k s o t IV Hv).
Qed.

(** Such an episode never fails. *)
Theorem C44_constant_speed_total {S : Scalar} {P X K} n T c none ctrl speed (p : P) (x : X)
  (k : option K) s m :
  wf_scenario n T s -> c_max_num_objects c = n -> c_controlled c <> NON_SDC ->
  (forall st, length (s_meta st) = n -> length (ctrl st) = n) ->
  (1 <= c_init_steps c)%nat -> (c_init_steps c + m <= T)%nat ->
  exists s', run_policy (S := S) StateDynamics c
    (actor_policy (constant_speed_actor none StateDynamics ctrl speed) p x k) s m = Ok s'.
Proof. exact (constant_speed_runs n T c none ctrl speed p x k s m). Qed.

(** A planning episode whose sim agent is FrozenSimPolicy: every object but the
    SDC, unless it overlaps another one at log step 0, keeps the pose and the
    velocity (not zero) of the last warm-up frame at every step. *)
Theorem C44_frozen_objects_keep_pose {S : Scalar} {P X K} split n T (e : penv P X K)
  s rng acts ps' none i j p0 :
  length (pe_params e) = length (pe_agents e) ->
  pe_agents e = [sim_agent none control_non_sdc frozen_update] ->
  wf_scenario n T s -> (1 <= c_init_steps (pe_cfg e))%nat ->
  (c_init_steps (pe_cfg e) + length acts <= T)%nat -> (j < length acts)%nat ->
  run_planning split e s rng acts = Ok ps' -> (i < n)%nat ->
  ~ starts_overlapping s i -> ~ is_sdc s i ->
  at2 (s_log s) i (c_init_steps (pe_cfg e) - 1) = Some p0 ->
  exists p, at2 (s_sim (ps_state ps')) i (c_init_steps (pe_cfg e) + j) = Some p /\
    same_pose p p0.
Proof. exact (frozen_episode split n T e s rng acts ps' none i j p0). Qed.

(** FrozenSimPolicy's action is the object's current frame, valid exactly if that is. *)
Theorem C44_frozen_action {S : Scalar} {P X K} n T none ctrl (p : P) (x : X) (k : option K) s o (t : nat) :
  wf_state n T s -> s_t s = Z.of_nat t -> (t < T)%nat ->
  ac_select (sim_agent none ctrl frozen_update) p s x k = Ok o ->
  length (o_action o) = n /\
  forall i c, (i < n)%nat -> at2 (s_sim s) i t = Some c ->
    exists a, nth_error (o_action o) i = Some a /\ a_valid a = p_valid (S := S) c /\
      a_data a = [p_x c; p_y c; p_yaw c; p_vx c; p_vy c].
Proof. exact (frozen_valid n T none ctrl p x k s o t). Qed.

(** Non-vacuity: the car of [ExR] at a given speed of 5 m/s for two steps is at
    1 m (the log says 2 m). *)
Definition cs_policy : state (S := XR) -> res (list (act (S := XR))) :=
  actor_policy (P := unit) (X := unit) (K := unit)
    (constant_speed_actor (S := XR) tt StateDynamics (fun _ => [true]) (Some (Fin 5))) tt tt None.
Example C44_ex_constant : exists s', run_policy (S := XR) StateDynamics rcfg cs_policy rscn 2 = Ok s' /\
  exists q, at2 (s_sim s') 0 2 = Some q /\ has_kin q (mkkin 1 0 0 5 0).
Proof.
  destruct (C44_constant_speed_total (S := XR) (P := unit) (X := unit) (K := unit) 1 3 rcfg tt
              (fun _ => [true]) (Some (Fin 5)) tt tt None rscn 2) as [s' E];
    [exact rscn_wf | reflexivity | discriminate | reflexivity | simpl; lia | simpl; lia |].
  exists s'. split; [exact E|].
  destruct (C44_constant_speed_moves_linearly (P := unit) (X := unit) (K := unit) 1 3 rcfg tt
              (fun _ => [true]) (Some 5) tt tt None rscn s' 2 0 (rpt 0 10) (rkin 0 10)) with (j := 1%nat)
    as (q & Eq & Kq); try reflexivity; try (simpl; lia); try exact rscn_wf; try exact E.
  - eexists. split; reflexivity.
  - apply rpt_kin.
  - exists q. split; [exact Eq|]. unfold rkin in Kq. cbn [kept_velocity kx ky kyaw kvx kvy fst snd] in Kq.
    rewrite cos_0, sin_0 in Kq. simpl (INR (1 + 1)) in Kq.
    replace (mkkin 1 0 0 5 0) with (mkkin (0 + (1 + 1) * (5 * 1 * (1 / 10))) (0 + (1 + 1) * (5 * 0 * (1 / 10))) 0 (5 * 1) (5 * 0));
      [exact Kq|f_equal; lra].
Qed.

Definition frozen_penv : penv (S := QScalar.QS) unit unit unit :=
  mkpenv StateDynamics (ex_cfg SDC true) [] [] false [sim_agent tt control_non_sdc frozen_update] [tt].
Example C44_ex_frozen :
  is_ok (run_planning ex_split frozen_penv ex_state None ex_pacts) = true /\
  initialized_overlap (s_log ex_state) = Ok [false; false; false] /\
  xval (at2 (s_sim (ps_state (get (mkps ex_state [])
    (run_planning ex_split frozen_penv ex_state None ex_pacts)))) 1 3) = 11%Z /\
  xval (at2 (s_log ex_state) 1 1) = 11%Z /\ xval (at2 (s_log ex_state) 1 3) = 13%Z.
Proof. vm_compute. repeat split; reflexivity. Qed.

Definition cs_start := get ex_state (env_reset (ex_cfg SDC true) ex_state).
Definition cs_out := ac_select (P := unit) (X := unit) (K := unit)
  (constant_speed_actor (S := QScalar.QS) tt StateDynamics (fun _ => [true; false; true]) None) tt cs_start tt None.
Example C44_ex_validity :
  match cs_out with Ok o => (length (o_action o), map a_valid (o_action o)) | Err _ => (0%nat, []) end
    = (3%nat, [true; false; false]) /\
  match current_sim cs_start with Ok c => map p_valid c | Err _ => [] end = [true; true; false].
Proof. split; vm_compute; reflexivity. Qed.

Print Assumptions C44_constant_speed_validity.
Print Assumptions C44_frozen_action.
Print Assumptions C44_constant_speed_moves_linearly.
Print Assumptions C44_frozen_objects_keep_pose.
