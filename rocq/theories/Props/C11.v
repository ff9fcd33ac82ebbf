(** C11: the action's valid flag. *)
From Coq Require Import List ZArith QArith Lia Bool.
From Verif.Lib Require Import Base JaxIndex Scalar QScalar.
From Verif.Model Require Import Operations State Dynamics BaseEnv Dyn_State Dyn_Delta Dyn_Bicycle.
From Verif.Spec Require Import StateSpec.
From Verif.Proofs Require Import Core Episode P_Step P_Replay P_Actions.
From Verif.Props Require Import Ex.
Import ListNotations.
Open Scope nat_scope.

(** Flipping valid flags never changes the result of a step, for every shipped
    dynamics model. *)
Theorem C11_valid_flag_has_no_effect {S : Scalar} q r d c s a a' :
  In d [StateDynamics; DeltaGlobal q; DeltaLocal q; InvertibleBicycleModel r] ->
  map a_data a = map a_data a' ->
  env_step d c s a = env_step d c s a'.
Proof.
  intros [<-|[<-|[<-|[<-|[]]]]];
    [ apply step_flag_blind, state_blind
    | apply step_flag_blind, delta_global_blind
    | apply step_flag_blind, delta_local_blind
    | apply step_flag_blind, bicycle_blind ].
Qed.

(** Hence the documented effect of an invalid action does not exist: here an
    invalid action moves the controlled object and keeps it valid. *)
Theorem C11_invalid_action_has_effect_refuted :
  exists s s' p, run_episode StateDynamics (ex_cfg SDC false) ex_state [] = Ok s /\
    env_step StateDynamics (ex_cfg SDC false) s
      [mkact [q 100; q 0; q 0; q 1; q 0] false; sact 0 0; sact 0 0] = Ok s' /\
    at2 (s_sim s') 0 2 = Some p /\ p_valid p = true /\ p_x p = q 100.
Proof.
  set (s := ex_run SDC false []).
  set (a := [mkact [q 100; q 0; q 0; q 1; q 0] false; sact 0 0; sact 0 0]).
  set (s' := get ex_state (env_step StateDynamics (ex_cfg SDC false) s a)).
  exists s, s'.
  destruct (at2 (s_sim s') 0 2) as [p|] eqn:E.
  2:{ exfalso. assert (K : pvalid (at2 (s_sim s') 0 2) = true)
        by (vm_compute; reflexivity). rewrite E in K. discriminate. }
  assert (P : forall A (f : pt -> A) (d : A),
            f p = match at2 (s_sim s') 0 2 with Some x => f x | None => d end)
    by (intros; rewrite E; reflexivity).
  exists p. split; [apply ex_run_ok; vm_compute; reflexivity|].
  split; [apply is_ok_get; vm_compute; reflexivity|].
  split; [reflexivity|]. split; [rewrite (P _ p_valid false); vm_compute; reflexivity|].
  rewrite (P _ (fun x => p_x x) f0). vm_compute. reflexivity.
Qed.

(** With use_fallback=True a controlled object with an invalid update continues
    at constant velocity, one with a valid update takes it, and an uncontrolled
    one takes the logged pose. *)
Theorem C11_fallback {S : Scalar} n T us sim ref mask (t : nat) inj sim' i cur nxt u b :
  rect n T sim -> rect n T ref -> t + 1 < T ->
  apply_trajectory_update_to_state us sim ref mask (Z.of_nat t) inj true = Ok sim' ->
  nth_error us i = Some u -> nth_error mask i = Some b ->
  at2 sim i t = Some cur -> at2 ref i (t + 1) = Some nxt ->
  exists p, at2 sim' i (t + 1) = Some p /\
    (b = true -> u_valid u = false ->
       p_x p = (p_x cur + p_vx cur * time_interval)%F /\
       p_y p = (p_y cur + p_vy cur * time_interval)%F /\
       p_vx p = p_vx cur /\ p_vy p = p_vy cur /\
       p_yaw p = fatan2 (p_vy cur) (p_vx cur)) /\
    (b = true -> u_valid u = true ->
       p_x p = u_x u /\ p_y p = u_y u /\ p_vx p = u_vx u /\ p_vy p = u_vy u /\
       p_yaw p = u_yaw u) /\
    (b = false -> same_pose p nxt).
Proof. exact (fallback_lemma n T us sim ref mask t inj sim' i cur nxt u b). Qed.

Example C11_ex_fallback :
  is_ok (apply_trajectory_update_to_state
    [mkupd (q 9) (q 9) (q 0) (q 0) (q 0) false; mkupd (q 9) (q 9) (q 0) (q 0) (q 0) true;
     mkupd (q 9) (q 9) (q 0) (q 0) (q 0) true] ex_log ex_log [true; true; false] 1 false true) = true.
Proof. vm_compute. reflexivity. Qed.

Print Assumptions C11_valid_flag_has_no_effect.
Print Assumptions C11_invalid_action_has_effect_refuted.
Print Assumptions C11_fallback.
