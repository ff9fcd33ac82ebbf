(** C54: metrics and reward of the planning-agent environment are the SDC's. *)
From Coq Require Import String.
From Coq Require Import List ZArith Reals Lra Lia Bool.
From Verif.Lib Require Import Base JaxIndex Scalar XR.
From Verif.Model Require Import Operations State Dynamics BaseEnv Dyn_State Geometry Discretizer
  Comfort Metrics Actor PlanningEnv.
From Verif.Spec Require Import StateSpec GeomSpec DynSpec MetricSpec RewardSpec PlanSpec AgentSpec.
From Verif.Proofs Require Import Core P_Reward P_PlanMetrics.
From Verif.Props Require Import ExM.
Import ListNotations.
Open Scope R_scope.

(** log_divergence, overlap and offroad are reported as the SDC's entry of the
    multi-agent metric. *)
Theorem C54_metrics_are_of_sdc {P X K} reg (e : penv (S := XR) P X K) ps d0 d3 name l k m :
  run_metrics reg (ps_state ps) (pe_metrics e) = Ok d0 -> penv_metrics reg e ps = Ok d3 ->
  In name per_object_names -> lookup name d0 = Some (PerObject l) ->
  length l = length (s_meta (ps_state ps)) -> the_sdc (s_meta (ps_state ps)) k ->
  Forall (fun m => finite (mr_value m)) l -> nth_error l k = Some m ->
  lookup name d3 = Some (Scalar0 m).
Proof. exact (penv_metrics_sdc reg e ps d0 d3 name l k m). Qed.

(** All metrics other than these and kinematic_infeasibility are handed through. *)
Theorem C54_other_metrics_unchanged {S : Scalar} {P X K} reg (e : penv (S := S) P X K) ps d0 d3 name :
  run_metrics reg (ps_state ps) (pe_metrics e) = Ok d0 -> penv_metrics reg e ps = Ok d3 ->
  ~ In name per_object_names -> name <> "kinematic_infeasibility"%string ->
  lookup name d3 = lookup name d0.
Proof. exact (penv_metrics_other reg e ps d0 d3 name). Qed.

(** kinematic_infeasibility is the SDC's, except that it is 0 and invalid until
    the first simulated step. *)
Theorem C54_kinematic_metric_masked_at_reset {P X K} reg (e : penv (S := XR) P X K) ps d0 d3 l k m r :
  run_metrics reg (ps_state ps) (pe_metrics e) = Ok d0 -> penv_metrics reg e ps = Ok d3 ->
  In "kinematic_infeasibility"%string (pe_metrics e) ->
  lookup "kinematic_infeasibility" d0 = Some (PerObject l) ->
  length l = length (s_meta (ps_state ps)) -> the_sdc (s_meta (ps_state ps)) k ->
  Forall (fun m => finite (mr_value m)) l -> nth_error l k = Some m -> mr_value m = Fin r ->
  lookup "kinematic_infeasibility" d3 =
    Some (Scalar0 (if (Z.of_nat (c_init_steps (pe_cfg e)) <=? s_t (ps_state ps))%Z
                   then m else mkmres (S := XR) (Fin 0) false)).
Proof. exact (penv_metrics_kim reg e ps d0 d3 l k m r). Qed.

(** Whether the metrics are reported at all: they are exactly when each of the four
    selected metrics that was asked for has one entry per object; if one of them does
    not, the call fails with an AssertionError. *)
Theorem C54_metrics_defined {S : Scalar} {P X K} reg (e : penv (S := S) P X K) ps d0 :
  run_metrics reg (ps_state ps) (pe_metrics e) = Ok d0 ->
  let n := length (s_meta (ps_state ps)) in
  let names := "kinematic_infeasibility"%string :: per_object_names in
  ((forall name v, In name names -> lookup name d0 = Some v -> one_per_object n v) ->
     exists d3, penv_metrics reg e ps = Ok d3) /\
  ((exists name v, In name names /\ lookup name d0 = Some v /\ ~ one_per_object n v) ->
     penv_metrics reg e ps = Err AssertionError).
Proof. exact (penv_metrics_defined reg e ps d0). Qed.

(** NOT a property: that the reported value is the SDC's whatever the metric is for
    other objects.  A value that is no finite number for some other object makes the
    SDC's NaN, however good the SDC's own value is. *)
Theorem C54_sdc_only_refuted {P X K} reg (e : penv (S := XR) P X K) ps d0 d3 name l j x m :
  run_metrics reg (ps_state ps) (pe_metrics e) = Ok d0 -> penv_metrics reg e ps = Ok d3 ->
  In name per_object_names -> lookup name d0 = Some (PerObject l) ->
  length l = length (s_meta (ps_state ps)) ->
  nth_error (s_meta (ps_state ps)) j = Some x -> m_is_sdc x = false ->
  nth_error l j = Some m -> ~ finite (mr_value m) ->
  exists b, lookup name d3 = Some (Scalar0 (mkmres (S := XR) NaN b)).
Proof. exact (penv_metrics_poisoned reg e ps d0 d3 name l j x m). Qed.

(** The reward is the weighted sum of what the metrics contribute for the SDC. *)
Theorem C54_reward_is_of_sdc {P X K} reg (e : penv (S := XR) P X K) ps k
  (wt : string -> R) (val : string -> nat -> R) names :
  let s := ps_state ps in
  let n := length (s_meta s) in
  pe_compute_reward e = true -> c_controlled (pe_cfg e) = SDC ->
  pe_rewards e = map (fun name => (name, Fin (wt name))) names ->
  the_sdc (s_meta s) k ->
  (forall name, In name names -> exists m v, lookup name reg = Some m /\ m s = Ok v /\ shaped n v /\
     forall i, (i < n)%nat -> contributes v i (val name i)) ->
  penv_reward reg e ps = Ok (Fin (Rsum (map (fun name => wt name * val name k) names))).
Proof. exact (penv_reward_spec reg e ps k wt val names). Qed.

Theorem C54_reward_off_is_zero {S : Scalar} {P X K} reg (e : penv (S := S) P X K) ps :
  pe_compute_reward e = false -> penv_reward reg e ps = Ok f0.
Proof. exact (penv_reward_off reg e ps). Qed.

(** Non-vacuity: a custom registry with an "overlap" metric over the three cars of
    [ExM]; the SDC's entry is 7. *)
Local Open Scope string_scope.
Definition reg7 : registry (S := XR) :=
  [("overlap", fun _ => Ok (PerObject [mkmres (S := XR) (Fin 7) true; mkmres (S := XR) (Fin 8) true;
                                        mkmres (S := XR) (Fin 9) false]));
   ("kinematic_infeasibility", fun _ => Ok (PerObject [mkmres (S := XR) (Fin 1) true;
                                        mkmres (S := XR) (Fin 0) true; mkmres (S := XR) (Fin 0) true]))].
Definition penv7 : penv (S := XR) unit unit unit :=
  mkpenv StateDynamics (mkcfg 3 1 SDC false) [("overlap", Fin 2)]
    ["overlap"; "kinematic_infeasibility"] true [] [].
Lemma car_sdc : the_sdc (s_meta car_state) 0.
Proof.
  split; [eexists; split; reflexivity|].
  intros [|[|[|j]]] m H Sm; auto; try (injection H as <-; discriminate). destruct j; discriminate.
Qed.
Example C54_ex : exists d3, penv_metrics reg7 penv7 (mkps car_state []) = Ok d3 /\
  lookup "overlap" d3 = Some (Scalar0 (mkmres (S := XR) (Fin 7) true)) /\
  lookup "kinematic_infeasibility" d3 = Some (Scalar0 (mkmres (S := XR) (Fin 0) false)) /\
  penv_reward reg7 penv7 (mkps car_state []) = Ok (Fin (2 * 7 + 0)).
Proof.
  destruct (run_metrics reg7 car_state (pe_metrics penv7)) as [d0|] eqn:E0; [|discriminate].
  destruct (penv_metrics reg7 penv7 (mkps car_state [])) as [d3|] eqn:E3; [|discriminate].
  exists d3. split; [reflexivity|]. 
  assert (D : d0 = [("overlap", PerObject [mkmres (S := XR) (Fin 7) true; mkmres (S := XR) (Fin 8) true;
                                        mkmres (S := XR) (Fin 9) false]);
   ("kinematic_infeasibility", PerObject [mkmres (S := XR) (Fin 1) true;
                                        mkmres (S := XR) (Fin 0) true; mkmres (S := XR) (Fin 0) true])])
    by (cbn in E0; congruence).
  split; [|split].
  - eapply (C54_metrics_are_of_sdc reg7 penv7 (mkps car_state [])) with (k := 0%nat); [exact E0|exact E3|simpl; tauto| | | | |].
    + rewrite D. reflexivity.
    + reflexivity.
    + exact car_sdc.
    + repeat constructor; eexists; reflexivity.
    + reflexivity.
  - rewrite (C54_kinematic_metric_masked_at_reset reg7 penv7 (mkps car_state []) d0 d3
      [mkmres (S := XR) (Fin 1) true; mkmres (S := XR) (Fin 0) true; mkmres (S := XR) (Fin 0) true]
      0 (mkmres (S := XR) (Fin 1) true) 1 E0 E3); try reflexivity.
    + simpl. tauto.
    + rewrite D. reflexivity.
    + exact car_sdc.
    + repeat constructor; eexists; reflexivity.
  - apply (C54_reward_is_of_sdc reg7 penv7 (mkps car_state []) 0 (fun _ => 2)
             (fun _ i => match i with 0%nat => 7 | 1%nat => 8 | _ => 0 end) ["overlap"]); try reflexivity.
    + exact car_sdc.
    + intros name [<-|[]]. eexists _, _. split; [reflexivity|]. split; [reflexivity|]. split; [reflexivity|].
      intros [|[|[|i]]] Hi; simpl in Hi; try lia; (eexists; split; [reflexivity|]);
        [left; auto|left; auto|right; auto].
Qed.

(** An "overlap" given for the scenario as a whole is refused; one that is infinite for
    the second car is reported as NaN for the SDC. *)
Definition reg8 (v : mval (S := XR)) : registry (S := XR) := [("overlap", fun _ => Ok v)].
Definition penv8 : penv (S := XR) unit unit unit :=
  mkpenv StateDynamics (mkcfg 3 1 SDC false) [] ["overlap"] true [] [].
Example C54_ex_scalar :
  penv_metrics (reg8 (Scalar0 (mkmres (S := XR) (Fin 7) true))) penv8 (mkps car_state []) = Err AssertionError.
Proof.
  refine (proj2 (C54_metrics_defined (reg8 (Scalar0 (mkmres (S := XR) (Fin 7) true))) penv8
    (mkps car_state []) [("overlap", Scalar0 (mkmres (S := XR) (Fin 7) true))] eq_refl) _).
  exists "overlap", (Scalar0 (mkmres (S := XR) (Fin 7) true)). split; [cbn; auto|]. split; [reflexivity|].
  intros (l & H & _). discriminate.
Qed.
Definition row8 := [mkmres (S := XR) (Fin 7) true; mkmres (S := XR) PInf true; mkmres (S := XR) (Fin 9) true].
Example C54_ex_poisoned : exists d3 b,
  penv_metrics (reg8 (PerObject row8)) penv8 (mkps car_state []) = Ok d3 /\
  lookup "overlap" d3 = Some (Scalar0 (mkmres (S := XR) NaN b)).
Proof.
  destruct (proj1 (C54_metrics_defined (reg8 (PerObject row8)) penv8 (mkps car_state [])
    [("overlap", PerObject row8)] eq_refl))
    as [d3 E].
  { intros name v [<-|[<-|[<-|[<-|[]]]]] H; try discriminate. injection H as <-.
    exists row8. split; reflexivity. }
  destruct (C54_sdc_only_refuted (reg8 (PerObject row8)) penv8 (mkps car_state [])
    [("overlap", PerObject row8)] d3 "overlap"
    row8 1 (nth 1 (s_meta car_state) (mkmeta 0 0 true true true true true)) (mkmres (S := XR) PInf true) eq_refl E)
    as [b H]; try reflexivity.
  - cbn. auto.
  - intros [r Hr]. discriminate.
  - eauto.
Qed.

Print Assumptions C54_metrics_defined.
Print Assumptions C54_sdc_only_refuted.
Print Assumptions C54_metrics_are_of_sdc.
Print Assumptions C54_kinematic_metric_masked_at_reset.
Print Assumptions C54_reward_is_of_sdc.
