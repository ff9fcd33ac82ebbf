(** Planning episodes of recorded scenarios, without sim agents. *)
From Coq Require Import String.
From Coq Require Import List ZArith Bool Arith Lia.
From Verif.Lib Require Import Base JaxIndex Scalar.
From Verif.Model Require Import Operations State Dynamics BaseEnv Actor PlanningEnv Womd WomdState Loader.
From Verif.Spec Require Import StateSpec PlanSpec WomdSpec LoaderSpec RecordSpec.
From Verif.Proofs Require Import Core Episode P_Step P_Replay P_Plan P_PlanRun P_RecordRun.
Import ListNotations.
Local Open Scope nat_scope.

Section RecordPlan.
  Context {S : Scalar} {P X K : Type}.
  Variable split : K -> nat -> nat -> K.

  Lemma plan_steps n T (e : penv P X K) ok acts : pe_agents e = [] -> pe_params e = [] -> c_controlled (pe_cfg e) = SDC ->
    dyn_local (pe_dyn e) -> dyn_total (pe_dyn e) ok -> Forall (fun a => ok (fst a)) acts ->
    forall s, wf_state n T s -> exists s',
      penv_steps split e (mkps s []) acts = Ok (mkps s' []) /\
      env_steps (pe_dyn e) (pe_cfg e) s (map (fun a => repeat (fst a) n) acts) = Ok s'.
  Proof.
    intros Ea Ep Ec Dl Dt. induction 1 as [|[a k] acts Ha _ IH]; intros s W; [exists s; split; reflexivity|].
    cbn [fst] in Ha.
    destruct (planning_step_total split n T e s [] a k ok W Dt Ha) as (ps & Hps); [now rewrite Ea, Ep|now rewrite Ea|rewrite Ea; contradiction|].
    destruct (env_step_total n T (pe_dyn e) (pe_cfg e) s (repeat a n) ok W) as (s1 & Hs1); auto.
    { rewrite Ec. discriminate. }
    { apply repeat_length. }
    { apply Forall_forall. intros x Hx. apply repeat_spec in Hx. now subst x. }
    assert (E1 : ps_state ps = s1).
    { apply (no_agents_is_base split n T e s [] a k ps (repeat a n) s1 Ea Ec Dl W Hps Hs1).
      intros i Hi. assert (i < n).
      { destruct Hi as (m & Hm & _). rewrite <- (proj1 (proj2 (proj2 W))). apply nth_error_Some. congruence. }
      rewrite nth_error_repeat; auto. }
    assert (E2 : ps_actors ps = []).
    { destruct ps as [s2 xs]. cbn. unfold penv_step in Hps. rewrite Ea, Ep in Hps. cbn in Hps.
      repeat (apply bind_Ok in Hps as (? & ? & Hps)). injection Hps as _ <-.
      repeat match goal with H : Ok _ = Ok _ |- _ => injection H as <- end. reflexivity. }
    destruct ps as [s2 xs]. cbn in E1, E2. subst s2 xs.
    destruct (IH s1 (env_step_wf _ _ _ _ _ _ _ W Hs1)) as (s' & A & B). exists s'.
    cbn [penv_steps env_steps map fst]. rewrite Hps, Hs1. cbn [bind]. auto.
  Qed.

  Lemma plan_is_base n T (e : penv P X K) ok s rng acts : pe_agents e = [] -> pe_params e = [] -> c_controlled (pe_cfg e) = SDC ->
    dyn_local (pe_dyn e) -> dyn_total (pe_dyn e) ok -> Forall (fun a => ok (fst a)) acts ->
    wf_scenario n T s -> c_max_num_objects (pe_cfg e) = n -> c_init_steps (pe_cfg e) <= T ->
    exists s', run_planning split e s rng acts = Ok (mkps s' []) /\
      run_episode (pe_dyn e) (pe_cfg e) s (map (fun a => repeat (fst a) n) acts) = Ok s'.
  Proof.
    intros Ea Ep Ec Dl Dt F (R & Lm & Hn & HT) Hm Hi. destruct (env_reset_total n T (pe_cfg e) s R Hm Hi) as (s0 & H0).
    destruct (plan_steps n T e ok acts Ea Ep Ec Dl Dt F s0) as (s' & A & B); [eapply env_reset_wf; eauto|].
    exists s'. unfold run_planning, run_episode, penv_reset. rewrite H0. cbn [bind]. rewrite Ea. cbn [length].
    assert (Q : combine (split_keys split rng 0) (@nil (actor P X K)) = []) by (destruct (split_keys split rng 0); reflexivity).
    rewrite Q. cbn [mapM bind]. auto.
  Qed.

  Lemma recorded_planning n N paths (e : penv P X K) ok s r rng acts :
    scenario_of_record n N paths r s -> 0 < n -> pe_agents e = [] -> pe_params e = [] -> c_controlled (pe_cfg e) = SDC ->
    dyn_local (pe_dyn e) -> dyn_total (pe_dyn e) ok -> Forall (fun a => ok (fst a)) acts ->
    c_max_num_objects (pe_cfg e) = n -> 1 <= c_init_steps (pe_cfg e) -> c_init_steps (pe_cfg e) + length acts <= 91 ->
    exists ps', run_planning split e s rng acts = Ok ps' /\
      forall i t, i < n -> t < c_init_steps (pe_cfg e) + length acts ->
        t < c_init_steps (pe_cfg e) \/ int_entry r "state/is_sdc" i <> Some 1%Z ->
        exists p, at2 (s_sim (ps_state ps')) i t = Some p /\ recorded_pose r i t p.
  Proof.
    intros Hr Hn Ea Ep Ec Dl Dt F Hm H1 H2. pose proof Hr as (_ & R & _ & _ & _ & _ & _ & _ & _ & Lm & _).
    assert (W : wf_scenario n 91 s) by (repeat split; auto; try apply R; lia).
    destruct (plan_is_base n 91 e ok s rng acts Ea Ep Ec Dl Dt F W Hm ltac:(lia)) as (s' & A & B).
    exists (mkps s' []). split; [exact A|]. cbn [ps_state]. intros i t Hi Ht Hor.
    assert (Ll : length (map (fun a : act * option K => repeat (fst a) n) acts) = length acts) by apply map_length.
    destruct Hor as [Hw|Hns].
    - destruct (episode_basic n 91 _ _ s _ s' W B) as (_ & _ & _ & _ & Warm & _); [rewrite Ll; lia|].
      destruct (rect_at2 _ _ _ _ t R Hi) as (p & Hp); [lia|]. exists p. rewrite Warm by auto. split; [exact Hp|].
      exists p. split; [eapply log_recorded; eauto|]. unfold same_pose. auto 10.
    - assert (Nc : ~ in_control (pe_cfg e) s i).
      { intros Q. apply (control_steered n N paths r s (pe_cfg e) i Hr Hi H1) in Q; [|lia].
        unfold steered in Q. rewrite Ec in Q. contradiction. }
      destruct (replay_lemma n 91 _ _ s _ s' i t W B H1 ltac:(rewrite Ll; lia) Hi Nc ltac:(rewrite Ll; exact Ht))
        as (p & l & Hp & Hl & Sp & St).
      exists p. split; [exact Hp|]. exists l. split; [eapply log_recorded; eauto|]. auto.
  Qed.
End RecordPlan.
