(** C71: from the dataset files to the end of an episode. *)
From Coq Require Import String.
From Coq Require Import List ZArith Bool Arith Lia Permutation QArith.
From Verif.Lib Require Import Base JaxIndex Scalar QScalar.
From Verif.Model Require Import Operations State Metrics Masked Womd WomdState Batch Dynamics Dyn_State Dyn_Delta Dyn_Bicycle
  BaseEnv Expert Actor PlanningEnv Pipeline Loader.
From Verif.Spec Require Import StateSpec DynSpec PlanSpec WomdSpec BatchSpec LoadSpec LoaderSpec RecordSpec.
From Verif.Proofs Require Import P_Batch P_Loader P_RecordRun P_RecordUnique P_RecordPlan.
From Verif.Props Require Import C59 C70.
Import ListNotations.
Local Open Scope nat_scope.

Section C71.
  Context {S : Scalar}.

  (** Whatever the schedule, files, processes, loader shards, devices and batch
      dimensions: every scenario of every yielded state belongs to a record of the
      files, and whatever the configuration of the environment, the dynamics model and
      the actions, the episode runs.  Until the last simulated step [now - 1]:
      - the frames of the warm-up are the recorded ones,
      - the objects that the actions do not steer are at their recorded poses,
      - time is the recorded time for all objects;
      later frames are invalid, and the episode is over exactly after step 90. *)
  Theorem C71_file_to_episode {File} (records : File -> list serialized) py_shuffle c devices files count runs ys x s :
    (forall s (l : list File), Permutation (py_shuffle s l) l) ->
    usable c devices -> good_files records c files -> 1 <= count -> length runs = count ->
    (forall p ys x, nth_error runs p = Some (ys, x) ->
       simulator_state_generator records py_shuffle c devices files count p ys x) ->
    In (ys, x) runs -> In s ys ->
    let wanted := generator_batch_dims (dc_distributed c) devices (ld_batch_dims (dc_loader c)) in
    let n := kept (dc_max_num_objects c) in
    exists B, shape_within B wanted /\
    forall b, inside B b -> exists e, In (Some e) (flat_map records files) /\
      scenario_of_record n (dc_max_num_rg_points c) (wanted_paths c) e (scenario s b) /\
      forall cfg f w acts, 0 < n -> c_max_num_objects cfg = n -> c_controlled cfg <> NON_SDC -> 1 <= c_init_steps cfg ->
        c_init_steps cfg + length acts <= 91 -> column_checked f ->
        (forall a p, length (a_data a) = w -> exists u, f a p = Ok u) -> Forall (actions_of B n w) acts ->
        exists s', b_episode (b_elementwise f) cfg s acts = Ok s' /\ batch_of B n 91 s' /\
          let now := c_init_steps cfg + length acts in
          let sim := s_sim (scenario s' b) in
          clock (b_t s') b = (Z.of_nat now - 1)%Z /\
          (exists tr, b_truncation s' = Ok tr /\ (cell tr b = true <-> now = 91)) /\
          (forall i t, i < n -> t < now -> exists p, at2 sim i t = Some p /\
             (t < c_init_steps cfg -> recorded e i t p) /\
             (~ steered cfg e i -> recorded_pose e i t p) /\
             (exists q, recorded e i t q /\ p_ts p = p_ts q)) /\
          (forall i t, i < n -> now <= t < 91 -> exists p, at2 sim i t = Some p /\ p_valid p = false).
  Proof.
    intros Hp Hu Hg Hc Lr Hr Hin Hy wanted n.
    destruct (loaded_records records py_shuffle c devices files count runs ys x s Hp Hu Hc Lr Hg Hr Hin Hy)
      as (B & HB & _ & HL & HE).
    exists B. split; [exact HB|]. intros b I. destruct (HE b I) as (e & He & Hs). exists e. split; [exact He|]. split; [exact Hs|].
    intros cfg f w acts Hn Hm Hcn H1 H2 CC Hf Ha.
    exact (recorded_episode B n _ _ s b e cfg f w acts HL I Hs Hn Hm Hcn H1 H2 CC Hf Ha).
  Qed.

  (** A closed loop of the expert with StateDynamics takes every object, steered or
      not, through its recorded poses. *)
  Theorem C71_expert n N paths e s cfg k :
    scenario_of_record n N paths e s -> 0 < n ->
    c_max_num_objects cfg = n -> c_controlled cfg <> NON_SDC -> 1 <= c_init_steps cfg -> c_init_steps cfg + k <= 91 ->
    exists s', run_policy StateDynamics cfg (infer_expert_action StateDynamics) s k = Ok s' /\
      forall i t, i < n -> t < c_init_steps cfg + k ->
        exists p, at2 (s_sim s') i t = Some p /\ recorded_pose e i t p.
  Proof. exact (recorded_expert n N paths s e cfg k). Qed.

  (** A planning environment without sim agents: whatever the planner does, everything
      but the SDC goes through its recorded poses. *)
  Theorem C71_planning {P X K} split n N paths (e : penv P X K) ok s r rng acts :
    scenario_of_record n N paths r s -> 0 < n -> pe_agents e = [] -> pe_params e = [] -> c_controlled (pe_cfg e) = SDC ->
    dyn_local (pe_dyn e) -> dyn_total (pe_dyn e) ok -> Forall (fun a => ok (fst a)) acts ->
    c_max_num_objects (pe_cfg e) = n -> 1 <= c_init_steps (pe_cfg e) -> c_init_steps (pe_cfg e) + length acts <= 91 ->
    exists ps', run_planning split e s rng acts = Ok ps' /\
      forall i t, i < n -> t < c_init_steps (pe_cfg e) + length acts ->
        t < c_init_steps (pe_cfg e) \/ int_entry r "state/is_sdc" i <> Some 1%Z ->
        exists p, at2 (s_sim (ps_state ps')) i t = Some p /\ recorded_pose r i t p.
  Proof. exact (recorded_planning split n N paths e ok s r rng acts). Qed.

  (** A record describes one scenario, ... *)
  Theorem C71_one_scenario n N paths e s s' :
    scenario_of_record n N paths e s -> scenario_of_record n N paths e s' -> s = s'.
  Proof. exact (scenario_unique n N paths e s s'). Qed.

  (** ... so the result of an episode depends on the record and on the actions for it
      alone: not on how it was loaded, the batch shape, its place in the batch, the other
      scenarios there or the actions for those. *)
  Theorem C71_reproducible n N paths e B B' s s' b b' cfg f w acts acts' :
    loaded_shape B n N paths s -> loaded_shape B' n N paths s' -> inside B b -> inside B' b' -> 0 < n ->
    scenario_of_record n N paths e (scenario s b) -> scenario_of_record n N paths e (scenario s' b') ->
    column_checked f -> Forall (actions_of B n w) acts -> Forall (actions_of B' n w) acts' ->
    map (fun a => vector a b) acts = map (fun a => vector a b') acts' ->
    rmap (fun r => scenario r b) (b_episode (b_elementwise f) cfg s acts)
    = rmap (fun r => scenario r b') (b_episode (b_elementwise f) cfg s' acts').
  Proof.
    intros ((_ & D2 & D3 & _) & _) ((_ & D2' & D3' & _) & _) I I' Hn He He' CC A A' Ea.
    apply (C59_independence f B B' n 91 w cfg s s' acts acts' b b'); auto; [split; assumption|split; assumption|lia|].
    exact (scenario_unique _ _ _ _ _ _ He He').
  Qed.
End C71.

(* ---------------- example ---------------- *)
#[local] Existing Instance QS.

(** The loaded batch of C70_example (2 x 1 scenarios of 3 objects), the SDC alone
    steered by StateDynamics, to the end of the episode: object 0 ends at its recorded
    place, the SDC (object 1) where the last action put it. *)
Definition ex_act : act (S := QS) := mkact (S := QS) (map inject_Z [1; 2; 3; 4; 5]%Z) true.
Definition ex_acts (k : nat) : list (arr (act (S := QS))) := repeat (mkA [2; 1; 3] (fun _ => ex_act)) k.
Definition ex_env : envcfg := mkcfg 3 11 SDC false.
#[local] Opaque ex_record.

Example C71_example : exists s e s' p, 
  loaded_shape [2; 1] 3 2 (Some (2, 3)) s /\ inside [2; 1] [1; 0] /\
  scenario_of_record (S := QS) 3 2 (Some (2, 3)) e (scenario s [1; 0]) /\
  Forall (actions_of [2; 1] 3 5) (ex_acts 80) /\ c_init_steps ex_env + length (ex_acts 80) = 91 /\
  b_episode (b_elementwise state_update) ex_env s (ex_acts 80) = Ok s' /\
  at2 (s_sim (scenario s' [1; 0])) 0 90 = Some p /\ recorded_pose e 0 90 p.
Proof.
  destruct C70_example as (ys & x & Hg & _ & s & e1 & e2 & e3 & _ & HL & _ & H2 & HP).
  assert (In2 : inside [2; 1] [1; 0]) by (repeat constructor).
  assert (Ha : Forall (actions_of (S := QS) [2; 1] 3 5) (ex_acts 80)).
  { apply Forall_forall. intros a Hin. apply repeat_spec in Hin. subst a. split; reflexivity. }
  destruct (recorded_episode (S := QS) [2; 1] 3 2 (Some (2, 3)) s [1; 0] e2 ex_env state_update 5 (ex_acts 80))
    as (s' & Hs & _ & _ & _ & Hf & _); auto; try discriminate; try (cbn; lia).
  { apply (proj2 (proj1 C59_shipped_dynamics)). }
  { intros [d v] p E. do 5 (destruct d as [|? d]; cbn in E; try discriminate). eexists. reflexivity. }
  destruct (Hf 0 90) as (p & Hp & _ & Hn & _); [lia|cbn; lia|].
  exists s, e2, s', p. repeat (split; [assumption|]). split; [reflexivity|]. split; [exact Hs|]. split; [exact Hp|].
  apply Hn. cbn. intros Q.
  assert (He : exists v, e2 = ex_record v /\ int_entry (S := QS) (ex_record v) "state/is_sdc" 0 = Some 0%Z).
  { assert (Hin : In (Some e2) [Some (ex_record 0); Some (ex_record 7); Some (ex_record 9)]).
    { eapply Permutation_in; [exact HP|]. right. now left. }
    destruct Hin as [E|[E|[E|[]]]]; injection E as <-; eexists; (split; [reflexivity|vm_compute; reflexivity]). }
  destruct He as (v & -> & Hz). congruence.
Qed.

Print Assumptions C71_file_to_episode.
Print Assumptions C71_expert.
Print Assumptions C71_planning.
Print Assumptions C71_reproducible.
Print Assumptions C71_example.
