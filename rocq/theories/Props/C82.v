(** C82: rewards in float32.  No assumption on the maths library. *)
From Coq Require Import String.
From Coq Require Import List ZArith Reals Lra Lia Bool.
From Flocq Require Import Core.Raux IEEE754.BinarySingleNaN.
From Verif.Lib Require Import Base JaxIndex Scalar F32.
From Verif.Model Require Import Operations State Dynamics BaseEnv Dyn_State Comfort Metrics PlanningEnv Envs.
From Verif.Spec Require Import StateSpec MetricSpec RewardSpec AgentSpec F32Spec F32RewardSpec.
From Verif.Proofs Require Import Core P_Metrics P_Reward P_F32 P_F32Wrap P_F32Idm P_F32Reward P_F32PlanReward.
Import ListNotations.
Open Scope R_scope.

(** [N] registered metrics with finite values for every object or for the SDC, products of
    weight and value at most [W]: objects of the mask get the weighted sum of their valid
    results up to [N^2 W / 2^22], invalid results counting 0; all others get exactly 0. *)
Theorem C82_linear_reward lm n reg (s : state (S := F32 lm)) ms mask wtF (wt : string -> R) (val : string -> nat -> R) names W :
  mask32 ms mask -> length mask = n -> 1 <= W <= 2 ^ 40 -> (length names <= 2 ^ 20)%nat ->
  (forall name, In name names -> fin (wtF name) (wt name)) ->
  (forall name, In name names -> exists m v, lookup name reg = Some m /\ m s = Ok v /\ shaped32 n v /\
     forall i, (i < n)%nat -> contributes32 v i (val name i) /\ Rabs (wt name * val name i) <= W /\ Rabs (val name i) <= 2 ^ 60) ->
  exists r, linear_reward (S := F32 lm) reg (map (fun name => (name, wtF name)) names) s ms = Ok r /\ length r = n /\
    forall i b, nth_error mask i = Some b -> exists x v, nth_error r i = Some x /\ fin x v /\
      if b then Rabs (v - Rsum (map (fun name => wt name * val name i) names)) <= INR (length names) ^ 2 * W / 2 ^ 22 else v = 0.
Proof. exact (reward32 lm n reg s ms mask wtF wt val names W). Qed.

(** Whole numbers (such as the 0/1 of overlap, off-road and wrong-way) with whole weights
    are added exactly, as long as the sizes of the terms add up to at most 2^24. *)
Theorem C82_whole_numbers lm n reg (s : state (S := F32 lm)) ms mask wtF (wt : string -> Z) (val : string -> nat -> Z) names :
  mask32 ms mask -> length mask = n ->
  (forall name, In name names -> fin (wtF name) (IZR (wt name))) ->
  (forall name, In name names -> exists m v, lookup name reg = Some m /\ m s = Ok v /\ shaped32 n v /\
     forall i, (i < n)%nat -> contributes32 v i (IZR (val name i)) /\ Rabs (IZR (val name i)) <= 2 ^ 60) ->
  (forall i, (i < n)%nat -> (Zsum (map (fun name => Z.abs (wt name * val name i)) names) <= 2 ^ 24)%Z) ->
  exists r, linear_reward (S := F32 lm) reg (map (fun name => (name, wtF name)) names) s ms = Ok r /\ length r = n /\
    forall i b, nth_error mask i = Some b -> exists x, nth_error r i = Some x /\
      fin x (IZR (if b then Zsum (map (fun name => wt name * val name i)%Z names) else 0)).
Proof. exact (reward_exact32 lm n reg s ms mask wtF wt val names). Qed.

Lemma bools32 lm (mask : list bool) : mask32 (map (fbool (S := F32 lm)) mask) mask.
Proof.
  split; [apply map_length|]. intros i b Hb. rewrite nth_error_map, Hb. eexists. split; [reflexivity|].
  destruct b; [exact (f1_fin lm) | exact (f0_fin lm)].
Qed.

(** The environment's reward: the mask is the objects it controls. *)
Theorem C82_environment lm n reg (e : benv (S := F32 lm)) (s : state (S := F32 lm)) mask wtF (wt : string -> R) (val : string -> nat -> R) names W :
  be_compute_reward e = true -> be_rewards e = map (fun name => (name, wtF name)) names ->
  get_control_mask (s_meta s) (c_controlled (be_cfg e)) = Ok mask -> length mask = n ->
  1 <= W <= 2 ^ 40 -> (length names <= 2 ^ 20)%nat ->
  (forall name, In name names -> fin (wtF name) (wt name)) ->
  (forall name, In name names -> exists m v, lookup name reg = Some m /\ m s = Ok v /\ shaped32 n v /\
     forall i, (i < n)%nat -> contributes32 v i (val name i) /\ Rabs (wt name * val name i) <= W /\ Rabs (val name i) <= 2 ^ 60) ->
  exists r, base_reward reg e s = Ok r /\ length r = n /\
    forall i b, nth_error mask i = Some b -> exists x v, nth_error r i = Some x /\ fin x v /\
      if b then Rabs (v - Rsum (map (fun name => wt name * val name i) names)) <= INR (length names) ^ 2 * W / 2 ^ 22 else v = 0.
Proof.
  intros C E M L HW HN Hw H. unfold base_reward. rewrite C, M, E. cbn [bind].
  exact (C82_linear_reward lm n reg s _ mask wtF wt val names W (bools32 lm mask) L HW HN Hw H).
Qed.

(** The planning environment's reward: the weighted sum of the SDC alone.  The other
    objects' finite rewards leave no trace in it. *)
Theorem C82_planning_environment lm {P X K} reg (e : penv (S := F32 lm) P X K) (ps : pstate (S := F32 lm) X) i wtF (wt : string -> R) (val : string -> nat -> R) names W :
  pe_compute_reward e = true -> pe_rewards e = map (fun name => (name, wtF name)) names -> c_controlled (pe_cfg e) = SDC ->
  the_sdc (s_meta (ps_state ps)) i -> 1 <= W <= 2 ^ 40 -> (length names <= 2 ^ 20)%nat ->
  (forall name, In name names -> fin (wtF name) (wt name)) ->
  (forall name, In name names -> exists m v, lookup name reg = Some m /\ m (ps_state ps) = Ok v /\ shaped32 (length (s_meta (ps_state ps))) v /\
     forall j, (j < length (s_meta (ps_state ps)))%nat -> contributes32 v j (val name j) /\ Rabs (wt name * val name j) <= W /\ Rabs (val name j) <= 2 ^ 60) ->
  exists x v, penv_reward reg e ps = Ok x /\ fin x v /\
    Rabs (v - Rsum (map (fun name => wt name * val name i) names)) <= INR (length names) ^ 2 * W / 2 ^ 22.
Proof. exact (planning_reward32 lm reg e ps i wtF wt val names W). Qed.

(** Whole numbers are exact there too. *)
Theorem C82_planning_whole_numbers lm {P X K} reg (e : penv (S := F32 lm) P X K) (ps : pstate (S := F32 lm) X) i wtF (wt : string -> Z) (val : string -> nat -> Z) names :
  pe_compute_reward e = true -> pe_rewards e = map (fun name => (name, wtF name)) names -> c_controlled (pe_cfg e) = SDC ->
  the_sdc (s_meta (ps_state ps)) i ->
  (forall name, In name names -> fin (wtF name) (IZR (wt name))) ->
  (forall name, In name names -> exists m v, lookup name reg = Some m /\ m (ps_state ps) = Ok v /\ shaped32 (length (s_meta (ps_state ps))) v /\
     forall j, (j < length (s_meta (ps_state ps)))%nat -> contributes32 v j (IZR (val name j)) /\ Rabs (IZR (val name j)) <= 2 ^ 60) ->
  (forall j, (j < length (s_meta (ps_state ps)))%nat -> (Zsum (map (fun name => Z.abs (wt name * val name j)) names) <= 2 ^ 24)%Z) ->
  exists x, penv_reward reg e ps = Ok x /\ fin x (IZR (Zsum (map (fun name => wt name * val name i)%Z names))).
Proof. exact (planning_reward_exact32 lm reg e ps i wtF wt val names). Qed.

(** The planning environment reports log_divergence, overlap and offroad of the SDC without
    rounding, and with its validity, if all objects' values are finite. *)
Theorem C82_planning_metrics lm {P X K} reg (e : penv (S := F32 lm) P X K) (ps : pstate (S := F32 lm) X) d0 d3 name l k m r :
  run_metrics reg (ps_state ps) (pe_metrics e) = Ok d0 -> penv_metrics reg e ps = Ok d3 ->
  In name per_object_names -> lookup name d0 = Some (PerObject l) ->
  length l = length (s_meta (ps_state ps)) -> the_sdc (s_meta (ps_state ps)) k ->
  (forall m, In m l -> exists r, fin (mr_value m) r) -> nth_error l k = Some m -> fin (mr_value m) r -> Rabs r <= 2 ^ 70 ->
  exists x, lookup name d3 = Some (Scalar0 (mkmres (S := F32 lm) x (mr_valid m))) /\ fin x r.
Proof. exact (planning_metrics32 lm reg e ps d0 d3 name l k m r). Qed.

(** So too kinematic_infeasibility from the first simulated step on; before it is 0 and invalid. *)
Theorem C82_planning_kinematic lm {P X K} reg (e : penv (S := F32 lm) P X K) (ps : pstate (S := F32 lm) X) d0 d3 l k m r :
  run_metrics reg (ps_state ps) (pe_metrics e) = Ok d0 -> penv_metrics reg e ps = Ok d3 ->
  In "kinematic_infeasibility"%string (pe_metrics e) -> lookup "kinematic_infeasibility"%string d0 = Some (PerObject l) ->
  length l = length (s_meta (ps_state ps)) -> the_sdc (s_meta (ps_state ps)) k ->
  (forall m, In m l -> exists r, fin (mr_value m) r /\ Rabs r <= 2 ^ 70) -> nth_error l k = Some m -> fin (mr_value m) r ->
  exists x, let started := (Z.of_nat (c_init_steps (pe_cfg e)) <=? s_t (ps_state ps))%Z in
    lookup "kinematic_infeasibility"%string d3 = Some (Scalar0 (mkmres (S := F32 lm) x (mr_valid m && started))) /\
    fin x (if started then r else 0).
Proof. exact (planning_kim32 lm reg e ps d0 d3 l k m r). Qed.

(* ---------------- concrete cases ---------------- *)
Local Open Scope string_scope.

(** One car, 3 m and 4 m off its log; [x] its x coordinate. *)
Definition rpt (lm : libm) (x : f32) (y : Z) : pt (S := F32 lm) :=
  mkpt (S := F32 lm) x (f32_ofZ y) (f32_ofZ 0) (f32_ofZ 0) (f32_ofZ 0) (f32_ofZ 0) true 0 (f32_ofZ 4) (f32_ofZ 2) (f32_ofZ 1).
Definition rscn (lm : libm) (x : f32) : state (S := F32 lm) :=
  mkstate (S := F32 lm) [[rpt lm x 4]] [[rpt lm (f32_ofZ 0) 0]] [] [mkmeta 1 1 true true true false false] 0 None None.

(** Weight -2 on a divergence of 5 m: exactly -10. *)
Example C82_ex lm : exists r x, linear_reward (S := F32 lm) initial_registry [("log_divergence", f32_ofZ (-2))] (rscn lm (f32_ofZ 3)) [f32_ofZ 1] = Ok r /\
  nth_error r 0 = Some x /\ fin x (-10).
Proof.
  destruct (C82_whole_numbers lm 1 initial_registry (rscn lm (f32_ofZ 3)) [f32_ofZ 1] [true] (fun _ => f32_ofZ (-2)) (fun _ => (-2)%Z) (fun _ _ => 5%Z) ["log_divergence"])
    as (r & Er & _ & N).
  - split; [reflexivity|]. intros [|i] b Hb; [|destruct i; discriminate Hb]. apply Some_inj in Hb. subst b. eexists. split; [reflexivity|]. apply (ofZ_fin 1); lia.
  - reflexivity.
  - intros name _. apply (ofZ_fin (-2)); lia.
  - intros name [<-|[]]. eexists. eexists. split; [reflexivity|]. split; [reflexivity|].
    split; [reflexivity|]. intros [|i] Hi; [|lia]. split.
    + eexists. split; [reflexivity|]. left. split; [reflexivity|]. cbn [mr_value]. split; vm_compute; [reflexivity | lra].
    + rewrite Rabs_right by lra. simpl. lra.
  - intros i _. cbn. lia.
  - destruct (N 0%nat true eq_refl) as (x & Ex & Fx). exists r, x. split; [exact Er|]. split; [exact Ex|]. exact Fx.
Qed.

(** The SDC is the second of two cars, 5 m off its log; the first, 13 m off, does not count. *)
Definition rtwo (lm : libm) (x : f32) : state (S := F32 lm) :=
  mkstate (S := F32 lm) [[rpt lm x 12]; [rpt lm (f32_ofZ 3) 4]] [[rpt lm (f32_ofZ 0) 0]; [rpt lm (f32_ofZ 0) 0]] []
    [mkmeta 1 1 false true true false false; mkmeta 2 1 true true true false false] 0 None None.
Definition rpenv (lm : libm) : penv (S := F32 lm) unit unit unit :=
  mkpenv (S := F32 lm) (P := unit) (X := unit) (K := unit) (StateDynamics (S := F32 lm)) (mkcfg 2 1 SDC false) [("log_divergence", f32_ofZ (-2))] [] true [] [].
Example C82_planning_ex lm : exists x, penv_reward initial_registry (rpenv lm) (mkps (rtwo lm (f32_ofZ 5)) []) = Ok x /\ fin x (-10).
Proof.
  destruct (C82_planning_whole_numbers lm initial_registry (rpenv lm) (mkps (rtwo lm (f32_ofZ 5)) []) 1 (fun _ => f32_ofZ (-2)) (fun _ => (-2)%Z)
    (fun _ j => match j with O => 13%Z | _ => 5%Z end) ["log_divergence"]) as (x & Ex & Fx).
  - reflexivity.
  - reflexivity.
  - reflexivity.
  - split; [eexists; split; reflexivity|]. intros [|[|j]] m Hm Hs; [|reflexivity|destruct j; discriminate Hm].
    apply Some_inj in Hm. subst m. discriminate Hs.
  - intros name _. apply (ofZ_fin (-2)); lia.
  - intros name [<-|[]]. eexists. eexists. split; [reflexivity|]. split; [reflexivity|].
    split; [reflexivity|]. intros [|[|j]] Hj; [| |cbn in Hj; lia].
    + split.
      * eexists. split; [reflexivity|]. left. split; [reflexivity|]. cbn [mr_value]. split; vm_compute; [reflexivity | lra].
      * rewrite Rabs_right by lra. simpl. lra.
    + split.
      * eexists. split; [reflexivity|]. left. split; [reflexivity|]. cbn [mr_value]. split; vm_compute; [reflexivity | lra].
      * rewrite Rabs_right by lra. simpl. lra.
  - intros [|[|j]] Hj; [vm_compute; discriminate | vm_compute; discriminate | cbn in Hj; lia].
  - exists x. split; [exact Ex | exact Fx].
Qed.

(** The general bound in the same scene. *)
Example C82_planning_bound_ex lm : exists x v, penv_reward initial_registry (rpenv lm) (mkps (rtwo lm (f32_ofZ 5)) []) = Ok x /\ fin x v /\
  Rabs (v - -10) <= 1 / 2 ^ 17.
Proof.
  destruct (C82_planning_environment lm initial_registry (rpenv lm) (mkps (rtwo lm (f32_ofZ 5)) []) 1 (fun _ => f32_ofZ (-2)) (fun _ => -2)
    (fun _ j => match j with O => 13 | _ => 5 end) ["log_divergence"] 26) as (x & v & Ex & Fx & B).
  - reflexivity.
  - reflexivity.
  - reflexivity.
  - split; [eexists; split; reflexivity|]. intros [|[|j]] m Hm Hs; [|reflexivity|destruct j; discriminate Hm].
    apply Some_inj in Hm. subst m. discriminate Hs.
  - simpl. lra.
  - apply le_n_S, Nat.le_0_l.
  - intros name _. apply (ofZ_fin (-2)); lia.
  - intros name [<-|[]]. eexists. eexists. split; [reflexivity|]. split; [reflexivity|].
    split; [reflexivity|]. intros [|[|j]] Hj; [| |cbn in Hj; lia].
    + split; [|split].
      * eexists. split; [reflexivity|]. left. split; [reflexivity|]. cbn [mr_value]. split; vm_compute; [reflexivity | lra].
      * rewrite Rabs_left; lra.
      * rewrite Rabs_right by lra. simpl. lra.
    + split; [|split].
      * eexists. split; [reflexivity|]. left. split; [reflexivity|]. cbn [mr_value]. split; vm_compute; [reflexivity | lra].
      * rewrite Rabs_left; lra.
      * rewrite Rabs_right by lra. simpl. lra.
  - exists x, v. split; [exact Ex|]. split; [exact Fx|]. cbn [map Rsum fold_right length INR] in B.
    replace (-2 * 5 + 0) with (-10) in B by lra. eapply Rle_trans; [exact B|]. simpl. lra.
Qed.

(** In the same scene with stub metrics the SDC's 5 is reported, and its kinematic metric
    only from step 1 on. *)
Definition rstub (lm : libm) : registry (S := F32 lm) :=
  let row := PerObject [mkmres (S := F32 lm) (f32_ofZ 13) true; mkmres (S := F32 lm) (f32_ofZ 5) true] in
  [("offroad", fun _ => Ok row); ("kinematic_infeasibility", fun _ => Ok row)].
Definition renv (lm : libm) (h : nat) : penv (S := F32 lm) unit unit unit :=
  mkpenv (S := F32 lm) (P := unit) (X := unit) (K := unit) (StateDynamics (S := F32 lm)) (mkcfg 2 h SDC false) []
    ["offroad"; "kinematic_infeasibility"] false [] [].
Example C82_planning_metrics_ex lm h : exists d3 x y, penv_metrics (rstub lm) (renv lm h) (mkps (rtwo lm (f32_ofZ 5)) []) = Ok d3 /\
  lookup "offroad" d3 = Some (Scalar0 (mkmres (S := F32 lm) x true)) /\ fin x 5 /\
  lookup "kinematic_infeasibility" d3 = Some (Scalar0 (mkmres (S := F32 lm) y (Nat.eqb h 0))) /\ fin y (if Nat.eqb h 0 then 5 else 0).
Proof.
  set (ps := mkps (rtwo lm (f32_ofZ 5)) []). set (m := mkmres (S := F32 lm) (f32_ofZ 5) true).
  set (row := [mkmres (S := F32 lm) (f32_ofZ 13) true; m]).
  assert (F5 : fin (f32_ofZ 5) 5) by (apply (ofZ_fin 5); lia). assert (F13 : fin (f32_ofZ 13) 13) by (apply (ofZ_fin 13); lia).
  assert (FF : forall m', In m' row -> exists r, fin (mr_value m') r /\ Rabs r <= 2 ^ 70).
  { intros m' [<-|[<-|[]]]; [exists 13 | exists 5]; (split; [assumption|]); rewrite Rabs_right by lra; simpl; lra. }
  assert (U : the_sdc (s_meta (ps_state ps)) 1).
  { split; [eexists; split; reflexivity|]. intros [|[|j]] m' Hm Hs; [|reflexivity|destruct j; discriminate Hm].
    apply Some_inj in Hm. subst m'. discriminate Hs. }
  assert (R0 : run_metrics (rstub lm) (ps_state ps) (pe_metrics (renv lm h)) = Ok [("offroad", PerObject row); ("kinematic_infeasibility", PerObject row)]) by reflexivity.
  assert (R3 : exists d3, penv_metrics (rstub lm) (renv lm h) ps = Ok d3) by (eexists; reflexivity).
  destruct R3 as [d3 R3].
  destruct (C82_planning_metrics lm (rstub lm) (renv lm h) ps _ d3 "offroad" row 1 m 5 R0 R3) as (x & Ex & Fx); auto.
  { right. right. left. reflexivity. }
  { intros m' Hm. destruct (FF m' Hm) as (r & Fr & _). exists r. exact Fr. }
  { rewrite Rabs_right by lra. simpl. lra. }
  destruct (C82_planning_kinematic lm (rstub lm) (renv lm h) ps _ d3 row 1 m 5 R0 R3) as (y & Ey & Fy); auto.
  { right. left. reflexivity. }
  cbn [pe_cfg renv c_init_steps ps_state ps rtwo s_t] in Ey, Fy.
  assert (Eb : (Z.of_nat h <=? 0)%Z = Nat.eqb h 0) by (apply eq_true_iff_eq; rewrite Z.leb_le, Nat.eqb_eq; lia).
  rewrite Eb in Ey, Fy. exists d3, x, y. split; [exact R3|]. split; [exact Ex|]. split; [exact Fx|]. split; [exact Ey | exact Fy].
Qed.

(** Values must be finite even outside the mask: an object that is not an agent and whose
    divergence is infinite gets the reward NaN, not 0. *)
Theorem C82_outside_mask_zero_refuted lm : exists (s : state (S := F32 lm)) r x,
  linear_reward (S := F32 lm) initial_registry [("log_divergence", f32_ofZ 1)] s [f32_ofZ 0] = Ok r /\
  nth_error r 0 = Some x /\ is_nan x = true.
Proof.
  exists (rscn lm (B754_infinity false)). eexists. eexists. split; [reflexivity|]. split; [reflexivity|]. vm_compute. reflexivity.
Qed.

(** Nor are the other objects irrelevant in the planning environment: one whose
    divergence is infinite turns the SDC's reward into NaN. *)
Theorem C82_planning_others_irrelevant_refuted lm : exists (ps : pstate (S := F32 lm) unit) x,
  the_sdc (s_meta (ps_state ps)) 1 /\ penv_reward initial_registry (rpenv lm) ps = Ok x /\ is_nan x = true.
Proof.
  exists (mkps (rtwo lm (B754_infinity false)) []). eexists. split; [|split; [reflexivity|]; vm_compute; reflexivity].
  split; [eexists; split; reflexivity|]. intros [|[|j]] m Hm Hs; [|reflexivity|destruct j; discriminate Hm].
  apply Some_inj in Hm. subst m. discriminate Hs.
Qed.

Print Assumptions C82_linear_reward.
Print Assumptions C82_whole_numbers.
Print Assumptions C82_environment.
Print Assumptions C82_planning_environment.
Print Assumptions C82_ex.
Print Assumptions C82_planning_ex.
Print Assumptions C82_outside_mask_zero_refuted.
Print Assumptions C82_planning_others_irrelevant_refuted.
Print Assumptions C82_planning_metrics.
Print Assumptions C82_planning_kinematic.
Print Assumptions C82_planning_metrics_ex.
Print Assumptions C82_planning_whole_numbers.
Print Assumptions C82_planning_bound_ex.
