(** Metrics and rewards of planning episodes in another coordinate frame (C73). *)
From Coq Require Import String.
From Coq Require Import Reals ZArith List Bool Lia Lra.
From Verif.Lib Require Import Base JaxIndex Scalar XR.
From Verif.Model Require Import Operations State Dynamics BaseEnv Geometry Discretizer Dyn_State Dyn_Bicycle Comfort Metrics
  Actor PlanningEnv.
From Verif.Spec Require Import StateSpec GeomSpec DynSpec MetricSpec ObsSpec MovedSpec MovedPlanSpec AgentSpec.
From Verif.Proofs Require Import Core P_Metrics P_Route P_Reward P_PlanMetrics P_EmbedMore P_Moved P_MovedMetrics P_MovedPlan.
Import ListNotations.
Open Scope R_scope.

Section Report.
  Variables (ms : list meta) (i : nat).
  Hypothesis US : the_sdc ms i.

  Lemma same_report_lookup d d' name : same_report ms i d d' ->
    match lookup name d, lookup name d' with
    | Some v, Some v' => same_for_sdc ms i v v' | None, None => True | _, _ => False end.
  Proof.
    induction 1 as [|[n v] [n' v'] d d' [E R] H IH]; [exact I|]. cbn in E, R |- *. subst n'.
    destruct (String.eqb name n); auto.
  Qed.

  Lemma same_report_set d d' name v v' : same_report ms i d d' -> same_for_sdc ms i v v' ->
    same_report ms i (dict_set name v d) (dict_set name v' d').
  Proof.
    intros H R. induction H as [|[n w] [n' w'] d d' [E Q] H IH]; [repeat constructor; auto|]. cbn in E, Q |- *. subst n'.
    destruct (String.eqb name n); constructor; cbn; auto.
  Qed.

  Lemma report_run reg s s' names :
    (forall name m, In name names -> lookup name reg = Some m -> alike (same_for_sdc ms i) (m s) (m s')) ->
    alike (same_report ms i) (run_metrics reg s names) (run_metrics reg s' names).
  Proof.
    induction names as [|name names IH] using rev_ind; intros H; [constructor|].
    rewrite !run_metrics_snoc. unfold rstep.
    apply alike_bind with (R := same_report ms i); [apply IH; intros; apply H with name0; auto; apply in_app_iff; auto|].
    intros d d' D. destruct (lookup name reg) as [m|] eqn:E; [|reflexivity].
    eapply alike_bind; [apply (H name m); auto; apply in_app_iff; right; now left|].
    intros v v' R. now apply same_report_set.
  Qed.

  Lemma report_select v v' : same_for_sdc ms i v v' ->
    alike (same_for_sdc ms i) (select_metric v (map m_is_sdc ms)) (select_metric v' (map m_is_sdc ms)).
  Proof.
    destruct v as [l|m], v' as [l'|m']; cbn [same_for_sdc]; intros R; try contradiction; [|reflexivity].
    destruct R as (L & L' & F & F' & m & m' & E & E' & R).
    rewrite (select_metric_spec l ms i m), (select_metric_spec l' ms i m'); auto.
  Qed.

  Lemma report_entry d d' name : same_report ms i d d' ->
    alike (same_report ms i) (select_entry (map m_is_sdc ms) name d) (select_entry (map m_is_sdc ms) name d').
  Proof.
    intros H. unfold select_entry. pose proof (same_report_lookup d d' name H) as Q.
    destruct (lookup name d) as [v|], (lookup name d') as [v'|]; try contradiction; [|exact H].
    eapply alike_bind; [apply report_select, Q|]. intros w w' W. now apply same_report_set.
  Qed.

  Lemma same_result_mask b m m' : same_result m m' ->
    same_result (mkmres (S := XR) (fmul (mr_value m) (fbool b)) (mr_valid m && b)) (mkmres (S := XR) (fmul (mr_value m') (fbool b)) (mr_valid m' && b)).
  Proof.
    intros (V & E). split; cbn [mr_valid mr_value]; [now rewrite V|]. intros H. apply andb_true_iff in H as [H _]. now rewrite (E H).
  Qed.
  Lemma finite_mask b (m : mres (S := XR)) : (exists r, mr_value m = Fin r) ->
    exists r, mr_value (mkmres (S := XR) (fmul (mr_value m) (fbool b)) (mr_valid m && b)) = Fin r.
  Proof. intros (r & E). cbn [mr_value]. rewrite E. destruct b; cbn [fbool]; xr; eauto. Qed.

  Lemma report_mask b v v' : same_for_sdc ms i v v' -> same_for_sdc ms i (mask_metric b v) (mask_metric b v').
  Proof.
    destruct v as [l|m], v' as [l'|m']; cbn [same_for_sdc mask_metric]; intros R; try contradiction; [|now apply same_result_mask].
    destruct R as (L & L' & F & F' & m & m' & E & E' & R). rewrite !map_length. split; [exact L|]. split; [exact L'|].
    split; [apply Forall_forall; intros x Hx; apply in_map_iff in Hx as (y & <- & Hy); apply finite_mask; rewrite Forall_forall in F; now apply F|].
    split; [apply Forall_forall; intros x Hx; apply in_map_iff in Hx as (y & <- & Hy); apply finite_mask; rewrite Forall_forall in F'; now apply F'|].
    do 2 eexists. split; [rewrite nth_error_map, E; reflexivity|]. split; [rewrite nth_error_map, E'; reflexivity|]. now apply same_result_mask.
  Qed.

  Lemma moved_metrics {P X K} g reg (e : penv (S := XR) P X K) ps ps' : moved_pstate g ps ps' -> ms = s_meta (ps_state ps) ->
    (forall name m, In name (pe_metrics e) -> lookup name reg = Some m -> alike (same_for_sdc ms i) (m (ps_state ps)) (m (ps_state ps'))) ->
    alike (same_report ms i) (penv_metrics reg e ps) (penv_metrics reg e ps').
  Proof.
    intros ((_ & _ & _ & Hm & Ht & _) & _) Ems H. unfold penv_metrics. rewrite Hm, Ht, <- Ems.
    eapply alike_bind; [apply report_run, H|]. intros d0 d0' D0.
    eapply alike_bind; [apply report_entry, D0|]. intros d1 d1' D1.
    eapply alike_bind; [apply report_entry, D1|]. intros d2 d2' D2.
    eapply alike_bind; [apply report_entry, D2|]. intros d3 d3' D3.
    destruct (existsb _ _); [|exact D3].
    pose proof (same_report_lookup d3 d3' "kinematic_infeasibility" D3) as Q.
    destruct (lookup _ d3) as [v|], (lookup _ d3') as [v'|]; try contradiction; [|reflexivity].
    eapply alike_bind; [apply report_select, report_mask, Q|]. intros w w' W. now apply same_report_set.
  Qed.

  (** Rewards. *)
  Lemma masked_same (m m' : mres (S := XR)) : same_result m m' -> masked_value m' = masked_value m.
  Proof. intros (V & E). unfold masked_value. rewrite V. destruct (mr_valid m) eqn:H; auto. Qed.

  Lemma masked_finite (m : mres (S := XR)) : (exists r, mr_value m = Fin r) -> exists r, masked_value m = Fin r.
  Proof. intros (r & E). unfold masked_value. destruct (mr_valid m); [rewrite E; eauto|]. exists 0. apply f0_Fin. Qed.

  Lemma reward_term v v' : same_for_sdc ms i v v' ->
    alike eq (metric_times_mask v (map (fun m => fbool (m_is_sdc m)) ms)) (metric_times_mask v' (map (fun m => fbool (m_is_sdc m)) ms)).
  Proof.
    destruct v as [l|m], v' as [l'|m']; cbn [same_for_sdc metric_times_mask]; intros R; try contradiction;
      [|rewrite (masked_same m m' R); apply alike_eq].
    destruct R as (L & L' & F & F' & m & m' & E & E' & R). unfold bcast2. rewrite map_length, L, L', Nat.eqb_refl. cbn [alike].
    apply nth_error_ext_eq. intros j. rewrite !nth_error_map2, nth_error_map.
    destruct (nth_error ms j) as [mt|] eqn:Em.
    2:{ apply nth_error_None in Em. rewrite !(proj2 (nth_error_None _ j)) by lia. reflexivity. }
    pose proof (nth_error_Some_lt _ _ _ Em) as Hj.
    destruct (nth_error_lt_Some l j ltac:(lia)) as [a Ea]. destruct (nth_error_lt_Some l' j ltac:(lia)) as [a' Ea'].
    rewrite Ea, Ea'. cbn [option_map]. f_equal. destruct (m_is_sdc mt) eqn:Es.
    - destruct US as (_ & U). pose proof (U j mt Em Es) as ->. assert (a = m) as -> by congruence. assert (a' = m') as -> by congruence.
      f_equal. symmetry. now apply masked_same.
    - rewrite Forall_forall in F, F'.
      destruct (masked_finite a (F _ (nth_error_In _ _ Ea))) as (r & ->). destruct (masked_finite a' (F' _ (nth_error_In _ _ Ea'))) as (r' & ->).
      cbn [fbool]. xr. f_equal. ring.
  Qed.

  Lemma moved_reward {P X K} g reg (e : penv (S := XR) P X K) ps ps' : moved_pstate g ps ps' -> ms = s_meta (ps_state ps) ->
    c_controlled (pe_cfg e) = SDC ->
    (forall name m, In name (map fst (pe_rewards e)) -> lookup name reg = Some m -> alike (same_for_sdc ms i) (m (ps_state ps)) (m (ps_state ps'))) ->
    alike eq (penv_reward reg e ps) (penv_reward reg e ps').
  Proof.
    intros ((_ & _ & _ & Hm & Ht & _) & _) Ems HC H. unfold penv_reward. rewrite Hm, <- Ems, HC.
    destruct (pe_compute_reward e); [|apply alike_eq]. cbn [get_control_mask bind]. rewrite map_map.
    eapply alike_bind with (R := eq); [|intros ? ? ->; apply alike_eq]. unfold linear_reward.
    eapply alike_bind; [apply report_run, H|]. intros d d' D.
    generalize (@Ok (list (F (Scalar := XR))) (map (fun _ => f0) (map (fun x => fbool (m_is_sdc x)) ms))). intros r0.
    assert (G : alike eq r0 r0) by apply alike_eq. revert G. generalize r0 at 2 4. revert r0.
    induction (pe_rewards e) as [|[name w] rs IH]; intros r0 r1 G; [exact G|]. cbn [fold_left fst snd]. apply IH.
    { intros. eapply H; eauto. now right. }
    eapply alike_bind; [exact G|]. intros x y <-. pose proof (same_report_lookup d d' name D) as Q.
    destruct (lookup name d) as [v|], (lookup name d') as [v'|]; try contradiction; [|reflexivity].
    eapply alike_bind; [apply reward_term, Q|]. intros t t' <-. apply alike_eq.
  Qed.
End Report.

(* ---------------- the shipped metrics ---------------- *)

Section Shipped.
  Variable g : motion.

  Lemma per_object_report n T s s' i c cur f : moved_state g s s' -> wf_state n T s -> current_sim s = Ok cur ->
    nth_error cur i = Some c -> p_valid c = true ->
    (forall x, wf_state n T x -> forall l, f x = Ok l -> length l = n) ->
    (forall l, f s = Ok l -> Forall (fun m => exists r, mr_value m = Fin r) l) ->
    (forall l, f s' = Ok l -> Forall (fun m => exists r, mr_value m = Fin r) l) ->
    alike (fun l l' => forall m m', nth_error l i = Some m -> nth_error l' i = Some m' -> same_result m m') (f s) (f s') ->
    alike (same_for_sdc (s_meta s) i) (let* l := f s in Ok (PerObject (S := XR) l)) (let* l := f s' in Ok (PerObject l)).
  Proof.
    intros MS W Ec Ei V LN F F' A.
    assert (W' : wf_state n T s').
    { destruct MS as (Hs & Hl & _ & Hm & _). destruct W as ((W1 & W2) & (W3 & W4) & W5 & W6 & W7).
      assert (RR : forall a a', moved_traj g a a' -> (forall r, In r a -> length r = T) -> forall r, In r a' -> length r = T).
      { intros a a' M Q r Hr. unfold moved_traj in M. induction M as [|r0 r1 a a' R0 M IH]; [contradiction|]. destruct Hr as [<-|Hr].
        - rewrite <- (Forall2_len _ _ _ R0). apply Q. now left.
        - apply IH; auto. intros. apply Q. now right. }
      split; [split; [rewrite <- (Forall2_len _ _ _ Hs); exact W1|eapply RR; eauto]|].
      split; [split; [rewrite <- (Forall2_len _ _ _ Hl); exact W3|eapply RR; eauto]|].
      rewrite Hm. auto. }
    destruct (f s) as [l|] eqn:E, (f s') as [l'|] eqn:E'; cbn in A |- *; try contradiction; auto.
    assert (Lm : length (s_meta s) = n) by apply W.
    pose proof (LN s W l E) as L. pose proof (LN s' W' l' E') as L'. split; [congruence|]. split; [congruence|].
    split; [now apply F|]. split; [now apply F'|].
    assert (Hi : (i < n)%nat).
    { destruct W as (R1 & _ & _ & _ & HT). destruct (dynamic_index_Ok _ _ _ _ _ R1 Ec) as [Lc _].
      apply nth_error_Some_lt in Ei. lia. }
    destruct (nth_error_lt_Some l i ltac:(lia)) as [m Em]. destruct (nth_error_lt_Some l' i ltac:(lia)) as [m' Em'].
    exists m, m'. auto.
  Qed.
  Lemma finite_fbool b : exists r, fbool (S := XR) b = Fin r.
  Proof. destruct b; cbn [fbool]; xr; eauto. Qed.

  Lemma finite_overlap s l : overlap_compute (S := XR) s = Ok l -> Forall (fun m => exists r, mr_value m = Fin r) l.
  Proof.
    intros H. apply bind_Ok in H as (cur & _ & H). apply Ok_inj in H. subst l. apply Forall_forall. intros x Hx.
    apply In_nth_error in Hx as (j & Hj). unfold compute_overlap in Hj. rewrite nth_error_mapi in Hj.
    destruct (nth_error cur j); [|discriminate]. injection Hj as <-. apply finite_fbool.
  Qed.

  Lemma finite_offroad s l : offroad_compute (S := XR) s = Ok l -> Forall (fun m => exists r, mr_value m = Fin r) l.
  Proof.
    intros H. apply bind_Ok in H as (cur & _ & H). destruct (s_rg s) as [rg|]; [|discriminate]. apply Forall_forall. intros x Hx.
    apply In_nth_error in Hx as (j & Hj). destruct (nth_error_lt_Some cur j ltac:(rewrite <- (mapM_length _ _ _ H); eapply nth_error_Some_lt; eauto)) as [p Ep].
    destruct (mapM_nth _ _ _ _ _ H Ep) as (y & E & Ey). assert (y = x) as -> by congruence. apply bind_Ok in E as (b & _ & E). apply Ok_inj in E. subst x. apply finite_fbool.
  Qed.

  Lemma finite_kim k s l : kim_compute (S := XR) k s = Ok l -> Forall (fun m => exists r, mr_value m = Fin r) l.
  Proof.
    intros H. apply bind_Ok in H as (acts & _ & H). apply Ok_inj in H. subst l. apply Forall_forall. intros x Hx.
    apply in_map_iff in Hx as (a & <- & _). unfold kim1. destruct (a_data a) as [|u [|v r]]; cbn [mr_value].
    - exists 0. apply f0_Fin.
    - exists 0. apply f0_Fin.
    - destruct (_ || _); cbn [fbool]; xr; eauto.
  Qed.

  Lemma finite_log_divergence s l : finite_now s -> log_divergence_compute (S := XR) s = Ok l -> Forall (fun m => exists r, mr_value m = Fin r) l.
  Proof.
    intros (FC & FL) H. apply bind_Ok in H as (cur & Ec & H). apply bind_Ok in H as (lg & El & H). apply Ok_inj in H. subst l.
    apply Forall_forall. intros x Hx. apply In_nth_error in Hx as (j & Hj). rewrite nth_error_map2 in Hj.
    destruct (nth_error cur j) as [p|] eqn:Ep; [|discriminate]. destruct (nth_error lg j) as [q|] eqn:Eq; [|discriminate]. injection Hj as <-.
    destruct (FC cur p Ec (nth_error_In _ _ Ep)) as (c & X & Y). destruct (FL lg q El (nth_error_In _ _ Eq)) as (d & X' & Y').
    unfold mr_value, log_divergence. rewrite X, Y, X', Y'. rewrite !fsub_Fin. eexists. apply norm2_Fin.
  Qed.

  Lemma shipped_report n T s s' i c cur name m : moved_state g s s' -> wf_state n T s -> current_sim s = Ok cur ->
    nth_error cur i = Some c -> p_valid c = true -> lookup name initial_registry = Some m -> comparable name s s' i ->
    alike (same_for_sdc (s_meta s) i) (m s) (m s').
  Proof.
    intros MS W Ec Ei V L C. unfold initial_registry in L. cbn [lookup] in L. unfold comparable in C.
    assert (SR : forall l l' : list (mres (S := XR)), Forall2 same_result l l' -> forall a a', nth_error l i = Some a -> nth_error l' i = Some a' -> same_result a a').
    { intros l l' H a a' E E'. destruct (Forall2_nth1 _ _ _ _ _ H E) as (b & Eb & R). congruence. }
    destruct (String.eqb name "log_divergence") eqn:N1.
    { injection L as <-. destruct C as [C C'].
      apply per_object_report with (n := n) (T := T) (c := c) (cur := cur) (f := log_divergence_compute); auto.
      - intros x Wx l H. apply (sizes n T x l Wx); auto.
      - intros l H. eapply finite_log_divergence; [|exact H]; assumption.
      - intros l H. eapply finite_log_divergence; [|exact H]; assumption.
      - eapply alike_mono; [apply moved_log_divergence with (g := g), MS|]. exact SR. }
    destruct (String.eqb name "overlap") eqn:N2.
    { injection L as <-.
      apply per_object_report with (n := n) (T := T) (c := c) (cur := cur) (f := overlap_compute); auto.
      - intros x Wx l H. apply (sizes n T x l Wx); auto.
      - intros l H. eapply finite_overlap; eauto.
      - intros l H. eapply finite_overlap; eauto.
      - eapply alike_mono; [apply moved_overlap with (g := g), MS|]. exact SR. }
    destruct (String.eqb name "offroad") eqn:N3.
    { injection L as <-. destruct C as (rg & Er & CL).
      apply per_object_report with (n := n) (T := T) (c := c) (cur := cur) (f := offroad_compute); auto.
      - intros x Wx l H. apply (sizes n T x l Wx); auto.
      - intros l H. eapply finite_offroad; eauto.
      - intros l H. eapply finite_offroad; eauto.
      - eapply alike_mono; [apply moved_offroad with (g := g) (rg := rg); eauto|].
        intros l l' (_ & Q) a a' E E'. rewrite (Q cur i c Ec Ei V), E in E'. injection E' as <-. now split. }
    destruct (String.eqb name "kinematic_infeasibility") eqn:N4.
    { injection L as <-.
      apply per_object_report with (n := n) (T := T) (c := c) (cur := cur) (f := kim_compute kim_default); auto.
      - intros x Wx l H. apply (sizes n T x l Wx). eauto 6.
      - intros l H. eapply finite_kim; eauto.
      - intros l H. eapply finite_kim; eauto.
      - unfold kim_default. change (@flit XR 1 10) with (@flit XR 1 10). rewrite (flit_Fin 1 10).
        eapply alike_mono; [apply moved_kim with (g := g); [lra|exact MS]|]. intros l l' <- a a' E E'. rewrite E in E'. injection E' as <-. now split. }
    destruct C as [((cur0 & E0 & R0) & (a & Ea & Ra) & b & Eb & Rb) ((cur1 & E1 & R1) & (a' & Ea' & Ra') & b' & Eb' & Rb')].
    assert (Hm : s_meta s' = s_meta s) by apply MS. rewrite Hm in *.
    assert (SC : forall x x' : res (mres (S := XR)), alike eq x x' ->
      alike (same_for_sdc (s_meta s) i) (let* v := x in Ok (Scalar0 (S := XR) v)) (let* v := x' in Ok (Scalar0 v))).
    { intros x x' A. eapply alike_bind; [exact A|]. intros v v' <-. cbn. now split. }
    destruct (String.eqb name "sdc_wrongway"); [injection L as <-; apply SC; eapply moved_wrongway; eauto|].
    destruct (String.eqb name "sdc_progression"); [injection L as <-; apply SC; eapply moved_progression; eauto|].
    destruct (String.eqb name "sdc_off_route"); [injection L as <-; apply SC; eapply moved_off_route; eauto|]. discriminate.
  Qed.
End Shipped.
