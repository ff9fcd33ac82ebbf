(** Planning metrics, reward and expert action when objects are listed otherwise (C69). *)
From Coq Require Import String.
From Coq Require Import Reals ZArith List Bool Lia Lra.
From Verif.Lib Require Import Base JaxIndex Scalar XR.
From Verif.Model Require Import Operations State Dynamics BaseEnv Geometry Discretizer Dyn_State Dyn_Bicycle Comfort Metrics Expert
  Actor PlanningEnv.
From Verif.Spec Require Import StateSpec GeomSpec DynSpec MetricSpec ObsSpec RewardSpec MovedSpec MovedPlanSpec AgentSpec EmbedSpec EmbedReportSpec.
From Verif.Proofs Require Import Core P_Config P_Offroad P_Metrics P_Route P_Reward P_PlanMetrics P_Embed P_EmbedMore P_Moved P_MovedReport.
Import ListNotations.
Open Scope R_scope.

Definition dict := list (string * mval (S := XR)).

Section Report.
  Variables (ms ms' : list meta) (i i' : nat).
  Hypotheses (US : the_sdc ms i) (US' : the_sdc ms' i').

  (** Entries whose names are in [todo] say the same, the others are equal. *)
  Definition erel (todo : list string) (name : string) (v v' : mval (S := XR)) : Prop :=
    if in_dec string_dec name todo then same_sdc_entry ms i ms' i' v v' else v' = v.
  Definition upto (todo : list string) (d d' : dict) : Prop :=
    Forall2 (fun x x' => fst x' = fst x /\ erel todo (fst x) (snd x) (snd x')) d d' /\ NoDup (map fst d).

  Lemma upto_lookup todo d d' name : upto todo d d' ->
    match lookup name d, lookup name d' with Some v, Some v' => erel todo name v v' | None, None => True | _, _ => False end.
  Proof.
    intros [H _]. induction H as [|[n v] [n' v'] d d' [E R] H IH]; [exact I|]. cbn in E, R |- *. subst n'.
    destruct (String.eqb_spec name n) as [->|N]; [exact R|exact IH].
  Qed.

  Lemma keys_set (d : dict) name v : NoDup (map fst d) -> NoDup (map fst (dict_set name v d)).
  Proof.
    intros H. rewrite dict_set_keys. destruct (existsb _ _) eqn:E; [exact H|].
    assert (N : ~ In name (map fst d)).
    { intros Hin. enough (existsb (String.eqb name) (map fst d) = true) by congruence. apply existsb_exists. exists name. split; [exact Hin|apply String.eqb_refl]. }
    clear E. induction (map fst d) as [|a l IH]; cbn; [repeat constructor; auto|]. inversion H; subst. constructor.
    - intros Hin. apply in_app_iff in Hin as [Hin|[<-|[]]]; [contradiction|]. apply N. now left.
    - apply IH; auto. intros Hin. apply N. now right.
  Qed.

  Lemma upto_set todo d d' name v v' : upto todo d d' -> erel todo name v v' -> upto todo (dict_set name v d) (dict_set name v' d').
  Proof.
    intros [H ND] R. split; [|now apply keys_set]. clear ND.
    induction H as [|[n w] [n' w'] d d' [E Q] H IH]; [repeat constructor; auto|]. cbn in E, Q |- *. subst n'.
    destruct (String.eqb_spec name n) as [->|N]; constructor; cbn; auto.
  Qed.

  Lemma erel_less todo name n v v' : n <> name -> erel (name :: todo) n v v' -> erel todo n v v'.
  Proof.
    intros N. unfold erel. destruct (in_dec string_dec n (name :: todo)) as [I|I], (in_dec string_dec n todo) as [J|J]; auto.
    - destruct I as [I|I]; [congruence|contradiction].
    - destruct I. now right.
  Qed.

  Lemma upto_none todo d d' name : upto (name :: todo) d d' -> lookup name d = None -> upto todo d d'.
  Proof.
    intros [H ND] L. split; [|exact ND]. clear ND. induction H as [|[n w] [n' w'] d d' [E Q] H IH]; [constructor|].
    cbn in L, E, Q. destruct (String.eqb_spec name n) as [->|N]; [discriminate|]. constructor; [|auto].
    split; [exact E|]. cbn. eapply erel_less; eauto.
  Qed.

  Lemma upto_done todo d d' name w : upto (name :: todo) d d' -> ~ In name todo -> lookup name d <> None ->
    upto todo (dict_set name w d) (dict_set name w d').
  Proof.
    intros [H ND] NT L. split; [|now apply keys_set].
    induction H as [|[n v] [n' v'] d d' [E Q] H IH]; [now destruct L|]. cbn in L, E, Q, ND |- *. subst n'. inversion ND as [|? ? N1 N2]; subst.
    destruct (String.eqb_spec name n) as [->|N].
    - constructor; [split; [reflexivity|]; cbn; unfold erel; destruct (in_dec string_dec n todo); [contradiction|reflexivity]|].
      apply (upto_none todo d d' n); [split; assumption|]. now apply lookup_None.
    - constructor; [split; [reflexivity|]; cbn; eapply erel_less; eauto|]. apply IH; auto.
  Qed.

  Lemma sdc_entry_select v v' : same_sdc_entry ms i ms' i' v v' ->
    exists w, select_metric v (map m_is_sdc ms) = Ok w /\ select_metric v' (map m_is_sdc ms') = Ok w.
  Proof.
    intros (l & l' & m & -> & -> & L & L' & F & F' & E & E'). exists (Scalar0 m).
    now rewrite (select_metric_spec l ms i m), (select_metric_spec l' ms' i' m).
  Qed.

  Lemma upto_select todo name d d' : upto (name :: todo) d d' -> ~ In name todo ->
    alike (upto todo) (select_entry (map m_is_sdc ms) name d) (select_entry (map m_is_sdc ms') name d').
  Proof.
    intros H NT. unfold select_entry. pose proof (upto_lookup _ d d' name H) as Q.
    destruct (lookup name d) as [v|] eqn:E, (lookup name d') as [v'|]; try contradiction; [|cbn; now apply upto_none with name].
    unfold erel in Q. destruct (in_dec string_dec name (name :: todo)) as [I|I]; [|destruct I; now left].
    destruct (sdc_entry_select _ _ Q) as (w & -> & ->). cbn. apply upto_done; auto. now rewrite E.
  Qed.

  Lemma select_keys sel name (d d1 : dict) : select_entry sel name d = Ok d1 -> map fst d1 = map fst d.
  Proof.
    unfold select_entry. destruct (lookup name d) as [v|] eqn:E; intros H; [|apply Ok_inj in H; now subst].
    apply bind_Ok in H as (w & _ & H). apply Ok_inj in H. subst d1. rewrite dict_set_keys.
    destruct (existsb (String.eqb name) (map fst d)) eqn:X; [reflexivity|]. exfalso.
    assert (In name (map fst d)) as Hin by (apply lookup_In; eauto).
    enough (existsb (String.eqb name) (map fst d) = true) by congruence. apply existsb_exists. exists name. split; [exact Hin|apply String.eqb_refl].
  Qed.

  Lemma upto_nil d d' : upto [] d d' -> d' = d.
  Proof.
    intros [H _]. induction H as [|[n v] [n' v'] d d' [E Q] H IH]; [reflexivity|]. cbn in E, Q. subst n'. rewrite IH. now rewrite Q.
  Qed.

  Definition todo4 : list string := ["log_divergence"; "overlap"; "offroad"; "kinematic_infeasibility"]%string.

  Lemma tells_erel name v v' : tells_same ms i ms' i' name v v' -> erel todo4 name v v'.
  Proof.
    intros [A B]. unfold erel. destruct (in_dec string_dec name todo4) as [I|I].
    - apply A. unfold reported_for_sdc, todo4, per_object_names in *. cbn in *. tauto.
    - apply B. unfold reported_for_sdc, todo4, per_object_names in *. cbn in *. tauto.
  Qed.

  Lemma upto_run reg s s' names :
    (forall name m, In name names -> lookup name reg = Some m -> alike (tells_same ms i ms' i' name) (m s) (m s')) ->
    alike (upto todo4) (run_metrics reg s names) (run_metrics reg s' names).
  Proof.
    induction names as [|name names IH] using rev_ind; intros H; [split; constructor|].
    rewrite !run_metrics_snoc. unfold rstep.
    apply alike_bind with (R := upto todo4); [apply IH; intros nm mm Hn Hl; apply (H nm mm); auto; apply in_app_iff; auto|].
    intros d d' D. destruct (lookup name reg) as [m|] eqn:E; [|reflexivity].
    eapply alike_bind; [apply (H name m); auto; apply in_app_iff; right; now left|].
    intros v v' R. cbn. apply upto_set; auto. now apply tells_erel.
  Qed.

  Lemma sdc_entry_mask b v v' : same_sdc_entry ms i ms' i' v v' -> same_sdc_entry ms i ms' i' (mask_metric b v) (mask_metric b v').
  Proof.
    intros (l & l' & m & -> & -> & L & L' & F & F' & E & E'). cbn [mask_metric].
    assert (MF : forall l : list (mres (S := XR)), Forall (fun x => finite (mr_value x)) l ->
      Forall (fun x => finite (mr_value x)) (map (fun m => mkmres (S := XR) (fmul (mr_value m) (fbool b)) (mr_valid m && b)) l)).
    { intros k Fk. apply Forall_forall. intros x Hx. apply in_map_iff in Hx as (y & <- & Hy). apply finite_mask. rewrite Forall_forall in Fk. now apply Fk. }
    do 3 eexists. split; [reflexivity|]. split; [reflexivity|]. rewrite !map_length. split; [exact L|]. split; [exact L'|].
    split; [now apply MF|]. split; [now apply MF|]. rewrite !nth_error_map, E, E'. split; reflexivity.
  Qed.

  Lemma listed_metrics {P X K} reg (e e' : penv (S := XR) P X K) ps ps' :
    ms = s_meta (ps_state ps) -> ms' = s_meta (ps_state ps') -> s_t (ps_state ps') = s_t (ps_state ps) ->
    pe_metrics e' = pe_metrics e -> c_init_steps (pe_cfg e') = c_init_steps (pe_cfg e) ->
    (forall name m, In name (pe_metrics e) -> lookup name reg = Some m ->
       alike (tells_same ms i ms' i' name) (m (ps_state ps)) (m (ps_state ps'))) ->
    penv_metrics reg e' ps' = penv_metrics reg e ps.
  Proof.
    intros Em Em' Et Ee Ei H.
    enough (A : alike eq (penv_metrics reg e ps) (penv_metrics reg e' ps')).
    { destruct (penv_metrics reg e ps), (penv_metrics reg e' ps'); unfold alike in A; try contradiction; now rewrite A. }
    unfold penv_metrics. rewrite Et, Ee, Ei, <- Em, <- Em'.
    pose proof (upto_run reg (ps_state ps) (ps_state ps') (pe_metrics e) H) as A0.
    destruct (run_metrics reg (ps_state ps) (pe_metrics e)) as [d0|] eqn:E0, (run_metrics reg (ps_state ps') (pe_metrics e)) as [d0'|] eqn:E0';
      cbn in A0; try contradiction; [|exact A0]. cbn [bind].
    pose proof (upto_select ["overlap"; "offroad"; "kinematic_infeasibility"]%string "log_divergence" d0 d0' A0 ltac:(cbn; intuition discriminate)) as A1.
    destruct (select_entry (map m_is_sdc ms) "log_divergence" d0) as [d1|] eqn:E1, (select_entry (map m_is_sdc ms') "log_divergence" d0') as [d1'|] eqn:E1';
      cbn [alike] in A1; try contradiction; [|exact A1]. cbn [bind].
    pose proof (upto_select ["offroad"; "kinematic_infeasibility"]%string "overlap" d1 d1' A1 ltac:(cbn; intuition discriminate)) as A2.
    destruct (select_entry (map m_is_sdc ms) "overlap" d1) as [d2|] eqn:E2, (select_entry (map m_is_sdc ms') "overlap" d1') as [d2'|] eqn:E2';
      cbn [alike] in A2; try contradiction; [|exact A2]. cbn [bind].
    pose proof (upto_select ["kinematic_infeasibility"]%string "offroad" d2 d2' A2 ltac:(cbn; intuition discriminate)) as A3.
    destruct (select_entry (map m_is_sdc ms) "offroad" d2) as [d3|] eqn:E3, (select_entry (map m_is_sdc ms') "offroad" d2') as [d3'|] eqn:E3';
      cbn [alike] in A3; try contradiction; [|exact A3]. cbn [bind].
    pose proof (upto_lookup _ d3 d3' "kinematic_infeasibility" A3) as Q.
    destruct (existsb (String.eqb "kinematic_infeasibility") (pe_metrics e)) eqn:EX.
    - destruct (lookup _ d3) as [v|] eqn:EL, (lookup _ d3') as [v'|]; try contradiction; [|reflexivity].
      unfold erel in Q. destruct (in_dec _ _ _) as [I|I]; [|destruct I; now left].
      destruct (sdc_entry_select _ _ (sdc_entry_mask (Z.of_nat (c_init_steps (pe_cfg e)) - 1 <? s_t (ps_state ps))%Z _ _ Q)) as (w & -> & ->).
      cbn. symmetry. apply upto_nil. apply upto_done; auto. now rewrite EL.
    - cbn. symmetry. apply upto_nil. eapply upto_none; [exact A3|]. apply lookup_None.
      assert (K3 : incl (map fst d3) (pe_metrics e)).
      { rewrite (select_keys _ _ _ _ E3), (select_keys _ _ _ _ E2), (select_keys _ _ _ _ E1).
        rewrite (proj1 (run_metrics_Ok _ _ _ _ E0)). intros x Hx. now apply distinct_In. }
      intros Hin. apply K3 in Hin. enough (existsb (String.eqb "kinematic_infeasibility") (pe_metrics e) = true) by congruence.
      apply existsb_exists. exists "kinematic_infeasibility"%string. split; [exact Hin|apply String.eqb_refl].
  Qed.
  (** The number a result contributes. *)
  Definition toR (x : xr) : R := match x with Fin r => r | _ => 0 end.
  Definition count1 (m : mres (S := XR)) : R := if mr_valid m then toR (mr_value m) else 0.
  Definition count (v : mval (S := XR)) (j : nat) : R :=
    match v with PerObject l => match nth_error l j with Some m => count1 m | None => 0 end | Scalar0 m => count1 m end.
  Lemma count1_counts m : (mr_valid m = true -> finite (mr_value m)) -> counts m (count1 m).
  Proof.
    intros H. unfold counts, count1. destruct (mr_valid m); [|right; auto]. left. split; [reflexivity|].
    destruct (H eq_refl) as (r & ->). reflexivity.
  Qed.

  Lemma counted v v' : counted_same ms i ms' i' v v' ->
    shaped (length ms) v /\ shaped (length ms') v' /\
    (forall j, (j < length ms)%nat -> contributes v j (count v j)) /\ (forall j, (j < length ms')%nat -> contributes v' j (count v' j)) /\
    count v' i' = count v i.
  Proof.
    intros [(l & l' & m & -> & -> & L & L' & F & F' & E & E')|(m & -> & -> & F)].
    - assert (CT : forall (k : list (mres (S := XR))) j, (j < length k)%nat -> Forall (fun x => finite (mr_value x)) k -> contributes (PerObject k) j (count (PerObject k) j)).
      { intros k j Hj Fk. cbn. destruct (nth_error_lt_Some k j Hj) as [x Ex]. rewrite Ex. exists x. split; [reflexivity|]. apply count1_counts.
        intros _. rewrite Forall_forall in Fk. apply Fk. eapply nth_error_In; eauto. }
      split; [exact L|]. split; [exact L'|]. split; [intros; apply CT; auto; lia|]. split; [intros; apply CT; auto; lia|].
      cbn. now rewrite E, E'.
    - cbn. repeat split; auto; intros; now apply count1_counts.
  Qed.

  Lemma listed_reward {P X K} reg (e e' : penv (S := XR) P X K) ps ps' (wt : string -> R) names :
    ms = s_meta (ps_state ps) -> ms' = s_meta (ps_state ps') ->
    pe_compute_reward e' = pe_compute_reward e -> c_controlled (pe_cfg e) = SDC -> c_controlled (pe_cfg e') = SDC ->
    pe_rewards e = map (fun name => (name, Fin (wt name))) names -> pe_rewards e' = pe_rewards e ->
    (forall name, In name names -> exists m v v', lookup name reg = Some m /\ m (ps_state ps) = Ok v /\ m (ps_state ps') = Ok v' /\ counted_same ms i ms' i' v v') ->
    penv_reward reg e' ps' = penv_reward reg e ps.
  Proof.
    intros Em Em' Ec C C' Er Er' H. destruct (pe_compute_reward e) eqn:CR.
    2:{ now rewrite !penv_reward_off. }
    set (val := fun (s : state (S := XR)) name j =>
      match lookup name reg with Some m => match m s with Ok v => count v j | Err _ => 0 end | None => 0 end).
    rewrite (penv_reward_spec reg e ps i wt (val (ps_state ps)) names), (penv_reward_spec reg e' ps' i' wt (val (ps_state ps')) names); auto.
    - do 3 f_equal. apply map_ext_in. intros name Hn. f_equal. destruct (H name Hn) as (m & v & v' & L & E & E' & R).
      unfold val. rewrite L, E, E'. now apply counted.
    - congruence.
    - now rewrite <- Em'.
    - intros name Hn. destruct (H name Hn) as (m & v & v' & L & E & E' & R). destruct (counted _ _ R) as (_ & SH & _ & CT & _).
      exists m, v'. split; [exact L|]. split; [exact E'|]. rewrite <- Em'. split; [exact SH|]. intros j Hj. unfold val. rewrite L, E'. now apply CT.
    - now rewrite <- Em.
    - intros name Hn. destruct (H name Hn) as (m & v & v' & L & E & E' & R). destruct (counted _ _ R) as (SH & _ & CT & _).
      exists m, v. split; [exact L|]. split; [exact E|]. rewrite <- Em. split; [exact SH|]. intros j Hj. unfold val. rewrite L, E. now apply CT.
  Qed.
End Report.

(** The SDC of the other listing. *)
Lemma listed_sdc {S : Scalar} n n' T f s s' i : same_episode n n' T f s s' -> the_sdc (s_meta s) i -> the_sdc (s_meta s') (f i).
Proof.
  intros SE ((m & Em & Sm) & U). destruct (episode_wf _ _ _ _ _ _ SE) as [W W'].
  destruct SE as ((_ & _ & (P1 & P2) & _ & _ & MR & NS & _) & _).
  assert (Ln : length (s_meta s) = n) by apply W. assert (Ln' : length (s_meta s') = n') by apply W'.
  assert (Hi : (i < n)%nat) by (rewrite <- Ln; eapply nth_error_Some_lt; eauto).
  split; [exists m; split; [rewrite MR; auto|exact Sm]|].
  intros j x Ex Sx. destruct (existsb (fun k => f k =? j)%nat (seq 0 n)) eqn:B.
  - apply existsb_exists in B as (k & Hk & B). apply in_seq in Hk. apply Nat.eqb_eq in B. subst j.
    rewrite MR in Ex by lia. now rewrite (U k x Ex Sx).
  - exfalso. enough (m_is_sdc x = false) by congruence. apply (NS j); auto. split; [rewrite <- Ln'; eapply nth_error_Some_lt; eauto|].
    intros k Hk Ek. enough (existsb (fun k => f k =? j)%nat (seq 0 n) = true) by congruence. apply existsb_exists. exists k.
    split; [apply in_seq; lia|now apply Nat.eqb_eq].
Qed.

(** The shipped metrics. *)
Lemma listed_entry n n' T f s s' i (h : state (S := XR) -> res (list (mres (S := XR)))) ms ms' :
  same_episode (S := XR) n n' T f s s' -> the_sdc (s_meta s) i ->
  h s = Ok ms -> h s' = Ok ms' -> length ms = n -> length ms' = n' -> same_rows n f ms ms' ->
  Forall (fun x => finite (mr_value x)) ms -> Forall (fun x => finite (mr_value x)) ms' ->
  same_sdc_entry (s_meta s) i (s_meta s') (f i) (PerObject ms) (PerObject ms').
Proof.
  intros SE ((m & Em & _) & _) E E' L L' R F F'. destruct (episode_wf _ _ _ _ _ _ SE) as [W W'].
  assert (Ln : length (s_meta s) = n) by apply W. assert (Ln' : length (s_meta s') = n') by apply W'.
  assert (Hi : (i < n)%nat) by (rewrite <- Ln; eapply nth_error_Some_lt; eauto).
  destruct (nth_error_lt_Some ms i ltac:(lia)) as [x Ex].
  exists ms, ms', x. split; [reflexivity|]. split; [reflexivity|]. split; [congruence|]. split; [congruence|].
  split; [exact F|]. split; [exact F'|]. split; [exact Ex|]. now rewrite R.
Qed.

Lemma listed_shipped n n' T f s s' i name m : same_episode (S := XR) n n' T f s s' -> the_sdc (s_meta s) i ->
  lookup name initial_registry = Some m -> listing_comparable name s s' i (f i) ->
  alike (tells_same (s_meta s) i (s_meta s') (f i) name) (m s) (m s') /\
  (reported_for_sdc name -> exists v v', m s = Ok v /\ m s' = Ok v').
Proof.
  intros SE US L C. destruct (episode_wf _ _ _ _ _ _ SE) as [W W']. unfold listing_comparable in C.
  assert (ENT : forall h ms ms', h s = Ok ms -> h s' = Ok ms' ->
    m = (fun s => let* l := h s in Ok (PerObject (S := XR) l)) -> reported_for_sdc name ->
    (forall N x l, wf_state N T x -> h x = Ok l -> length l = N) -> same_rows n f ms ms' ->
    Forall (fun x => finite (mr_value x)) ms -> Forall (fun x => finite (mr_value x)) ms' ->
    alike (tells_same (s_meta s) i (s_meta s') (f i) name) (m s) (m s') /\
    (reported_for_sdc name -> exists v v', m s = Ok v /\ m s' = Ok v')).
  { intros h ms ms' E E' -> RP LN R F F'. cbv beta. rewrite E, E'. cbn [bind alike]. split; [|eauto].
    split; [intros _|intros N; contradiction]. apply (listed_entry n n' T f s s' i h); auto; eapply LN; eauto. }
  unfold initial_registry in L. cbn [lookup] in L.
  destruct (String.eqb_spec name "log_divergence") as [->|N1].
  { injection L as <-. destruct C as [C C']. destruct (log_divergence_total _ _ _ W) as (ms & E). destruct (log_divergence_total _ _ _ W') as (ms' & E').
    apply (ENT log_divergence_compute ms ms'); auto.
    - unfold reported_for_sdc, per_object_names. cbn. tauto.
    - intros N x l Wx H. apply (sizes N T x l Wx). auto.
    - eapply embed_log_divergence; eauto.
    - eapply finite_log_divergence; [|exact E]; assumption.
    - eapply finite_log_divergence; [|exact E']; assumption. }
  destruct (String.eqb_spec name "overlap") as [->|N2].
  { injection L as <-. destruct (overlap_total _ _ _ W) as (ms & E). destruct (overlap_total _ _ _ W') as (ms' & E').
    apply (ENT overlap_compute ms ms'); auto.
    - unfold reported_for_sdc, per_object_names. cbn. tauto.
    - intros N x l Wx H. apply (sizes N T x l Wx). auto.
    - eapply embed_overlap; eauto.
    - eapply finite_overlap; exact E.
    - eapply finite_overlap; exact E'. }
  destruct (String.eqb_spec name "offroad") as [->|N3].
  { injection L as <-. destruct C as (rg & Er & NE). assert (Er' : s_rg s' = Some rg) by (rewrite <- Er; apply SE).
    destruct (proj1 (offroad_total _ _ _ _ W Er) NE) as (ms & E & _). destruct (proj1 (offroad_total _ _ _ _ W' Er') NE) as (ms' & E' & _).
    apply (ENT offroad_compute ms ms'); auto.
    - unfold reported_for_sdc, per_object_names. cbn. tauto.
    - intros N x l Wx H. apply (sizes N T x l Wx). auto.
    - eapply embed_offroad; eauto.
    - eapply finite_offroad; exact E.
    - eapply finite_offroad; exact E'. }
  destruct (String.eqb_spec name "kinematic_infeasibility") as [->|N4].
  { injection L as <-.
    assert (HT : (2 <= T)%nat).
    { destruct W as (_ & (R1 & R2) & _ & Hn & _). destruct (s_log s) as [|r l]; [cbn in R1; lia|]. cbn in C. rewrite <- (R2 r (or_introl eq_refl)). exact C. }
    destruct (kim_total _ _ kim_default _ W HT) as (ms & E & _). destruct (kim_total _ _ kim_default _ W' HT) as (ms' & E' & _).
    apply (ENT (kim_compute kim_default) ms ms'); auto.
    - unfold reported_for_sdc, per_object_names. cbn. tauto.
    - intros N x l Wx H. apply (sizes N T x l Wx). eauto 6.
    - eapply embed_kim; eauto.
    - eapply finite_kim; exact E.
    - eapply finite_kim; exact E'. }
  assert (NR : ~ reported_for_sdc name).
  { unfold reported_for_sdc, per_object_names. cbn. intuition congruence. }
  split; [|intros RP; contradiction].
  destruct C as [((cur0 & E0 & R0) & (a & Ea & Ra) & b & Eb & Rb) ((cur1 & E1 & R1) & (a' & Ea' & Ra') & b' & Eb' & Rb')].
  destruct (embed_route _ _ _ _ _ _ _ _ _ SE E0 E1 R0 R1) as (WW & OR & PG). specialize (PG _ _ _ _ Ea Ea' Eb Eb' Ra Ra' Rb Rb').
  assert (SC : forall h : state (S := XR) -> res (mres (S := XR)), h s' = h s ->
     alike (tells_same (s_meta s) i (s_meta s') (f i) name) (let* v := h s in Ok (Scalar0 (S := XR) v)) (let* v := h s' in Ok (Scalar0 v))).
  { intros h ->. destruct (h s); cbn; [|reflexivity]. split; [intros; contradiction|reflexivity]. }
  destruct (String.eqb name "sdc_wrongway"); [injection L as <-; now apply SC|].
  destruct (String.eqb name "sdc_progression"); [injection L as <-; now apply SC|].
  destruct (String.eqb name "sdc_off_route"); [injection L as <-; now apply SC|]. discriminate.
Qed.

(** The planner's expert action. *)
Lemma listed_expert n n' T f d (s s' : state (S := XR)) i acts acts' w : same_episode n n' T f s s' -> the_sdc (s_meta s) i ->
  infer_expert_action d s = Ok acts -> infer_expert_action d s' = Ok acts' -> same_rows n f acts acts' ->
  length acts = n -> length acts' = n' ->
  Forall (fun b => length (a_data b) = w /\ Forall finite (a_data b)) acts -> Forall (fun b => length (a_data b) = w /\ Forall finite (a_data b)) acts' ->
  exists a, nth_error acts i = Some a /\ planning_expert d s = Ok a /\ planning_expert d s' = Ok a.
Proof.
  intros SE US E E' R L L' F F'. destruct (episode_wf _ _ _ _ _ _ SE) as [W W'].
  assert (Ln : length (s_meta s) = n) by apply W. assert (Ln' : length (s_meta s') = n') by apply W'.
  pose proof US as ((m & Em & _) & _). assert (Hi : (i < n)%nat) by (rewrite <- Ln; eapply nth_error_Some_lt; eauto).
  destruct (nth_error_lt_Some acts i ltac:(lia)) as [a Ea]. exists a. split; [exact Ea|].
  assert (La : length (a_data a) = w) by (rewrite Forall_forall in F; apply F; eapply nth_error_In; eauto).
  split.
  - eapply planning_expert_spec; eauto; [congruence|]. now rewrite La.
  - eapply planning_expert_spec with (k := f i); eauto; [congruence|eapply listed_sdc; eauto|now rewrite R|now rewrite La].
Qed.
