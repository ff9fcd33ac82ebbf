(** Invariants of whole episodes. *)
From Coq Require Import List ZArith Lia Bool.
From Verif.Lib Require Import Base JaxIndex Scalar.
From Verif.Model Require Import Operations State Dynamics BaseEnv.
From Verif.Spec Require Import StateSpec.
From Verif.Proofs Require Import Core.
Import ListNotations.

Section Episode.
  Context {S : Scalar}.

  Lemma run_episode_snoc d c s acts a s' :
    run_episode d c s (acts ++ [a]) = Ok s' <->
    exists s1, run_episode d c s acts = Ok s1 /\ env_step d c s1 a = Ok s'.
  Proof.
    unfold run_episode. destruct (env_reset c s) as [s0|e]; simpl.
    - rewrite env_steps_app. destruct (env_steps d c s0 acts) as [s1|e]; simpl.
      + split.
        * intros H. apply bind_Ok in H as (s2 & H1 & H2). inversion H2; subst. eauto.
        * intros (s2 & H1 & H2). inversion H1; subst. rewrite H2. reflexivity.
      + split; [discriminate | intros (s2 & H & _); discriminate].
    - split; [discriminate | intros (s2 & H & _); discriminate].
  Qed.

  Lemma run_episode_nil d c s s' :
    run_episode d c s [] = Ok s' <-> env_reset c s = Ok s'.
  Proof.
    unfold run_episode. destruct (env_reset c s); simpl; split; congruence.
  Qed.

  Lemma same_scenario_refl s : same_scenario s s.
  Proof. unfold same_scenario; auto 10. Qed.

  Lemma same_scenario_trans s1 s2 s3 :
    same_scenario s1 s2 -> same_scenario s2 s3 -> same_scenario s1 s3.
  Proof. unfold same_scenario. intuition congruence. Qed.

  (** Clock and frame condition of a step that starts before the end. *)
  Lemma env_step_frame n T d c s a s' (t : nat) :
    wf_state n T s -> env_step d c s a = Ok s' ->
    s_t s = (Z.of_nat t - 1)%Z -> t < T ->
    same_scenario s s' /\ s_t s' = Z.of_nat t /\ wf_state n T s' /\
    (forall i k, i < n -> k <> t -> at2 (s_sim s') i k = at2 (s_sim s) i k).
  Proof.
    intros W H Et Ht. pose proof (env_step_wf _ _ _ _ _ _ _ W H) as W'.
    destruct (env_step_Ok _ _ _ _ _ _ _ W H)
      as (mask & cur & us & nxt & _ & _ & _ & _ & _ & _ & _ & _ & _ & R & Hs & SC & Et').
    repeat split; try apply SC; auto; try lia; try apply W'.
    intros i k Hi Hk. rewrite Hs by auto.
    replace (s_t s + 1)%Z with (Z.of_nat t) by lia.
    rewrite norm_start_of_nat by lia.
    destruct (Nat.eqb_spec k t); [contradiction | reflexivity].
  Qed.

  Lemma episode_basic n T d c s acts s' :
    wf_scenario n T s -> run_episode d c s acts = Ok s' ->
    c_init_steps c + length acts <= T ->
    wf_state n T s' /\ same_scenario s s' /\
    c_max_num_objects c = n /\
    s_t s' = (Z.of_nat (c_init_steps c + length acts) - 1)%Z /\
    (forall i t, i < n -> t < c_init_steps c -> at2 (s_sim s') i t = at2 (s_log s) i t) /\
    (forall i t, i < n -> c_init_steps c + length acts <= t -> t < T ->
       at2 (s_sim s') i t = Some invalid_pt).
  Proof.
    intros (R & Lm & Hn & HT). revert s'.
    induction acts as [|a acts IH] using rev_ind; intros s' H Hl.
    - apply run_episode_nil in H.
      pose proof (env_reset_wf _ _ _ _ _ R Lm Hn HT H) as W.
      destruct (env_reset_Ok _ _ _ _ _ R Hn H) as (E0 & Hi & R' & SC & Et & Hf).
      simpl length in *. rewrite Nat.add_0_r in *.
      repeat split; try apply W; try apply SC; auto.
      + intros i t Hi' Ht. rewrite Hf by lia.
        destruct (Nat.ltb_spec t (c_init_steps c)); auto; lia.
      + intros i t Hi' Ht Ht'. rewrite Hf by lia.
        destruct (Nat.ltb_spec t (c_init_steps c)); auto; lia.
    - apply run_episode_snoc in H as (s1 & H1 & H2).
      rewrite app_length in *; simpl length in *.
      destruct (IH s1 H1) as (W & SC & E0 & Et & F1 & F2); [lia|].
      destruct (env_step_frame n T d c s1 a s' (c_init_steps c + length acts) W H2)
        as (SC' & Et' & W' & Hf); [lia | lia |].
      repeat split; try apply W'; auto; try lia.
      1-5: apply (same_scenario_trans _ _ _ SC SC').
      + intros i t Hi Ht. rewrite Hf by lia. auto.
      + intros i t Hi Ht Ht'. rewrite Hf by lia. apply F2; lia.
  Qed.

  (** Frames that exist after a prefix of the actions are kept by the rest. *)
  Lemma episode_prefix n T d c s l1 l2 s1 s' :
    wf_scenario n T s ->
    run_episode d c s l1 = Ok s1 -> run_episode d c s (l1 ++ l2) = Ok s' ->
    c_init_steps c + length (l1 ++ l2) <= T ->
    forall i t, i < n -> t < c_init_steps c + length l1 ->
      at2 (s_sim s') i t = at2 (s_sim s1) i t.
  Proof.
    intros W H1. revert s'. induction l2 as [|a l2 IH] using rev_ind; intros s' H Hl i t Hi Ht.
    - rewrite app_nil_r in H. congruence.
    - rewrite app_assoc in H. apply run_episode_snoc in H as (s2 & H2 & H3).
      rewrite !app_length in Hl; simpl in Hl.
      assert (L : c_init_steps c + length (l1 ++ l2) <= T) by (rewrite app_length; lia).
      destruct (episode_basic _ _ _ _ _ _ _ W H2 L) as (W2 & _ & _ & Et & _).
      rewrite app_length in Et.
      destruct (env_step_frame n T d c s2 a s' (c_init_steps c + length l1 + length l2) W2 H3)
        as (_ & _ & _ & Hf); [lia | lia |].
      rewrite Hf by lia. apply IH; auto.
  Qed.

  (** The control mask only depends on the scenario. *)
  Lemma episode_mask n T d c s acts s' mask :
    wf_scenario n T s -> run_episode d c s acts = Ok s' ->
    1 <= c_init_steps c -> c_init_steps c + length acts <= T ->
    env_control_mask s' c = Ok mask ->
    forall i b, nth_error mask i = Some b -> (b = true <-> in_control c s i).
  Proof.
    intros W H Hi Hl Hm i b Hb.
    destruct (episode_basic _ _ _ _ _ _ _ W H Hl) as (W' & (_ & _ & SM & _) & _ & _ & F & _).
    pose proof (control_mask_length _ _ _ _ _ W' Hm) as Lmask.
    assert (Hin : i < n) by (rewrite <- Lmask; eapply nth_error_Some_lt; eauto).
    unfold env_control_mask in Hm. rewrite SM in Hm. unfold in_control.
    assert (G : forall f, nth_error (map f (s_meta s)) i = Some b ->
              (b = true <-> exists m : meta, nth_error (s_meta s) i = Some m /\ f m = true)).
    { intros f Hf. rewrite nth_error_map in Hf.
      destruct (nth_error (s_meta s) i) as [m|] eqn:E; [|discriminate].
      simpl in Hf. inversion Hf; subst. split; [eauto|].
      intros (m' & Em & Ef). congruence. }
    destruct (c_controlled c); simpl in Hm.
    - inversion Hm; subst. apply G; auto.
    - inversion Hm; subst. apply G; auto.
    - destruct (c_allow_new_objects c); simpl in Hm.
      + inversion Hm; subst. apply G; auto.
      + destruct W' as (R1 & R2 & _ & _ & HT).
        apply (dynamic_index_Ok n T) in Hm as [_ Hm]; [|apply rect_map; auto].
        rewrite Hm in Hb by auto.
        replace (Z.of_nat (c_init_steps c) - 1)%Z
          with (Z.of_nat (c_init_steps c - 1)) in Hb by lia.
        rewrite norm_start_of_nat in Hb by lia.
        rewrite at2_map, F in Hb by lia.
        destruct (at2 (s_log s) i (c_init_steps c - 1)) as [p|] eqn:E; [|discriminate].
        simpl in Hb. inversion Hb; subst. split; [eauto|].
        intros (p' & Ep & Hp). congruence.
    - discriminate.
  Qed.

  Lemma episode_mask_Some n T d c s acts s' mask i :
    wf_scenario n T s -> run_episode d c s acts = Ok s' ->
    c_init_steps c + length acts <= T ->
    env_control_mask s' c = Ok mask -> i < n -> exists b, nth_error mask i = Some b.
  Proof.
    intros W H Hl Hm Hi.
    destruct (episode_basic _ _ _ _ _ _ _ W H Hl) as (W' & _).
    apply nth_error_lt_Some. rewrite (control_mask_length _ _ _ _ _ W' Hm). auto.
  Qed.

  (** Every simulated frame is [next_pt] of its predecessor and the log. *)
  Lemma episode_frames n T d c s acts s' :
    wf_scenario n T s -> run_episode d c s acts = Ok s' ->
    1 <= c_init_steps c -> c_init_steps c + length acts <= T ->
    forall i j, i < n -> j < length acts ->
    exists u cur nxt ctrl,
      at2 (s_sim s') i (c_init_steps c + j - 1) = Some cur /\
      at2 (s_log s) i (c_init_steps c + j) = Some nxt /\
      (ctrl = true <-> in_control c s i) /\
      at2 (s_sim s') i (c_init_steps c + j)
      = Some (next_pt (c_allow_new_objects c) false u cur nxt ctrl).
  Proof.
    intros W. revert s'.
    induction acts as [|a acts IH] using rev_ind; intros s' H Hi Hl i j Hin Hj.
    - simpl in Hj; lia.
    - apply run_episode_snoc in H as (s1 & H1 & H2).
      rewrite app_length in *; simpl length in *.
      assert (L1 : c_init_steps c + length acts <= T) by lia.
      destruct (episode_basic _ _ _ _ _ _ _ W H1 L1) as (W1 & SC & _ & Et & _).
      destruct (env_step_frame n T d c s1 a s' (c_init_steps c + length acts) W1 H2)
        as (SC' & Et' & W' & Hf); [lia | lia |].
      destruct (Nat.eq_dec j (length acts)) as [->|Hne].
      + destruct (env_step_Ok _ _ _ _ _ _ _ W1 H2)
          as (mask & cur & us & nxt & Hm & La & Lmask & Lc & Lu & Ln & Hc & Hnx & Hu & R & Hs & _).
        destruct (nth_error_lt_Some cur i) as [pc Epc]; [lia|].
        destruct (nth_error_lt_Some nxt i) as [pn Epn]; [lia|].
        destruct (nth_error_lt_Some us i) as [u Eu]; [lia|].
        destruct (nth_error_lt_Some mask i) as [b Eb]; [lia|].
        exists u, pc, pn, b.
        assert (E1 : (s_t s1 + 1)%Z = Z.of_nat (c_init_steps c + length acts)) by lia.
        assert (E2 : s_t s1 = Z.of_nat (c_init_steps c + length acts - 1)) by lia.
        split.
        { rewrite Hf by lia. rewrite <- Epc, Hc by auto. rewrite E2.
          rewrite norm_start_of_nat by lia. reflexivity. }
        split.
        { destruct SC as (SL & _). rewrite <- SL. rewrite <- Epn, Hnx by auto.
          rewrite E1, norm_start_of_nat by lia. reflexivity. }
        split.
        { eapply (episode_mask n T d c s acts s1); eauto. }
        rewrite Hs by auto. rewrite E1, norm_start_of_nat by lia.
        rewrite Nat.eqb_refl. rewrite nth_error_map4, Eu, Epc, Epn, Eb. reflexivity.
      + destruct (IH s1 H1 Hi L1 i j Hin) as (u & cur & nxt & ctrl & E1 & E2 & E3 & E4); [lia|].
        exists u, cur, nxt, ctrl. rewrite !Hf by lia. auto.
  Qed.
End Episode.
