(** Proofs for C03, C05, C06. *)
From Coq Require Import List ZArith Lia Bool.
From Verif.Lib Require Import Base JaxIndex Scalar.
From Verif.Model Require Import Operations State Dynamics BaseEnv Dyn_State.
From Verif.Spec Require Import StateSpec.
From Verif.Proofs Require Import Core Episode.
Import ListNotations.

Section P.
  Context {S : Scalar}.

  Lemma step_one_frame n T d c s a s' :
    wf_state n T s -> env_step d c s a = Ok s' ->
    (0 <= s_t s + 1 < Z.of_nat T)%Z ->
    wf_state n T s' /\ same_scenario s s' /\ s_t s' = (s_t s + 1)%Z /\
    (forall i k, i < n -> Z.of_nat k <> (s_t s + 1)%Z ->
       at2 (s_sim s') i k = at2 (s_sim s) i k).
  Proof.
    intros W H Ht.
    destruct (env_step_frame n T d c s a s' (Z.to_nat (s_t s + 1)) W H)
      as (SC & Et & W' & Hf); [lia|lia|].
    split; auto. split; auto. split; [lia|].
    intros i k Hi Hk. apply Hf; auto. intros ->. apply Hk. lia.
  Qed.

  (** The written frame of a controlled object carries the pose the dynamics
      model computed from the current frame. *)
  Lemma step_controlled_pose n T d c s a s' mask (t : nat) :
    wf_state n T s -> env_step d c s a = Ok s' -> env_control_mask s c = Ok mask ->
    s_t s = Z.of_nat t -> t + 1 < T ->
    exists cur us,
      length cur = n /\ (forall i, i < n -> nth_error cur i = at2 (s_sim s) i t) /\
      d_update d a cur = Ok us /\
      (forall i u, nth_error mask i = Some true -> nth_error us i = Some u ->
         exists p, at2 (s_sim s') i (t + 1) = Some p /\
           p_x p = u_x u /\ p_y p = u_y u /\ p_yaw p = u_yaw u /\
           p_vx p = u_vx u /\ p_vy p = u_vy u).
  Proof.
    intros W H Hm Et Ht.
    destruct (env_step_Ok _ _ _ _ _ _ _ W H)
      as (mask' & cur & us & nxt & Hm' & La & Lmask & Lc & Lu & Ln & Hc & Hnx & Hu & R & Hs & _).
    assert (mask' = mask) as -> by congruence.
    exists cur, us. split; auto. rewrite Et in Hc. split.
    { intros i Hi. rewrite Hc by auto. rewrite norm_start_of_nat by lia. auto. }
    split; auto. intros i u Em Eu.
    assert (Hi : i < n) by (apply nth_error_Some_lt in Em; lia).
    destruct (nth_error_lt_Some cur i) as [pc Epc]; [lia|].
    destruct (nth_error_lt_Some nxt i) as [pn Epn]; [lia|].
    eexists. split.
    { rewrite Hs by auto. replace (s_t s + 1)%Z with (Z.of_nat (t + 1)) by lia.
      rewrite norm_start_of_nat by lia. rewrite Nat.eqb_refl.
      rewrite nth_error_map4, Em, Eu, Epc, Epn. reflexivity. }
    simpl. auto.
  Qed.

  Lemma step_bad_count n T d c s a :
    wf_state n T s -> c_controlled c <> NON_SDC -> length a <> n ->
    env_step d c s a = Err AssertionError.
  Proof.
    intros W Hc Ha. destruct (control_mask_total n T s c W Hc) as [mask Hm].
    unfold env_step. rewrite Hm; simpl. unfold forward.
    destruct W as ([R1 R2] & _). rewrite R1.
    destruct (Nat.eqb_spec n (length a)); [congruence|]. reflexivity.
  Qed.

  Lemma step_bad_type d c s a :
    c_controlled c = NON_SDC -> env_step d c s a = Err ValueError.
  Proof. intros H. unfold env_step, env_control_mask. rewrite H. reflexivity. Qed.

  (* ---------------- finished episodes ---------------- *)

  Lemma is_done_iff n T s : wf_state n T s ->
    (is_done s = true <-> (Z.of_nat T <= s_t s + 1)%Z).
  Proof.
    intros (_ & R & _ & Hn & _). unfold is_done. rewrite (rect_num_timesteps n T) by auto.
    rewrite Z.leb_le. reflexivity.
  Qed.

  Lemma step_finished n T d c s a s' :
    wf_state n T s -> is_done s = true -> env_step d c s a = Ok s' ->
    wf_state n T s' /\ same_scenario s s' /\ s_t s' = (s_t s + 1)%Z /\
    is_done s' = true /\
    (forall i k, i < n -> k <> T - 1 -> at2 (s_sim s') i k = at2 (s_sim s) i k).
  Proof.
    intros W D H. pose proof (env_step_wf _ _ _ _ _ _ _ W H) as W'.
    rewrite is_done_iff in D by eauto.
    destruct (env_step_Ok _ _ _ _ _ _ _ W H)
      as (mask & cur & us & nxt & _ & _ & _ & _ & _ & _ & _ & _ & _ & R & Hs & SC & Et').
    split; auto. split; auto. split; auto. split.
    { rewrite is_done_iff by eauto. lia. }
    intros i k Hi Hk. rewrite Hs by auto.
    destruct (Nat.eqb_spec k (norm_start (s_t s + 1) T 1)); auto.
    exfalso. apply Hk. subst k. destruct W as (_ & _ & _ & _ & HT).
    unfold norm_start. destruct (s_t s + 1 <? 0)%Z eqn:E; lia.
  Qed.

  Lemma steps_finished n T d c s acts s' :
    wf_state n T s -> is_done s = true -> env_steps d c s acts = Ok s' ->
    same_scenario s s' /\ is_done s' = true /\
    (forall i k, i < n -> k <> T - 1 -> at2 (s_sim s') i k = at2 (s_sim s) i k).
  Proof.
    revert s. induction acts as [|a acts IH]; intros s W D H.
    - simpl in H. assert (s = s') as <- by congruence. split; auto using same_scenario_refl.
    - simpl in H. apply bind_Ok in H as (s1 & H1 & H2).
      destruct (step_finished _ _ _ _ _ _ _ W D H1) as (W1 & SC & _ & D1 & F1).
      destruct (IH s1 W1 D1 H2) as (SC2 & D2 & F2).
      split; [eapply same_scenario_trans; eauto|]. split; auto.
      intros i k Hi Hk. rewrite F2, F1; auto.
  Qed.

  (** Under StateDynamics the last frame is overwritten by the action. *)
  Lemma per_object_Ok f acts cur us :
    per_object (S := S) f acts cur = Ok us ->
    length acts = length cur /\ length us = length cur /\
    (forall i a p, nth_error acts i = Some a -> nth_error cur i = Some p ->
       exists u, f a p = Ok u /\ nth_error us i = Some u).
  Proof.
    revert cur us. induction acts as [|a acts IH]; intros [|p cur] us H; simpl in H; try discriminate.
    - assert (us = []) as -> by congruence. repeat split. intros [|i]; discriminate.
    - apply bind_Ok in H as (u & Hu & H). apply bind_Ok in H as (us' & Hus & H).
      assert (us = u :: us') as -> by congruence.
      destruct (IH _ _ Hus) as (L1 & L2 & K). simpl. split; [lia|]. split; [lia|].
      intros [|i] a' p' Ha Hp; simpl in *.
      + exists u. assert (a = a') as <- by congruence. assert (p = p') as <- by congruence. auto.
      + eauto.
  Qed.

  Lemma finished_overwrites n T c s a s' mask i x y yaw vx vy v :
    wf_state n T s -> is_done s = true -> env_step StateDynamics c s a = Ok s' ->
    env_control_mask s c = Ok mask -> nth_error mask i = Some true ->
    nth_error a i = Some (mkact [x; y; yaw; vx; vy] v) ->
    exists p, at2 (s_sim s') i (T - 1) = Some p /\
      p_x p = x /\ p_y p = y /\ p_yaw p = yaw /\ p_vx p = vx /\ p_vy p = vy.
  Proof.
    intros W D H Hm Em Ea.
    rewrite is_done_iff in D by eauto.
    destruct (env_step_Ok _ _ _ _ _ _ _ W H)
      as (mask' & cur & us & nxt & Hm' & La & Lmask & Lc & Lu & Ln & Hc & Hnx & Hu & R & Hs & _).
    assert (mask' = mask) as -> by congruence.
    assert (Hi : i < n) by (apply nth_error_Some_lt in Em; lia).
    destruct (nth_error_lt_Some cur i) as [pc Epc]; [lia|].
    destruct (nth_error_lt_Some nxt i) as [pn Epn]; [lia|].
    destruct (per_object_Ok _ _ _ _ Hu) as (_ & _ & K).
    destruct (K i _ _ Ea Epc) as (u & Eu & Eus).
    unfold state_update in Eu; simpl in Eu.
    eexists. split.
    { rewrite Hs by auto. destruct W as (_ & _ & _ & _ & HT).
      replace (norm_start (s_t s + 1) T 1) with (T - 1).
      2:{ unfold norm_start. destruct (s_t s + 1 <? 0)%Z eqn:E; lia. }
      rewrite Nat.eqb_refl, nth_error_map4, Em, Eus, Epc, Epn. reflexivity. }
    simpl. assert (E0 : u = mkupd x y yaw vx vy v) by congruence. rewrite E0. auto.
  Qed.

  (* ---------------- clock ---------------- *)

  Lemma episode_wf n T d c s acts s' :
    wf_scenario n T s -> run_episode d c s acts = Ok s' -> wf_state n T s' /\
    s_t s' = (Z.of_nat (c_init_steps c + length acts) - 1)%Z.
  Proof.
    intros (R & Lm & Hn & HT). revert s'.
    induction acts as [|a acts IH] using rev_ind; intros s' H.
    - apply run_episode_nil in H.
      pose proof (env_reset_wf _ _ _ _ _ R Lm Hn HT H) as W.
      destruct (env_reset_Ok _ _ _ _ _ R Hn H) as (_ & _ & _ & _ & Et & _).
      split; auto. rewrite Et. simpl; lia.
    - apply run_episode_snoc in H as (s1 & H1 & H2).
      destruct (IH s1 H1) as [W1 Et1].
      pose proof (env_step_wf _ _ _ _ _ _ _ W1 H2) as W'.
      destruct (env_step_Ok _ _ _ _ _ _ _ W1 H2)
        as (mask & cur & us & nxt & _ & _ & _ & _ & _ & _ & _ & _ & _ & _ & _ & _ & Et').
      split; auto. rewrite Et', Et1, app_length. simpl. lia.
  Qed.

  Lemma clock_lemma n T d c s acts s' :
    wf_scenario n T s -> run_episode d c s acts = Ok s' ->
    s_t s' = (Z.of_nat (c_init_steps c) - 1 + Z.of_nat (length acts))%Z /\
    remaining_timesteps s'
      = (Z.of_nat T - Z.of_nat (c_init_steps c) - Z.of_nat (length acts))%Z /\
    (truncation s' = true <-> T - c_init_steps c <= length acts) /\
    termination s' = false.
  Proof.
    intros W H. destruct (episode_wf _ _ _ _ _ _ _ W H) as [W' Et].
    assert (HI : c_init_steps c <= T).
    { unfold run_episode in H. apply bind_Ok in H as (s0 & H0 & _).
      destruct W as (R & _ & Hn & _). apply (env_reset_Ok n T) in H0; tauto. }
    split; [lia|].
    assert (Er : remaining_timesteps s'
      = (Z.of_nat T - Z.of_nat (c_init_steps c) - Z.of_nat (length acts))%Z).
    { unfold remaining_timesteps. rewrite (rect_num_timesteps n T); [lia | apply W'..]. }
    split; auto. split; auto.
    unfold truncation. rewrite Er, Z.ltb_lt. lia.
  Qed.

  Lemma done_agree (s : state) :
    truncation s = is_done s /\ (is_done s = true <-> (remaining_timesteps s <= 0)%Z).
  Proof.
    unfold truncation, is_done, remaining_timesteps.
    set (T := Z.of_nat (num_timesteps (s_log s))). split.
    - destruct (T <=? s_t s + 1)%Z eqn:E.
      + apply Z.leb_le in E. apply Z.ltb_lt. lia.
      + apply Z.leb_gt in E. apply Z.ltb_ge. lia.
    - rewrite Z.leb_le. lia.
  Qed.
End P.
