(** Proofs for C13: closed-loop episodes and the expert policy. *)
From Coq Require Import List ZArith Lia Bool.
From Verif.Lib Require Import Base JaxIndex Scalar.
From Verif.Model Require Import Operations State Dynamics BaseEnv Dyn_State Dyn_Delta Dyn_Bicycle Expert.
From Verif.Spec Require Import StateSpec DynSpec.
From Verif.Proofs Require Import Core Episode P_Step P_Replay P_Actions.
Import ListNotations.
Local Open Scope nat_scope.

Section P.
  Context {S : Scalar}.

  Lemma policy_steps_snoc d c pol s k s' :
    policy_steps d c pol s (Datatypes.S k) = Ok s' <->
    exists s1 a, policy_steps d c pol s k = Ok s1 /\ pol s1 = Ok a /\ env_step d c s1 a = Ok s'.
  Proof.
    revert s. induction k as [|k IH]; intros s.
    - cbn [policy_steps]. split.
      + intros H. apply bind_Ok in H as (a & Ha & H). apply bind_Ok in H as (s2 & H2 & H).
        exists s, a. split; auto. split; auto. congruence.
      + intros (s1 & a & E & Ha & H). injection E as <-. rewrite Ha. simpl. rewrite H. reflexivity.
    - change (policy_steps d c pol s (Datatypes.S (Datatypes.S k))) with
        (let* a := pol s in let* s' := env_step d c s a in policy_steps d c pol s' (Datatypes.S k)).
      change (policy_steps d c pol s (Datatypes.S k)) with
        (let* a := pol s in let* s' := env_step d c s a in policy_steps d c pol s' k).
      destruct (pol s) as [a|e]; simpl; [|split; [discriminate | intros (? & ? & ? & _); discriminate]].
      destruct (env_step d c s a) as [s2|e]; simpl;
        [|split; [discriminate | intros (? & ? & ? & _); discriminate]].
      apply IH.
  Qed.

  Lemma run_policy_snoc d c pol s k s' :
    run_policy d c pol s (Datatypes.S k) = Ok s' <->
    exists s1 a, run_policy d c pol s k = Ok s1 /\ pol s1 = Ok a /\ env_step d c s1 a = Ok s'.
  Proof.
    unfold run_policy. destruct (env_reset c s) as [s0|e].
    - cbn [bind]. apply policy_steps_snoc.
    - simpl. split; [discriminate | intros (? & ? & ? & _); discriminate].
  Qed.

  Lemma run_policy_0 d c pol s s' : run_policy d c pol s 0 = Ok s' <-> env_reset c s = Ok s'.
  Proof. unfold run_policy. destruct (env_reset c s); simpl; split; congruence. Qed.

  (** A closed-loop episode is an episode. *)
  Lemma run_policy_episode d c pol s k s' :
    run_policy d c pol s k = Ok s' ->
    exists acts, length acts = k /\ run_episode d c s acts = Ok s'.
  Proof.
    revert s'. induction k as [|k IH]; intros s' H.
    - exists []. split; [reflexivity|]. apply run_episode_nil. now apply run_policy_0 in H.
    - apply run_policy_snoc in H as (s1 & a & H1 & Ha & H2).
      destruct (IH _ H1) as (acts & L & H3). exists (acts ++ [a]).
      rewrite app_length; simpl. split; [lia|]. apply run_episode_snoc. eauto.
  Qed.

  (** Frames of a closed-loop episode, with the update of each step. *)
  Lemma policy_frames n T d c pol s k s' :
    wf_scenario n T s -> run_policy d c pol s k = Ok s' ->
    1 <= c_init_steps c -> c_init_steps c + k <= T ->
    forall j, j < k ->
    exists s1 a cur us,
      run_policy d c pol s j = Ok s1 /\ wf_state n T s1 /\
      same_scenario s s1 /\ s_t s1 = Z.of_nat (c_init_steps c + j - 1) /\ pol s1 = Ok a /\
      length a = n /\ length cur = n /\ length us = n /\ d_update d a cur = Ok us /\
      forall i, i < n ->
        nth_error cur i = at2 (s_sim s1) i (c_init_steps c + j - 1) /\
        (forall t, t < c_init_steps c + j -> at2 (s_sim s') i t = at2 (s_sim s1) i t) /\
        exists u p nxt ctrl,
          nth_error us i = Some u /\ nth_error cur i = Some p /\
          at2 (s_log s) i (c_init_steps c + j) = Some nxt /\
          (ctrl = true <-> in_control c s i) /\
          at2 (s_sim s') i (c_init_steps c + j)
          = Some (next_pt (c_allow_new_objects c) false u p nxt ctrl).
  Proof.
    intros W. revert s'. induction k as [|k IH]; intros s' H HI HL j Hj; [lia|].
    apply run_policy_snoc in H as (s1 & a & H1 & Ha & H2).
    destruct (run_policy_episode _ _ _ _ _ _ H1) as (acts & La & HE).
    assert (LE : c_init_steps c + length acts <= T) by lia.
    destruct (episode_basic _ _ _ _ _ _ _ W HE LE) as (W1 & SC & _ & Et & _).
    destruct (env_step_frame n T d c s1 a s' (c_init_steps c + k) W1 H2)
      as (SC' & Et' & W' & Hf); [lia | lia |].
    destruct (Nat.eq_dec j k) as [->|NE].
    - destruct (env_step_Ok _ _ _ _ _ _ _ W1 H2)
        as (mask & cur & us & nxt & Hm & Laa & Lmask & Lc & Lu & Ln & Hc & Hnx & Hu & R & Hs & _).
      assert (E1 : (s_t s1 + 1)%Z = Z.of_nat (c_init_steps c + k)) by lia.
      assert (E2 : s_t s1 = Z.of_nat (c_init_steps c + k - 1)) by lia.
      exists s1, a, cur, us. repeat (split; [solve [auto]|]).
      intros i Hi.
      split. { rewrite Hc by auto. rewrite E2, norm_start_of_nat by lia. reflexivity. }
      split. { intros t Ht. rewrite Hf by lia. reflexivity. }
      destruct (nth_error_lt_Some cur i) as [pc Epc]; [lia|].
      destruct (nth_error_lt_Some nxt i) as [pn Epn]; [lia|].
      destruct (nth_error_lt_Some us i) as [u Eu]; [lia|].
      destruct (nth_error_lt_Some mask i) as [b Eb]; [lia|].
      exists u, pc, pn, b. split; auto. split; auto. split.
      { destruct SC as (SL & _). rewrite <- SL, <- Epn, Hnx by auto.
        rewrite E1, norm_start_of_nat by lia. reflexivity. }
      split. { eapply (episode_mask n T d c s acts s1); eauto. }
      rewrite Hs by auto. rewrite E1, norm_start_of_nat by lia.
      rewrite Nat.eqb_refl, nth_error_map4, Eu, Epc, Epn, Eb. reflexivity.
    - destruct (IH s1 H1 HI ltac:(lia) j ltac:(lia))
        as (s2 & a2 & cur & us & K1 & K2 & K3 & K4 & K5 & K6 & K7 & K8 & K9 & K10).
      exists s2, a2, cur, us. repeat (split; [solve [auto]|]).
      intros i Hi. destruct (K10 i Hi) as (J1 & J2 & J3). split; auto. split.
      + intros t Ht. rewrite Hf by lia. auto.
      + rewrite Hf by lia. auto.
  Qed.

  (** The two-frame trajectory the expert inverts. *)
  Lemma expert_frames n T d s t :
    wf_state n T s -> s_t s = Z.of_nat t -> t + 1 < T ->
    exists comb, infer_expert_action d s = d_inverse d comb (s_meta s) 0 /\
      rect n 2 comb /\
      forall i, i < n -> at2 comb i 0 = at2 (s_sim s) i t /\
                         at2 comb i 1 = at2 (s_log s) i (t + 1).
  Proof.
    intros (R1 & R2 & Lm & Hn & HT) Et Ht. unfold infer_expert_action.
    destruct (dynamic_slice_total n T (s_sim s) (s_t s) 1 R1) as [pv Hp]; [lia|].
    destruct (dynamic_slice_total n T (s_log s) (s_t s + 1) 1 R2) as [nx Hx]; [lia|].
    rewrite Hp; simpl. rewrite Hx; simpl.
    eexists. split; [reflexivity|].
    apply (dynamic_slice_Ok n T) in Hp as [Rp Ap]; auto.
    apply (dynamic_slice_Ok n T) in Hx as [Rx Ax]; auto.
    assert (ROW : forall i, i < n -> exists p q,
      nth_error (map2 (@app pt) pv nx) i = Some [p; q] /\
      at2 (s_sim s) i t = Some p /\ at2 (s_log s) i (t + 1) = Some q).
    { intros i Hi.
      destruct (nth_error_lt_Some pv i) as [a Ea]; [destruct Rp; lia|].
      destruct (nth_error_lt_Some nx i) as [b Eb]; [destruct Rx; lia|].
      pose proof (rect_row _ _ _ _ _ Rp Ea) as La. pose proof (rect_row _ _ _ _ _ Rx Eb) as Lb.
      destruct a as [|p [|? ?]]; try discriminate. destruct b as [|q [|? ?]]; try discriminate.
      exists p, q. rewrite nth_error_map2, Ea, Eb. split; [reflexivity|].
      specialize (Ap i 0 Hi ltac:(lia)). specialize (Ax i 0 Hi ltac:(lia)).
      rewrite Nat.add_0_r, Et, norm_start_of_nat in Ap by lia.
      replace (s_t s + 1)%Z with (Z.of_nat (t + 1)) in Ax by lia.
      rewrite Nat.add_0_r, norm_start_of_nat in Ax by lia.
      unfold at2 at 1 in Ap. unfold at2 at 1 in Ax. rewrite Ea in Ap. rewrite Eb in Ax. auto. }
    split.
    - split; [rewrite map2_length; destruct Rp, Rx; lia|].
      intros r Hr. apply In_nth_error in Hr as [i Hi].
      assert (Li : i < n).
      { apply nth_error_Some_lt in Hi. rewrite map2_length in Hi. destruct Rp, Rx. lia. }
      destruct (ROW i Li) as (p & q & E & _). rewrite E in Hi. injection Hi as <-. reflexivity.
    - intros i Hi. destruct (ROW i Hi) as (p & q & E & E1 & E2).
      unfold at2 at 1 3. rewrite E, E1, E2. auto.
  Qed.

  Lemma state_inverse_Ok n T tr ms (t : nat) :
    rect n T tr -> t + 1 < T ->
    exists acts, state_inverse tr ms (Z.of_nat t) = Ok acts /\ length acts = n /\
      forall i p, i < n -> at2 tr i (t + 1) = Some p ->
        nth_error acts i = Some (mkact [p_x p; p_y p; p_yaw p; p_vx p; p_vy p] (p_valid p)).
  Proof.
    intros R Ht. unfold state_inverse.
    destruct (dynamic_index_total n T tr (Z.of_nat t + 1) R) as [c Hc]; [lia|].
    rewrite Hc; simpl. eexists. split; [reflexivity|].
    apply (dynamic_index_Ok n T) in Hc as [Lc Hc]; auto. rewrite map_length. split; auto.
    intros i p Hi Ep. rewrite nth_error_map, Hc by auto.
    replace (Z.of_nat t + 1)%Z with (Z.of_nat (t + 1)) by lia.
    rewrite norm_start_of_nat by lia. rewrite Ep. reflexivity.
  Qed.

  Lemma expert_replay n T c s k s' i t :
    wf_scenario n T s ->
    run_policy StateDynamics c (infer_expert_action StateDynamics) s k = Ok s' ->
    1 <= c_init_steps c -> c_init_steps c + k <= T -> i < n -> t < c_init_steps c + k ->
    exists p l, at2 (s_sim s') i t = Some p /\ at2 (s_log s) i t = Some l /\
      same_pose p l /\ p_ts p = p_ts l.
  Proof.
    intros W H HI HL Hi Ht.
    destruct (Nat.lt_ge_cases t (c_init_steps c)) as [Hlt|Hge].
    - destruct (run_policy_episode _ _ _ _ _ _ H) as (acts & La & HE).
      destruct (episode_basic _ _ _ _ _ _ _ W HE ltac:(lia)) as (_ & _ & _ & _ & F & _).
      destruct W as (R & _). destruct (rect_at2 n T (s_log s) i t R) as [l El]; [lia|lia|].
      exists l, l. rewrite F by auto. unfold same_pose. auto 10.
    - destruct (policy_frames n T _ _ _ _ _ _ W H HI HL (t - c_init_steps c) ltac:(lia))
        as (s1 & a & cur & us & K1 & K2 & K3 & K4 & K5 & K6 & K7 & K8 & K9 & K10).
      destruct (K10 i Hi) as (J1 & J2 & u & p & nxt & ctrl & Eu & Ep & En & Ec & Ef).
      replace (c_init_steps c + (t - c_init_steps c)) with t in * by lia.
      eexists. exists nxt. split; [exact Ef|]. split; [exact En|].
      destruct (expert_frames n T StateDynamics s1 (t - 1) K2) as (comb & Ei & Rc & Fc); [lia|lia|].
      rewrite Ei in K5. replace (t - 1 + 1) with t in Fc by lia.
      destruct (state_inverse_Ok n 2 comb (s_meta s1) 0 Rc ltac:(lia)) as (acts & Ea & Lac & Aac).
      change (d_inverse StateDynamics comb (s_meta s1) 0%Z) with (state_inverse comb (s_meta s1) 0%Z) in K5.
      change (Z.of_nat 0) with 0%Z in Ea. assert (acts = a) as -> by congruence.
      assert (EL : at2 comb i 1 = Some nxt).
      { rewrite (proj2 (Fc i Hi)). destruct K3 as (-> & _). exact En. }
      specialize (Aac i nxt Hi EL).
      destruct (per_object_Ok _ _ _ _ K9) as (_ & _ & PO).
      destruct (PO i _ _ Aac Ep) as (u' & Eu' & Es).
      assert (u' = u) as -> by congruence. unfold state_update in Eu'; simpl in Eu'.
      injection Eu' as <-.
      unfold next_pt, same_pose; simpl. destruct ctrl; auto 10.
  Qed.

  Lemma expert_runs n T c s k :
    wf_scenario n T s -> c_max_num_objects c = n -> c_controlled c <> NON_SDC ->
    1 <= c_init_steps c -> c_init_steps c + k <= T ->
    exists s', run_policy StateDynamics c (infer_expert_action StateDynamics) s k = Ok s'.
  Proof.
    intros W HM HC HI. induction k as [|k IH]; intros HL.
    - destruct W as (R & Lm & Hn & HT).
      destruct (env_reset_total n T c s) as [s' H]; auto; [lia|].
      exists s'. now apply run_policy_0.
    - destruct IH as [s1 H1]; [lia|].
      destruct (run_policy_episode _ _ _ _ _ _ H1) as (acts & La & HE).
      destruct (episode_basic _ _ _ _ _ _ _ W HE ltac:(lia)) as (W1 & SC & _ & Et & _).
      destruct (expert_frames n T StateDynamics s1 (c_init_steps c + k - 1) W1) as (comb & Ei & Rc & Fc); [lia|lia|].
      destruct (state_inverse_Ok n 2 comb (s_meta s1) 0 Rc ltac:(lia)) as (a & Ea & Lac & Aac).
      assert (Ea' : infer_expert_action StateDynamics s1 = Ok a) by (rewrite Ei; exact Ea).
      destruct (env_step_total n T StateDynamics c s1 a _ W1 HC state_total) as [s' Hs]; auto.
      + apply Forall_forall. intros x Hx. apply In_nth_error in Hx as [i Hi].
        assert (Li : i < n) by (rewrite <- Lac; eapply nth_error_Some_lt; eauto).
        destruct (rect_at2 n 2 comb i 1 Rc Li) as [p Ep]; [lia|].
        rewrite (Aac i p Li Ep) in Hi. injection Hi as <-. simpl. lia.
      + exists s'. apply run_policy_snoc. eauto.
  Qed.
End P.
