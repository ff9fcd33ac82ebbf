(** Proofs for C07, C08, C09, C12. *)
From Coq Require Import List ZArith Lia Bool.
From Verif.Lib Require Import Base JaxIndex Scalar.
From Verif.Model Require Import Operations State Dynamics BaseEnv Dyn_State.
From Verif.Spec Require Import StateSpec.
From Verif.Proofs Require Import Core Episode P_Step.
Import ListNotations.

Section P.
  Context {S : Scalar}.

  Lemma replay_lemma n T d c s acts s' i t :
    wf_scenario n T s -> run_episode d c s acts = Ok s' ->
    1 <= c_init_steps c -> c_init_steps c + length acts <= T ->
    i < n -> ~ in_control c s i -> t < c_init_steps c + length acts ->
    exists p l, at2 (s_sim s') i t = Some p /\ at2 (s_log s) i t = Some l /\
      same_pose p l /\ p_ts p = p_ts l.
  Proof.
    intros W H HI HL Hi NC Ht.
    destruct (Nat.lt_ge_cases t (c_init_steps c)) as [Hlt|Hge].
    - destruct (episode_basic _ _ _ _ _ _ _ W H HL) as (_ & _ & _ & _ & F & _).
      destruct W as (R & _). destruct (rect_at2 n T (s_log s) i t R) as [l El]; [lia|lia|].
      exists l, l. rewrite F by auto. unfold same_pose. auto 10.
    - destruct (episode_frames n T d c s acts s' W H HI HL i (t - c_init_steps c) Hi)
        as (u & cur & nxt & ctrl & _ & El & Ec & Ef); [lia|].
      replace (c_init_steps c + (t - c_init_steps c)) with t in El, Ef by lia.
      exists (next_pt (c_allow_new_objects c) false u cur nxt ctrl), nxt.
      split; auto. split; auto.
      destruct ctrl; [exfalso; apply NC, Ec; auto|].
      unfold same_pose, next_pt; simpl. auto 10.
  Qed.

  Lemma timestamps_lemma n T d c s acts s' i t :
    wf_scenario n T s -> run_episode d c s acts = Ok s' ->
    1 <= c_init_steps c -> c_init_steps c + length acts <= T ->
    i < n -> t < c_init_steps c + length acts ->
    exists p l, at2 (s_sim s') i t = Some p /\ at2 (s_log s) i t = Some l /\
      p_ts p = p_ts l.
  Proof.
    intros W H HI HL Hi Ht.
    destruct (Nat.lt_ge_cases t (c_init_steps c)) as [Hlt|Hge].
    - destruct (episode_basic _ _ _ _ _ _ _ W H HL) as (_ & _ & _ & _ & F & _).
      destruct W as (R & _). destruct (rect_at2 n T (s_log s) i t R) as [l El]; [lia|lia|].
      exists l, l. rewrite F by auto. auto.
    - destruct (episode_frames n T d c s acts s' W H HI HL i (t - c_init_steps c) Hi)
        as (u & cur & nxt & ctrl & _ & El & Ec & Ef); [lia|].
      replace (c_init_steps c + (t - c_init_steps c)) with t in El, Ef by lia.
      exists (next_pt (c_allow_new_objects c) false u cur nxt ctrl), nxt.
      split; auto.
  Qed.

  (** Induction principle over the simulated frames of one object, starting at
      the last warm-up frame. *)
  Lemma frames_ind n T d c s acts s' i (P : nat -> pt -> Prop) :
    wf_scenario n T s -> run_episode d c s acts = Ok s' ->
    1 <= c_init_steps c -> c_init_steps c + length acts <= T -> i < n ->
    (forall l, at2 (s_log s) i (c_init_steps c - 1) = Some l -> P (c_init_steps c - 1) l) ->
    (forall t u cur nxt ctrl, c_init_steps c - 1 <= t -> P t cur ->
       at2 (s_log s) i (t + 1) = Some nxt -> (ctrl = true <-> in_control c s i) ->
       P (t + 1) (next_pt (c_allow_new_objects c) false u cur nxt ctrl)) ->
    forall t, c_init_steps c - 1 <= t -> t < c_init_steps c + length acts ->
    exists p, at2 (s_sim s') i t = Some p /\ P t p.
  Proof.
    intros W H HI HL Hi P0 PS.
    assert (G : forall j, j <= length acts ->
      exists p, at2 (s_sim s') i (c_init_steps c - 1 + j) = Some p /\
                P (c_init_steps c - 1 + j) p).
    { induction j as [|j IH]; intros Hj.
      - rewrite Nat.add_0_r.
        destruct (episode_basic _ _ _ _ _ _ _ W H HL) as (_ & _ & _ & _ & F & _).
        destruct W as (R & _).
        destruct (rect_at2 n T (s_log s) i (c_init_steps c - 1) R) as [l El]; [lia|lia|].
        exists l. rewrite F by lia. auto.
      - destruct IH as (p & Ep & Pp); [lia|].
        destruct (episode_frames n T d c s acts s' W H HI HL i j Hi)
          as (u & cur & nxt & ctrl & Ecur & El & Ec & Ef); [lia|].
        replace (c_init_steps c + j - 1) with (c_init_steps c - 1 + j) in Ecur by lia.
        assert (cur = p) as -> by congruence.
        exists (next_pt (c_allow_new_objects c) false u p nxt ctrl).
        replace (c_init_steps c - 1 + Datatypes.S j) with (c_init_steps c + j) by lia.
        split; auto.
        replace (c_init_steps c + j) with (c_init_steps c - 1 + j + 1) in * by lia.
        apply PS; auto; lia. }
    intros t H1 H2. destruct (G (t - (c_init_steps c - 1))) as (p & Ep & Pp); [lia|].
    replace (c_init_steps c - 1 + (t - (c_init_steps c - 1))) with t in Ep, Pp by lia. eauto.
  Qed.

  (** z and the box dimensions never leave their value at the end of warm-up. *)
  Lemma frozen_lemma n T d c s acts s' i t :
    wf_scenario n T s -> run_episode d c s acts = Ok s' ->
    1 <= c_init_steps c -> c_init_steps c + length acts <= T -> i < n ->
    c_init_steps c - 1 <= t -> t < c_init_steps c + length acts ->
    exists p l, at2 (s_sim s') i t = Some p /\
      at2 (s_log s) i (c_init_steps c - 1) = Some l /\
      p_z p = p_z l /\ p_len p = p_len l /\ p_wid p = p_wid l /\ p_hei p = p_hei l.
  Proof.
    intros W H HI HL Hi H1 H2.
    assert (El : exists l, at2 (s_log s) i (c_init_steps c - 1) = Some l).
    { destruct W as (R & _). destruct (rect_at2 n T (s_log s) i (c_init_steps c - 1) R) as [l El];
        [lia|lia|]. eauto. }
    destruct El as [l El].
    edestruct (frames_ind n T d c s acts s' i
      (fun _ p => p_z p = p_z l /\ p_len p = p_len l /\ p_wid p = p_wid l /\ p_hei p = p_hei l)
      W H HI HL Hi) as (p & Ep & Pp); [| |exact H1|exact H2|].
    - intros l' E. assert (l' = l) as -> by congruence. auto.
    - intros t' u cur nxt ctrl _ Pc _ _. exact Pc.
    - exists p, l. auto.
  Qed.

  Lemma log_valid_some s i t l : at2 (s_log s) i t = Some l ->
    (log_valid s i t <-> p_valid l = true).
  Proof.
    intros E. unfold log_valid. split.
    - intros (p & Ep & V). congruence.
    - eauto.
  Qed.

  Lemma sim_valid_from n T d c s acts s' i (Q : nat -> Prop) :
    wf_scenario n T s -> run_episode d c s acts = Ok s' ->
    1 <= c_init_steps c -> c_init_steps c + length acts <= T -> i < n ->
    (log_valid s i (c_init_steps c - 1) <-> Q (c_init_steps c - 1)) ->
    (forall t u cur nxt ctrl, c_init_steps c - 1 <= t -> (p_valid cur = true <-> Q t) ->
       at2 (s_log s) i (t + 1) = Some nxt -> (ctrl = true <-> in_control c s i) ->
       (p_valid (next_pt (c_allow_new_objects c) false u cur nxt ctrl) = true <-> Q (t + 1))) ->
    forall t, c_init_steps c - 1 <= t -> t < c_init_steps c + length acts ->
    (sim_valid s' i t <-> Q t).
  Proof.
    intros W H HI HL Hi Q0 QS t H1 H2.
    edestruct (frames_ind n T d c s acts s' i (fun t p => p_valid p = true <-> Q t)
      W H HI HL Hi) as (p & Ep & Pp); [| exact QS |exact H1|exact H2|].
    - intros l El. rewrite <- Q0, log_valid_some by eauto. reflexivity.
    - unfold sim_valid. rewrite <- Pp. split.
      + intros (p' & E' & V). congruence.
      + eauto.
  Qed.

  (* ---------------- C08 ---------------- *)

  Lemma valid_noinj_controlled n T d c s acts s' i t :
    wf_scenario n T s -> run_episode d c s acts = Ok s' ->
    1 <= c_init_steps c -> c_init_steps c + length acts <= T -> i < n ->
    c_allow_new_objects c = false -> in_control c s i ->
    c_init_steps c - 1 <= t -> t < c_init_steps c + length acts ->
    (sim_valid s' i t <-> log_valid s i (c_init_steps c - 1)).
  Proof.
    intros W H HI HL Hi NI IC.
    apply (sim_valid_from n T d c s acts s' i
      (fun _ => log_valid s i (c_init_steps c - 1))); auto; [reflexivity|].
    intros t' u cur nxt ctrl _ Hc _ Ec.
    assert (ctrl = true) as -> by (apply Ec; auto).
    rewrite <- Hc. unfold next_pt, next_valid; simpl. rewrite NI.
    destruct (p_valid cur); simpl; intuition congruence.
  Qed.

  Lemma valid_noinj_uncontrolled n T d c s acts s' i t :
    wf_scenario n T s -> run_episode d c s acts = Ok s' ->
    1 <= c_init_steps c -> c_init_steps c + length acts <= T -> i < n ->
    c_allow_new_objects c = false -> ~ in_control c s i ->
    c_init_steps c - 1 <= t -> t < c_init_steps c + length acts ->
    (sim_valid s' i t <-> (forall u, c_init_steps c - 1 <= u <= t -> log_valid s i u)).
  Proof.
    intros W H HI HL Hi NI IC.
    apply (sim_valid_from n T d c s acts s' i
      (fun t => forall u, c_init_steps c - 1 <= u <= t -> log_valid s i u)); auto.
    - split; intros V.
      + intros u Hu. replace u with (c_init_steps c - 1) by lia. auto.
      + apply V. lia.
    - intros t' u cur nxt ctrl Ht Hc El Ec.
      assert (ctrl = false) as ->. { destruct ctrl; auto. exfalso. apply IC, Ec. auto. }
      unfold next_pt, next_valid; simpl. rewrite NI.
      rewrite andb_true_iff, Hc. rewrite <- (log_valid_some s i (t' + 1) nxt El).
      split.
      + intros [V1 V2] v Hv. destruct (Nat.eq_dec v (t' + 1)) as [->|]; auto. apply V1. lia.
      + intros V. split; [intros v Hv|]; apply V; lia.
  Qed.

  Lemma in_control_dec c s i : in_control c s i \/ ~ in_control c s i.
  Proof.
    assert (G : forall f, (exists m : meta, nth_error (s_meta s) i = Some m /\ f m = true) \/
                     ~ (exists m : meta, nth_error (s_meta s) i = Some m /\ f m = true)).
    { intros f. destruct (nth_error (s_meta s) i) as [m|].
      - destruct (f m) eqn:E; [left; eauto|]. right. intros (m' & E1 & E2). congruence.
      - right. intros (m' & E1 & _). discriminate. }
    unfold in_control. destruct (c_controlled c); auto.
    destruct (c_allow_new_objects c); auto.
    destruct (at2 (s_log s) i (c_init_steps c - 1)) as [p|].
    - destruct (p_valid p) eqn:E; [left; eauto|]. right. intros (m' & E1 & E2). congruence.
    - right. intros (m' & E1 & _). discriminate.
  Qed.

  Lemma no_object_appears n T d c s acts s' i t :
    wf_scenario n T s -> run_episode d c s acts = Ok s' ->
    1 <= c_init_steps c -> c_init_steps c + length acts <= T -> i < n ->
    c_allow_new_objects c = false -> ~ log_valid s i (c_init_steps c - 1) ->
    c_init_steps c - 1 <= t -> t < c_init_steps c + length acts -> ~ sim_valid s' i t.
  Proof.
    intros W H HI HL Hi NI NV H1 H2 V. destruct (in_control_dec c s i) as [C|C].
    - apply NV. eapply (valid_noinj_controlled n T d c s acts s' i t); eauto.
    - apply NV. apply (valid_noinj_uncontrolled n T d c s acts s' i t W H HI HL Hi NI C H1 H2); auto.
  Qed.

  (* ---------------- C09 ---------------- *)

  Lemma valid_inj_uncontrolled n T d c s acts s' i t :
    wf_scenario n T s -> run_episode d c s acts = Ok s' ->
    1 <= c_init_steps c -> c_init_steps c + length acts <= T -> i < n ->
    c_allow_new_objects c = true -> ~ in_control c s i ->
    c_init_steps c - 1 <= t -> t < c_init_steps c + length acts ->
    (sim_valid s' i t <-> log_valid s i t).
  Proof.
    intros W H HI HL Hi NI IC.
    apply (sim_valid_from n T d c s acts s' i (fun t => log_valid s i t)); auto; [reflexivity|].
    intros t' u cur nxt ctrl Ht Hc El Ec.
    assert (ctrl = false) as ->. { destruct ctrl; auto. exfalso. apply IC, Ec. auto. }
    unfold next_pt, next_valid; simpl. rewrite NI.
    rewrite (log_valid_some s i (t' + 1) nxt El). reflexivity.
  Qed.

  Lemma valid_inj_controlled n T d c s acts s' i t :
    wf_scenario n T s -> run_episode d c s acts = Ok s' ->
    1 <= c_init_steps c -> c_init_steps c + length acts <= T -> i < n ->
    c_allow_new_objects c = true -> in_control c s i ->
    c_init_steps c - 1 <= t -> t < c_init_steps c + length acts ->
    (sim_valid s' i t <-> (exists u, c_init_steps c - 1 <= u <= t /\ log_valid s i u)).
  Proof.
    intros W H HI HL Hi NI IC.
    apply (sim_valid_from n T d c s acts s' i
      (fun t => exists u, c_init_steps c - 1 <= u <= t /\ log_valid s i u)); auto.
    - split; intros V.
      + exists (c_init_steps c - 1). split; [lia|auto].
      + destruct V as (u & Hu & V). replace (c_init_steps c - 1) with u by lia. auto.
    - intros t' u cur nxt ctrl Ht Hc El Ec.
      assert (ctrl = true) as -> by (apply Ec; auto).
      unfold next_pt, next_valid; simpl. rewrite NI.
      destruct (p_valid cur) eqn:Ev; simpl.
      + split; [|tauto]. intros _. destruct (proj1 Hc eq_refl) as (v & Hv & V).
        exists v. split; [lia|auto].
      + rewrite <- (log_valid_some s i (t' + 1) nxt El). split.
        * intros V. exists (t' + 1). split; [lia|auto].
        * intros (v & Hv & V). destruct (Nat.eq_dec v (t' + 1)) as [->|]; auto.
          exfalso. assert (false = true); [|discriminate]. apply Hc. exists v. split; [lia|auto].
  Qed.

  (** One step with injection, for every object that is not (controlled and
      currently valid). *)
  Lemma inj_step n T d c s a s' mask (t : nat) i cur nxt b :
    wf_state n T s -> env_step d c s a = Ok s' -> env_control_mask s c = Ok mask ->
    s_t s = Z.of_nat t -> t + 1 < T -> c_allow_new_objects c = true ->
    nth_error mask i = Some b -> at2 (s_sim s) i t = Some cur ->
    at2 (s_log s) i (t + 1) = Some nxt ->
    exists p, at2 (s_sim s') i (t + 1) = Some p /\
      p_valid p = if b && p_valid cur then true else p_valid nxt.
  Proof.
    intros W H Hm Et Ht NI Em Ecur Enxt.
    destruct (env_step_Ok _ _ _ _ _ _ _ W H)
      as (mask' & pcur & us & pnxt & Hm' & La & Lmask & Lc & Lu & Ln & Hc & Hnx & Hu & R & Hs & _).
    assert (mask' = mask) as -> by congruence.
    assert (Hi : i < n) by (apply nth_error_Some_lt in Em; lia).
    destruct (nth_error_lt_Some us i) as [u Eu]; [lia|].
    assert (E1 : nth_error pcur i = Some cur).
    { rewrite Hc by auto. rewrite Et, norm_start_of_nat by lia. auto. }
    assert (E2 : nth_error pnxt i = Some nxt).
    { rewrite Hnx by auto. replace (s_t s + 1)%Z with (Z.of_nat (t + 1)) by lia.
      rewrite norm_start_of_nat by lia. auto. }
    eexists. split.
    { rewrite Hs by auto. replace (s_t s + 1)%Z with (Z.of_nat (t + 1)) by lia.
      rewrite norm_start_of_nat by lia. rewrite Nat.eqb_refl.
      rewrite nth_error_map4, Em, Eu, E1, E2. reflexivity. }
    simpl. unfold next_valid. rewrite NI. destruct b, (p_valid cur); reflexivity.
  Qed.

  (* ---------------- C12 ---------------- *)

  Lemma mask_lemma n T d c s acts s' mask :
    wf_scenario n T s -> run_episode d c s acts = Ok s' ->
    1 <= c_init_steps c -> c_init_steps c + length acts <= T ->
    env_control_mask s' c = Ok mask ->
    length mask = n /\
    forall i b, nth_error mask i = Some b -> (b = true <-> in_control c s i).
  Proof.
    intros W H HI HL Hm. split.
    - destruct (episode_basic _ _ _ _ _ _ _ W H HL) as (W' & _).
      eapply control_mask_length; eauto.
    - eapply episode_mask; eauto.
  Qed.

  Lemma mask_constant n T d c s acts s0 s' :
    wf_scenario n T s -> run_episode d c s acts = Ok s' -> env_reset c s = Ok s0 ->
    1 <= c_init_steps c -> c_init_steps c + length acts <= T ->
    env_control_mask s' c = env_control_mask s0 c.
  Proof.
    intros W H H0 HI HL.
    assert (R0 : run_episode d c s [] = Ok s0) by (apply run_episode_nil; auto).
    destruct (c_controlled c) eqn:Ec.
    4:{ unfold env_control_mask. rewrite Ec. reflexivity. }
    all: destruct (episode_basic _ _ _ _ _ _ _ W H HL) as (W' & _);
      destruct (episode_basic n T d c s [] s0 W R0 ltac:(simpl; lia)) as (W0 & _);
      destruct (control_mask_total n T s' c W' ltac:(congruence)) as [m1 E1];
      destruct (control_mask_total n T s0 c W0 ltac:(congruence)) as [m0 E0];
      rewrite E1, E0; f_equal; apply nth_error_ext_eq; intros i;
      pose proof (control_mask_length _ _ _ _ _ W' E1) as L1;
      pose proof (control_mask_length _ _ _ _ _ W0 E0) as L0;
      (destruct (Nat.lt_ge_cases i n) as [Hi|Hi];
       [ destruct (nth_error_lt_Some m1 i) as [b1 B1]; [lia|];
         destruct (nth_error_lt_Some m0 i) as [b0 B0]; [lia|];
         pose proof (episode_mask n T d c s acts s' m1 W H HI HL E1 i b1 B1) as K1;
         pose proof (episode_mask n T d c s [] s0 m0 W R0 HI ltac:(simpl; lia) E0 i b0 B0) as K0;
         rewrite B1, B0; f_equal; destruct b1, b0; intuition congruence
       | rewrite !(proj2 (nth_error_None _ _)); [reflexivity | lia | lia] ]).
  Qed.

  Lemma controlled_stay_valid n T d c s acts s' i t :
    wf_scenario n T s -> run_episode d c s acts = Ok s' ->
    1 <= c_init_steps c -> c_init_steps c + length acts <= T -> i < n ->
    c_controlled c = VALID -> c_allow_new_objects c = false -> in_control c s i ->
    c_init_steps c - 1 <= t -> t < c_init_steps c + length acts ->
    sim_valid s' i t.
  Proof.
    intros W H HI HL Hi EV NI IC H1 H2.
    eapply (valid_noinj_controlled n T); eauto.
    unfold in_control in IC. rewrite EV, NI in IC. exact IC.
  Qed.
End P.
