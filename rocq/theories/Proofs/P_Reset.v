(** Proofs for C02. *)
From Coq Require Import List ZArith Lia Bool.
From Verif.Lib Require Import Base JaxIndex Scalar.
From Verif.Model Require Import Operations State Dynamics BaseEnv.
From Verif.Spec Require Import StateSpec.
From Verif.Proofs Require Import Core.
Import ListNotations.

Section P.
  Context {S : Scalar}.

  Lemma reset_exact n T c s :
    wf_scenario n T s -> c_max_num_objects c = n -> c_init_steps c <= T ->
    exists s', env_reset c s = Ok s' /\ wf_state n T s' /\ same_scenario s s' /\
      s_t s' = (Z.of_nat (c_init_steps c) - 1)%Z /\
      (forall i t, i < n -> t < c_init_steps c ->
         at2 (s_sim s') i t = at2 (s_log s) i t) /\
      (forall i t, i < n -> c_init_steps c <= t -> t < T ->
         at2 (s_sim s') i t = Some invalid_pt).
  Proof.
    intros (R & Lm & Hn & HT) E H.
    destruct (env_reset_total n T c s R E H) as [s' Hs]. exists s'. split; auto.
    split; [eapply env_reset_wf; eauto|].
    destruct (env_reset_Ok _ _ _ _ _ R Hn Hs) as (_ & _ & _ & SC & Et & Hf).
    split; auto. split; auto. split.
    - intros i t Hi Ht. rewrite Hf by lia. destruct (Nat.ltb_spec t (c_init_steps c)); auto; lia.
    - intros i t Hi Ht Ht'. rewrite Hf by lia.
      destruct (Nat.ltb_spec t (c_init_steps c)); auto; lia.
  Qed.

  Lemma reset_blind c s sim t :
    env_reset c (mkstate sim (s_log s) (s_tls s) (s_meta s) t (s_paths s) (s_rg s))
    = env_reset c s.
  Proof. reflexivity. Qed.

  Lemma same_scenario_reset c s s' :
    same_scenario s s' -> env_reset c s' = env_reset c s.
  Proof.
    destruct s, s'. unfold same_scenario; simpl. intros (-> & -> & -> & -> & ->).
    reflexivity.
  Qed.

  Lemma reset_wrong_count c s :
    length (s_log s) <> c_max_num_objects c -> env_reset c s = Err AssertionError.
  Proof.
    intros H. unfold env_reset. destruct (Nat.eqb_spec (c_max_num_objects c) (length (s_log s))).
    - congruence.
    - reflexivity.
  Qed.

  Lemma reset_too_long n T c s :
    wf_scenario n T s -> c_max_num_objects c = n -> T < c_init_steps c ->
    env_reset c s = Err TypeError.
  Proof.
    intros ([R1 R2] & Lm & Hn & HT) E H. unfold env_reset.
    rewrite E, R1, Nat.eqb_refl; simpl.
    unfold update_state_by_log; simpl. unfold fill_invalid_trajectory.
    destruct (s_log s) as [|r m]; simpl in R1; [lia|].
    cbn [map update_by_slice_in_dim update_rows].
    unfold update_row, dyn_slice. rewrite (R2 r) by now left.
    destruct (Nat.leb_spec (c_init_steps c) T); [lia|]. reflexivity.
  Qed.
End P.
