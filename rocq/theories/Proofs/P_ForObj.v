(** Proofs for C58: what Observation.for_obj selects. *)
From Coq Require Import List ZArith Bool Lia.
From Verif.Lib Require Import Base JaxIndex Scalar.
From Verif.Model Require Import Operations State Pose Observation.
From Verif.Proofs Require Import Core.
Import ListNotations.
Local Open Scope nat_scope.

Section ForObj.
  Context {S : Scalar}.

  Lemma in_range_start (idx k : nat) : idx < k -> norm_start (Z.of_nat idx) k 1 = idx.
  Proof. intros H. unfold norm_start. destruct (Z.of_nat idx <? 0)%Z eqn:E; [apply Z.ltb_lt in E; lia|]. lia. Qed.

  (** Without batch dimensions: all observers, one time step. *)
  Lemma for_obj_unbatched n k (o : observation) (idx : nat) trs :
    (forall v, In v o -> rect n k (v_traj v)) -> idx < k ->
    for_obj_trajectory o (Z.of_nat idx) = Ok trs ->
    length trs = length o /\
    forall i v tr, nth_error o i = Some v -> nth_error trs i = Some tr ->
      rect n 1 tr /\ forall j, j < n -> at2 tr j 0 = at2 (v_traj v) j idx.
  Proof.
    intros R Hk H. unfold for_obj_trajectory in H. split; [exact (mapM_length _ _ _ H)|].
    intros i v tr Hv Ht. destruct (mapM_nth _ _ _ _ _ H Hv) as (b & Hb & Hn).
    rewrite Ht in Hn. injection Hn as <-.
    destruct (dynamic_slice_Ok n k _ _ _ _ (R v (nth_error_In _ _ Hv)) Hb) as [R1 A].
    split; [exact R1|]. intros j Hj. rewrite A by lia. rewrite (in_range_start idx k Hk). f_equal. lia.
  Qed.

  Lemma for_obj_unbatched_total n k (o : observation) (idx : nat) :
    (forall v, In v o -> rect n k (v_traj v)) -> 1 <= k ->
    exists trs, for_obj_trajectory o (Z.of_nat idx) = Ok trs.
  Proof. intros R Hk. apply mapM_total. intros v Hv. eapply dynamic_slice_total; eauto. Qed.

  (** With one batch dimension: one scenario with all its observers. *)
  Lemma for_obj_batch (os : list observation) (idx : nat) : idx < length os ->
    exists o, nth_error os idx = Some o /\ for_obj_batched os (Z.of_nat idx) = Ok [o].
  Proof.
    intros H. destruct (nth_error_lt_Some os idx H) as [o Ho]. exists o. split; auto.
    unfold for_obj_batched. destruct (dyn_slice_total (Z.of_nat idx) 1 os) as [r E]; [lia|].
    destruct (dyn_slice_Ok _ _ _ _ E) as (_ & L & A). rewrite E.
    specialize (A 0 ltac:(lia)). rewrite (in_range_start idx _ H), Nat.add_0_r, Ho in A.
    destruct r as [|x [|? ?]]; try discriminate. injection A as ->. reflexivity.
  Qed.
End ForObj.
