(** Merging actor outputs (C31). *)
From Coq Require Import List ZArith Lia Bool Permutation.
From Verif.Lib Require Import Base JaxIndex Scalar.
From Verif.Model Require Import State Dynamics BaseEnv Geometry Discretizer Actor PlanningEnv.
From Verif.Spec Require Import StateSpec PlanSpec.
Import ListNotations.

Section Merge.
  Context {S : Scalar} {X : Type}.

  Definition dims_eq (x y : act) : Prop := length (a_data x) = length (a_data y).

  Lemma same_dims_iff x y : same_dims x y = true <-> Forall2 dims_eq x y.
  Proof.
    unfold same_dims. rewrite andb_true_iff, Nat.eqb_eq. split.
    - intros [L H]. revert y L H. induction x as [|a x IH]; intros [|b y] L H; simpl in *;
        try discriminate; constructor.
      + apply andb_true_iff in H as [H _]. now apply Nat.eqb_eq.
      + apply andb_true_iff in H as [_ H]. apply IH; auto.
    - induction 1; simpl; auto. destruct IHForall2 as [L H'].
      split; [now f_equal|]. rewrite H', andb_true_r. now apply Nat.eqb_eq.
  Qed.

  Lemma dims_refl x : Forall2 dims_eq x x.
  Proof. induction x; constructor; auto. reflexivity. Qed.
  Lemma dims_sym x y : Forall2 dims_eq x y -> Forall2 dims_eq y x.
  Proof. induction 1; constructor; auto. unfold dims_eq in *; congruence. Qed.
  Lemma dims_trans x y z : Forall2 dims_eq x y -> Forall2 dims_eq y z -> Forall2 dims_eq x z.
  Proof.
    intros H; revert z; induction H; intros z H'; inversion H'; subst; constructor; auto.
    unfold dims_eq in *; congruence.
  Qed.

  Lemma where_Ok mask x y m :
    where_actions mask x y = Ok m <->
    length mask = length x /\ Forall2 dims_eq x y /\
    m = map3 (fun (m : bool) a b => if m then a else b) mask x y.
  Proof.
    unfold where_actions, guard.
    destruct (length mask =? length x) eqn:E; simpl.
    - apply Nat.eqb_eq in E. destruct (same_dims x y) eqn:D; simpl.
      + apply same_dims_iff in D. split; [intros [= <-]; auto | intros (_ & _ & ->); auto].
      + split; [discriminate|]. intros (_ & H & _). apply same_dims_iff in H. congruence.
    - apply Nat.eqb_neq in E. split; [discriminate|]. intros (H & _). congruence.
  Qed.

  Lemma where_dims mask x y m :
    where_actions mask x y = Ok m -> Forall2 dims_eq m y /\ length m = length y.
  Proof.
    intros H. apply where_Ok in H as (L & D & ->).
    assert (G : Forall2 dims_eq (map3 (fun (m : bool) a b => if m then a else b) mask x y) y).
    { revert mask L. induction D; intros [|b mask] L; simpl in *; try discriminate; constructor.
      - destruct b; auto. reflexivity.
      - apply IHD. now injection L. }
    split; auto. eapply Forall2_len; eauto.
  Qed.

  Lemma where_nth mask x y m i :
    where_actions mask x y = Ok m ->
    (nth_error mask i = Some true -> nth_error m i = nth_error x i) /\
    (nth_error mask i <> Some true -> nth_error m i = nth_error y i).
  Proof.
    intros H. apply where_Ok in H as (L & D & ->). apply Forall2_len in D.
    rewrite nth_error_map3. split; intros Hi.
    - rewrite Hi. pose proof (nth_error_Some_lt _ _ _ Hi).
      destruct (nth_error_lt_Some x i) as [a ->]; [lia|].
      destruct (nth_error_lt_Some y i) as [b ->]; [lia|]. reflexivity.
    - destruct (nth_error mask i) as [[|]|] eqn:E.
      + congruence.
      + pose proof (nth_error_Some_lt _ _ _ E).
        destruct (nth_error_lt_Some x i) as [a ->]; [lia|].
        destruct (nth_error_lt_Some y i) as [b ->]; [lia|]. reflexivity.
      + apply nth_error_None in E. symmetry. apply nth_error_None. lia.
  Qed.

  Definition mfold (rest : list (output X)) (acc : res (list act)) :=
    fold_left (fun acc o' =>
      let* action := acc in where_actions (o_controlled o') (o_action o') action) rest acc.

  Lemma mfold_err rest e : mfold rest (Err e) = Err e.
  Proof. induction rest; simpl; auto. Qed.

  Lemma fits_dims a b (o : output X) : Forall2 dims_eq a b -> fits a o -> fits b o.
  Proof.
    intros D [L F]. split.
    - rewrite L. eapply Forall2_len; eauto.
    - eapply dims_trans; eauto.
  Qed.

  Lemma mfold_Ok_iff rest a :
    (exists m, mfold rest (Ok a) = Ok m) <-> Forall (fits a) rest.
  Proof.
    revert a. induction rest as [|o rest IH]; intros a; simpl.
    - split; [constructor|]. eauto.
    - destruct (where_actions (o_controlled o) (o_action o) a) as [b|e] eqn:W.
      + apply where_dims in W as D. apply where_Ok in W as (L & D' & _).
        change (fold_left _ rest (Ok b)) with (mfold rest (Ok b)). rewrite IH.
        split; intros H.
        * constructor.
          { split; auto. rewrite L. eapply Forall2_len; eauto. }
          { eapply Forall_impl; [|exact H]. intros o'. apply fits_dims. apply D. }
        * inversion H; subst. eapply Forall_impl; [|eassumption].
          intros o'. apply fits_dims. apply dims_sym, D.
      + change (fold_left _ rest (Err e)) with (mfold rest (Err e)). rewrite mfold_err.
        split; [intros (m & ?); discriminate|].
        intros H. inversion H as [|? ? [L F] _]; subst.
        assert (where_actions (o_controlled o) (o_action o) a
                = Ok (map3 (fun (m : bool) a b => if m then a else b)
                        (o_controlled o) (o_action o) a)).
        { apply where_Ok. split; auto. rewrite L. symmetry. eapply Forall2_len; eauto. }
        congruence.
  Qed.

  Lemma mfold_spec rest a m i :
    mfold rest (Ok a) = Ok m ->
    length m = length a /\
    (forall o, last_claim rest i o -> nth_error m i = nth_error (o_action o) i) /\
    (unclaimed rest i -> nth_error m i = nth_error a i).
  Proof.
    revert a. induction rest as [|o rest IH]; intros a H.
    - simpl in H. injection H as <-. split; auto. split; auto.
      intros o (b & c & E & _). destruct b; discriminate.
    - simpl in H. destruct (where_actions (o_controlled o) (o_action o) a) as [b|e] eqn:W.
      2:{ change (mfold rest (Err e) = Ok m) in H. rewrite mfold_err in H. discriminate. }
      change (mfold rest (Ok b) = Ok m) in H.
      destruct (IH b H) as (L & C & U). pose proof (where_dims _ _ _ _ W) as [_ Lb].
      destruct (where_nth _ _ _ _ i W) as [W1 W2].
      split; [congruence|]. split.
      + intros o' (bf & af & E & Cl & Af). destruct bf as [|o1 bf]; simpl in E; injection E as -> ->.
        * rewrite U by exact Af. apply W1. exact Cl.
        * apply C. exists bf, af. auto.
      + intros Un. rewrite U by (intros o' Ho'; apply Un; now right).
        apply W2. apply Un. now left.
  Qed.

  Lemma claims_dec (o : output X) i : {claims o i} + {~ claims o i}.
  Proof.
    unfold claims. destruct (nth_error (o_controlled o) i) as [[|]|]; [left|right|right]; congruence.
  Qed.

  Lemma claim_cases (outs : list (output X)) i :
    (exists o, last_claim outs i o) \/ unclaimed outs i.
  Proof.
    induction outs as [|o outs [[o' (b & a & E & C & A)]|U]].
    - right. intros o [].
    - left. exists o', (o :: b), a. subst. auto.
    - destruct (claims_dec o i) as [C|C].
      + left. exists o, [], outs. auto.
      + right. intros o' [<-|H]; auto.
  Qed.

  Lemma merge_Ok_iff o (rest : list (output X)) :
    (exists m, merge_actions (o :: rest) = Ok m) <-> Forall (fits (o_action o)) rest.
  Proof. apply mfold_Ok_iff. Qed.

  Lemma merge_spec o (rest : list (output X)) m :
    merge_actions (o :: rest) = Ok m ->
    length m = length (o_action o) /\
    forall i,
      (forall o', last_claim rest i o' -> nth_error m i = nth_error (o_action o') i) /\
      (unclaimed rest i -> nth_error m i = nth_error (o_action o) i).
  Proof.
    intros H. split.
    - eapply (mfold_spec rest _ _ 0); eauto.
    - intros i. eapply mfold_spec; eauto.
  Qed.

  Lemma last_claim_In (outs : list (output X)) i o : last_claim outs i o -> In o outs /\ claims o i.
  Proof.
    intros (b & a & -> & C & _). split; auto. apply in_or_app. right. now left.
  Qed.

  Lemma merge_permutation o (rest rest' : list (output X)) :
    Permutation rest rest' -> disjoint_claims rest ->
    forall m, merge_actions (o :: rest) = Ok m -> merge_actions (o :: rest') = Ok m.
  Proof.
    intros Pm D m H.
    destruct (proj2 (merge_Ok_iff o rest')) as [m' H'].
    { apply (Permutation_Forall Pm). apply merge_Ok_iff. eauto. }
    rewrite H'. f_equal.
    destruct (merge_spec _ _ _ H) as [L Sp]. destruct (merge_spec _ _ _ H') as [L' Sp'].
    apply nth_error_ext_eq. intros i.
    destruct (Sp i) as [S1 S2]. destruct (Sp' i) as [S1' S2'].
    destruct (claim_cases rest i) as [[o1 C]|U].
    - destruct (claim_cases rest' i) as [[o2 C']|U'].
      + rewrite (S1 _ C), (S1' _ C').
        apply last_claim_In in C as [I1 C1]. apply last_claim_In in C' as [I2 C2].
        assert (o1 = o2) as ->; auto.
        apply (D i); auto. eapply Permutation_in; [symmetry; eauto|auto].
      + exfalso. apply last_claim_In in C as [I1 C1]. apply (U' o1); auto.
        eapply Permutation_in; eauto.
    - rewrite (S2 U), S2'; auto.
      intros o' Ho'. apply U. eapply Permutation_in; [symmetry; eauto|auto].
  Qed.
End Merge.
