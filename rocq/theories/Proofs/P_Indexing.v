(** Proofs for C01. *)
From Coq Require Import List ZArith Lia Bool.
From Verif.Lib Require Import Base JaxIndex Scalar.
From Verif.Model Require Import Operations.
From Verif.Spec Require Import IndexSpec.
From Verif.Proofs Require Import Core.
Import ListNotations.
Open Scope nat_scope.

Section P.
  Context {A : Type}.
  Implicit Types m u r : list (list A).

  Lemma norm_start_window start T size :
    size <= T -> window_start start T size (norm_start start T size).
  Proof.
    intros H. unfold window_start, norm_start.
    destruct (start <? 0)%Z eqn:E; lia.
  Qed.

  Lemma window_start_unique start T size w1 w2 :
    size <= T -> window_start start T size w1 -> window_start start T size w2 -> w1 = w2.
  Proof. unfold window_start. lia. Qed.

  Lemma slice_lemma n T m start size :
    rect n T m -> size <= T ->
    exists s, dynamic_slice m start size = Ok s /\ rect n size s /\
      exists w, window_start start T size w /\
      forall i t, i < n -> t < size -> at2 s i t = at2 m i (w + t).
  Proof.
    intros R H. destruct (dynamic_slice_total n T m start size R H) as [s Hs].
    exists s. destruct (dynamic_slice_Ok _ _ _ _ _ _ R Hs) as [R' H'].
    split; auto. split; auto. exists (norm_start start T size).
    split; auto. apply norm_start_window; auto.
  Qed.

  Lemma index_lemma n T m k :
    rect n T m -> 0 < T ->
    exists c, dynamic_index m k = Ok c /\ length c = n /\
      exists w, window_start k T 1 w /\ forall i, i < n -> nth_error c i = at2 m i w.
  Proof.
    intros R H. destruct (dynamic_index_total n T m k R H) as [c Hc].
    exists c. destruct (dynamic_index_Ok _ _ _ _ _ R Hc) as [L H'].
    split; auto. split; auto. exists (norm_start k T 1). split; auto.
    apply norm_start_window; auto.
  Qed.

  Lemma slice_too_big n T m start size :
    rect n T m -> 0 < n -> T < size -> dynamic_slice m start size = Err TypeError.
  Proof.
    intros [R1 R2] Hn H. destruct m as [|r m]; simpl in R1; [lia|].
    unfold dynamic_slice; simpl. unfold dyn_slice at 1.
    rewrite (R2 r) by now left.
    destruct (Nat.leb_spec size T); [lia | reflexivity].
  Qed.

  Lemma write_lemma n T m u istart ustart size :
    rect n T m -> rect n T u -> size <= T ->
    exists r, update_by_slice_in_dim m u istart (Some ustart) (Some size) = Ok r /\
      rect n T r /\
      exists wi wu, window_start istart T size wi /\ window_start ustart T size wu /\
      forall i t, i < n ->
        at2 r i t = if (wi <=? t) && (t <? wi + size) then at2 u i (wu + (t - wi))
                    else at2 m i t.
  Proof.
    intros [R1 R2] [Q1 Q2] HT.
    assert (TT : exists r, update_by_slice_in_dim m u istart (Some ustart) (Some size) = Ok r).
    { unfold update_by_slice_in_dim. apply update_rows_total; [lia|].
      intros i row ur Hr Hu. unfold update_row.
      destruct (dyn_slice_total ustart size ur) as [w Hw].
      { rewrite (Q2 ur) by (eapply nth_error_In; eauto). auto. }
      rewrite Hw; simpl. apply dyn_update_total.
      apply dyn_slice_Ok in Hw as (_ & Lw & _).
      rewrite (R2 row) by (eapply nth_error_In; eauto). lia. }
    destruct TT as [r H]. exists r. split; auto.
    unfold update_by_slice_in_dim in H.
    apply update_rows_Ok in H as (L1 & L2 & H).
    assert (K : forall i row, nth_error m i = Some row ->
              exists ur w row', nth_error u i = Some ur /\ nth_error r i = Some row' /\
              length w = size /\ length row = T /\
              (forall j, j < size -> nth_error w j = nth_error ur (norm_start ustart T size + j)) /\
              row' = splice (norm_start istart T size) w row).
    { intros i row Hr. specialize (H i row Hr).
      destruct (nth_error_lt_Some u i) as [ur Hur].
      { apply nth_error_Some_lt in Hr; lia. }
      rewrite Hur in H. destruct H as (row' & Hu & Hn).
      unfold update_row in Hu. apply bind_Ok in Hu as (w & Hw & Hu).
      apply dyn_slice_Ok in Hw as (_ & Lw & Hw).
      apply dyn_update_Ok in Hu as [_ Hu].
      assert (length row = T) by (apply R2; eapply nth_error_In; eauto).
      assert (length ur = T) by (apply Q2; eapply nth_error_In; eauto).
      rewrite H, Lw in Hu. rewrite H0 in Hw. exists ur, w, row'. auto 10. }
    pose proof (norm_start_fit istart T size HT) as Fit.
    split.
    - split; [congruence|]. intros r' Hr'. apply In_nth_error in Hr' as [i Hi].
      destruct (nth_error_lt_Some m i) as [row Hrow].
      { apply nth_error_Some_lt in Hi; lia. }
      destruct (K i row Hrow) as (ur & w & row' & _ & E & Lw & Lr & _ & E').
      rewrite Hi in E. inversion E as [E0]. rewrite E', splice_length; lia.
    - exists (norm_start istart T size), (norm_start ustart T size).
      split; [apply norm_start_window; auto|]. split; [apply norm_start_window; auto|].
      intros i t Hi. destruct (nth_error_lt_Some m i) as [row Hrow]; [lia|].
      destruct (K i row Hrow) as (ur & w & row' & E1 & E2 & Lw & Lr & Hw & E3).
      unfold at2. rewrite E2, Hrow, E1, E3.
      rewrite nth_error_splice by lia. rewrite Lw.
      destruct (Nat.leb_spec (norm_start istart T size) t); simpl; auto.
      destruct (Nat.ltb_spec t (norm_start istart T size + size)); auto.
      rewrite Hw by lia. reflexivity.
  Qed.

  Lemma read_after_write_lemma n T m u istart ustart size r s :
    rect n T m -> rect n T u -> size <= T ->
    update_by_slice_in_dim m u istart (Some ustart) (Some size) = Ok r ->
    dynamic_slice r istart size = Ok s ->
    dynamic_slice u ustart size = Ok s.
  Proof.
    intros R Q HT H Hs.
    destruct (write_lemma n T m u istart ustart size R Q HT)
      as (r' & Hr & Rr & wi & wu & Wi & Wu & Hw).
    assert (r' = r) as -> by congruence.
    destruct (slice_lemma n T u ustart size Q HT) as (s' & Hs' & Rs' & w' & W' & Hw').
    assert (w' = wu) as -> by (eapply window_start_unique; eauto).
    destruct (slice_lemma n T r istart size Rr HT) as (s2 & Hs2 & Rs2 & w2 & W2 & Hw2).
    assert (w2 = wi) as -> by (eapply window_start_unique; eauto).
    assert (s2 = s) as -> by congruence.
    rewrite Hs'. f_equal. apply (rect_ext n size); auto.
    intros i t Hi Ht. rewrite Hw', Hw2, Hw by auto.
    destruct (Nat.leb_spec wi (wi + t)); [|lia].
    destruct (Nat.ltb_spec (wi + t) (wi + size)); [|lia]. simpl.
    f_equal. lia.
  Qed.
End P.
