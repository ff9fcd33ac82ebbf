(** Index semantics of jax.lax.dynamic_slice / dynamic_update_slice along one
    axis (jax library behaviour, part of the trusted base): a negative start has
    the axis size added once; the result is then clamped so that the window fits;
    a window larger than the axis is a TypeError. *)
From Coq Require Import List ZArith Lia Bool.
From Verif.Lib Require Import Base.
Import ListNotations.

(** Effective start of a window of [size] on an axis of [d] entries. *)
Definition norm_start (start : Z) (d size : nat) : nat :=
  let s := if (start <? 0)%Z then (start + Z.of_nat d)%Z else start in
  Z.to_nat (Z.min (Z.max 0 s) (Z.of_nat d - Z.of_nat size)).

(** jax.lax.dynamic_slice_in_dim on one row. *)
Definition dyn_slice {A} (start : Z) (size : nat) (l : list A) : res (list A) :=
  if (size <=? length l)%nat
  then Ok (firstn size (skipn (norm_start start (length l) size) l))
  else Err TypeError.

(** jax.lax.dynamic_index_in_dim(keepdims=False): a window of size 1, squeezed. *)
Definition dyn_index {A} (start : Z) (l : list A) : res A :=
  match nth_error l (norm_start start (length l) 1) with
  | Some a => Ok a
  | None => Err TypeError
  end.

(** Overwrite [l] from position [k] with [u]. *)
Definition splice {A} (k : nat) (u l : list A) : list A :=
  firstn k l ++ u ++ skipn (k + length u) l.

(** jax.lax.dynamic_update_slice_in_dim on one row. *)
Definition dyn_update {A} (start : Z) (u l : list A) : res (list A) :=
  if (length u <=? length l)%nat
  then Ok (splice (norm_start start (length l) (length u)) u l)
  else Err TypeError.

(* ------------------------------------------------------------------ *)
(** Laws *)

Lemma norm_start_fit start d size :
  size <= d -> norm_start start d size + size <= d.
Proof. unfold norm_start. intros. destruct (start <? 0)%Z eqn:E; lia. Qed.

Lemma norm_start_in (start : Z) d size :
  (0 <= start)%Z -> (start + Z.of_nat size <= Z.of_nat d)%Z ->
  norm_start start d size = Z.to_nat start.
Proof. unfold norm_start. intros. destruct (start <? 0)%Z eqn:E; lia. Qed.

Lemma norm_start_of_nat (t : nat) d size :
  t + size <= d -> norm_start (Z.of_nat t) d size = t.
Proof. intros. rewrite norm_start_in; lia. Qed.

Lemma norm_start_above (start : Z) d size :
  (0 <= start)%Z -> (Z.of_nat d - Z.of_nat size <= start)%Z -> size <= d ->
  norm_start start d size = d - size.
Proof. unfold norm_start. intros. destruct (start <? 0)%Z eqn:E; lia. Qed.

Lemma nth_error_firstn_lt {A} (l : list A) n i :
  i < n -> nth_error (firstn n l) i = nth_error l i.
Proof.
  revert n i; induction l as [|a l IH]; intros [|n] [|i] H; simpl; auto; try lia.
  apply IH; lia.
Qed.

Lemma nth_error_firstn_ge {A} (l : list A) n i :
  n <= i -> nth_error (firstn n l) i = None.
Proof.
  intros. apply nth_error_None. pose proof (firstn_le_length n l). lia.
Qed.

Lemma nth_error_skipn_add {A} (l : list A) n i :
  nth_error (skipn n l) i = nth_error l (n + i).
Proof.
  revert l; induction n as [|n IH]; intros [|a l]; simpl; auto.
  destruct i; reflexivity.
Qed.

Lemma dyn_slice_Ok {A} start size (l s : list A) :
  dyn_slice start size l = Ok s ->
  size <= length l /\ length s = size /\
  (forall i, i < size ->
     nth_error s i = nth_error l (norm_start start (length l) size + i)).
Proof.
  unfold dyn_slice. destruct (size <=? length l) eqn:E; [|discriminate].
  apply Nat.leb_le in E. intros H; inversion H; subst; clear H.
  split; auto. split.
  - rewrite firstn_length, skipn_length.
    pose proof (norm_start_fit start (length l) size E). lia.
  - intros i Hi. rewrite nth_error_firstn_lt by auto. apply nth_error_skipn_add.
Qed.

Lemma dyn_slice_total {A} start size (l : list A) :
  size <= length l -> exists s, dyn_slice start size l = Ok s.
Proof.
  unfold dyn_slice. intros H. apply Nat.leb_le in H. rewrite H. eauto.
Qed.

Lemma dyn_index_Ok {A} start (l : list A) a :
  dyn_index start l = Ok a ->
  0 < length l /\ nth_error l (norm_start start (length l) 1) = Some a.
Proof.
  unfold dyn_index. destruct (nth_error l _) eqn:E; [|discriminate].
  intros H; inversion H; subst. split; auto.
  apply nth_error_Some_lt in E; lia.
Qed.

Lemma dyn_index_total {A} start (l : list A) :
  0 < length l -> exists a, dyn_index start l = Ok a.
Proof.
  intros H. unfold dyn_index.
  destruct (nth_error_lt_Some l (norm_start start (length l) 1)) as [a Ha].
  - pose proof (norm_start_fit start (length l) 1). lia.
  - rewrite Ha; eauto.
Qed.

Lemma splice_length {A} k (u l : list A) :
  k + length u <= length l -> length (splice k u l) = length l.
Proof.
  intros. unfold splice. rewrite !app_length, firstn_length, skipn_length. lia.
Qed.

Lemma nth_error_splice {A} k (u l : list A) i :
  k + length u <= length l ->
  nth_error (splice k u l) i
  = if (k <=? i) && (i <? k + length u) then nth_error u (i - k)
    else nth_error l i.
Proof.
  intros H. unfold splice.
  destruct (Nat.leb_spec k i) as [H1|H1]; simpl.
  - rewrite nth_error_app2 by (rewrite firstn_length; lia).
    rewrite firstn_length, Nat.min_l by lia.
    destruct (Nat.ltb_spec i (k + length u)) as [H2|H2].
    + rewrite nth_error_app1 by lia. reflexivity.
    + rewrite nth_error_app2 by lia.
      rewrite nth_error_skipn_add. f_equal. lia.
  - rewrite nth_error_app1 by (rewrite firstn_length; lia).
    apply nth_error_firstn_lt; auto.
Qed.

Lemma dyn_update_Ok {A} start (u l r : list A) :
  dyn_update start u l = Ok r ->
  length u <= length l /\
  r = splice (norm_start start (length l) (length u)) u l.
Proof.
  unfold dyn_update. destruct (length u <=? length l) eqn:E; [|discriminate].
  apply Nat.leb_le in E. intros H; inversion H; auto.
Qed.

Lemma dyn_update_total {A} start (u l : list A) :
  length u <= length l -> exists r, dyn_update start u l = Ok r.
Proof. unfold dyn_update. intros H. apply Nat.leb_le in H. rewrite H. eauto. Qed.
