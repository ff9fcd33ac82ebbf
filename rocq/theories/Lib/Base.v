(** Results with exceptions, list combinators and their laws. *)
From Coq Require Import List ZArith Lia Bool.
Import ListNotations.

(** Exceptions raised by the modelled code. *)
Inductive exn : Type :=
| ValueError | TypeError | AssertionError | NotImplementedError
| KeyError | IndexError | StopIteration
| EpisodeAlreadyFinishedError | SimulationNotInitializedError | AttributeError.

Inductive res (A : Type) : Type :=
| Ok (a : A)
| Err (e : exn).
Arguments Ok {A} a.
Arguments Err {A} e.

Definition bind {A B} (r : res A) (f : A -> res B) : res B :=
  match r with Ok a => f a | Err e => Err e end.

Notation "'let*' x := r 'in' k" := (bind r (fun x => k))
  (at level 200, x name, r at level 100, k at level 200, right associativity).

(** [assert b e k] raises [e] unless [b]. *)
Definition guard (b : bool) (e : exn) : res unit := if b then Ok tt else Err e.

Definition rmap {A B} (f : A -> B) (r : res A) : res B :=
  match r with Ok a => Ok (f a) | Err e => Err e end.

Fixpoint mapM {A B} (f : A -> res B) (l : list A) : res (list B) :=
  match l with
  | [] => Ok []
  | a :: l' => let* b := f a in let* bs := mapM f l' in Ok (b :: bs)
  end.

(** Pointwise combination of equally long arrays. *)
Fixpoint map2 {A B C} (f : A -> B -> C) (l : list A) (m : list B) : list C :=
  match l, m with
  | a :: l', b :: m' => f a b :: map2 f l' m'
  | _, _ => []
  end.

Fixpoint map3 {A B C D} (f : A -> B -> C -> D) (l : list A) (m : list B)
  (n : list C) : list D :=
  match l, m, n with
  | a :: l', b :: m', c :: n' => f a b c :: map3 f l' m' n'
  | _, _, _ => []
  end.

Fixpoint map4 {A B C D E} (f : A -> B -> C -> D -> E) (l : list A) (m : list B)
  (n : list C) (o : list D) : list E :=
  match l, m, n, o with
  | a :: l', b :: m', c :: n', d :: o' => f a b c d :: map4 f l' m' n' o'
  | _, _, _, _ => []
  end.

(** [mapi_from k f l] applies [f] to index and element. *)
Fixpoint mapi_from {A B} (k : nat) (f : nat -> A -> B) (l : list A) : list B :=
  match l with
  | [] => []
  | a :: l' => f k a :: mapi_from (S k) f l'
  end.
Definition mapi {A B} (f : nat -> A -> B) (l : list A) : list B := mapi_from 0 f l.

(** Entry (i, t) of a matrix given as a list of rows. *)
Definition at2 {A} (m : list (list A)) (i t : nat) : option A :=
  match nth_error m i with Some r => nth_error r t | None => None end.

(** An n x T matrix. *)
Definition rect {A} (n T : nat) (m : list (list A)) : Prop :=
  length m = n /\ (forall r, In r m -> length r = T).

Definition rectb {A} (n T : nat) (m : list (list A)) : bool :=
  (length m =? n)%nat && forallb (fun r => (length r =? T)%nat) m.

(* ------------------------------------------------------------------ *)
(** Laws *)

Lemma bind_Ok {A B} (r : res A) (f : A -> res B) b :
  bind r f = Ok b -> exists a, r = Ok a /\ f a = Ok b.
Proof. destruct r; simpl; intros H; [eauto | discriminate]. Qed.

Lemma guard_Ok b e u : guard b e = Ok u -> b = true.
Proof. destruct b; simpl; congruence. Qed.

Lemma map2_length {A B C} (f : A -> B -> C) l m :
  length (map2 f l m) = Nat.min (length l) (length m).
Proof.
  revert m; induction l as [|a l IH]; intros [|b m]; simpl; auto.
Qed.

Lemma map3_length {A B C D} (f : A -> B -> C -> D) l m n :
  length (map3 f l m n) = Nat.min (length l) (Nat.min (length m) (length n)).
Proof.
  revert m n; induction l as [|a l IH]; intros [|b m] [|c n]; simpl; auto.
Qed.

Lemma map4_length {A B C D E} (f : A -> B -> C -> D -> E) l m n o :
  length (map4 f l m n o)
  = Nat.min (length l) (Nat.min (length m) (Nat.min (length n) (length o))).
Proof.
  revert m n o; induction l as [|a l IH]; intros [|b m] [|c n] [|d o]; simpl; auto.
Qed.

Lemma nth_error_map2 {A B C} (f : A -> B -> C) l m i :
  nth_error (map2 f l m) i
  = match nth_error l i, nth_error m i with
    | Some a, Some b => Some (f a b)
    | _, _ => None
    end.
Proof.
  revert m i; induction l as [|a l IH]; intros [|b m] [|i]; simpl; auto.
  - destruct (nth_error l i); reflexivity.
Qed.

Lemma nth_error_map3 {A B C D} (f : A -> B -> C -> D) l m n i :
  nth_error (map3 f l m n) i
  = match nth_error l i, nth_error m i, nth_error n i with
    | Some a, Some b, Some c => Some (f a b c)
    | _, _, _ => None
    end.
Proof.
  revert m n i; induction l as [|a l IH]; intros [|b m] [|c n] [|i]; simpl; auto;
    try (destruct (nth_error l i); auto); try (destruct (nth_error m i); auto).
Qed.

Lemma nth_error_map4 {A B C D E} (f : A -> B -> C -> D -> E) l m n o i :
  nth_error (map4 f l m n o) i
  = match nth_error l i, nth_error m i, nth_error n i, nth_error o i with
    | Some a, Some b, Some c, Some d => Some (f a b c d)
    | _, _, _, _ => None
    end.
Proof.
  revert m n o i; induction l as [|a l IH]; intros [|b m] [|c n] [|d o] [|i];
    simpl; auto;
    try (destruct (nth_error l i); auto); try (destruct (nth_error m i); auto);
    try (destruct (nth_error n i); auto).
Qed.

Lemma nth_error_mapi_from {A B} (f : nat -> A -> B) l k i :
  nth_error (mapi_from k f l) i = option_map (f (k + i)) (nth_error l i).
Proof.
  revert k i; induction l as [|a l IH]; intros k [|i]; simpl; auto.
  - now rewrite Nat.add_0_r.
  - rewrite IH. replace (S k + i) with (k + S i) by lia. reflexivity.
Qed.

Lemma nth_error_mapi {A B} (f : nat -> A -> B) l i :
  nth_error (mapi f l) i = option_map (f i) (nth_error l i).
Proof. apply nth_error_mapi_from. Qed.

Lemma mapi_from_length {A B} (f : nat -> A -> B) l k :
  length (mapi_from k f l) = length l.
Proof. revert k; induction l; intros; simpl; auto. Qed.

Lemma mapi_length {A B} (f : nat -> A -> B) l : length (mapi f l) = length l.
Proof. apply mapi_from_length. Qed.

Lemma mapM_length {A B} (f : A -> res B) l bs :
  mapM f l = Ok bs -> length bs = length l.
Proof.
  revert bs; induction l as [|a l IH]; simpl; intros bs H.
  - inversion H; reflexivity.
  - apply bind_Ok in H as (b & Hb & H). apply bind_Ok in H as (bs' & Hbs & H).
    inversion H; subst; simpl. f_equal; eauto.
Qed.

Lemma mapM_nth {A B} (f : A -> res B) l bs i a :
  mapM f l = Ok bs -> nth_error l i = Some a ->
  exists b, f a = Ok b /\ nth_error bs i = Some b.
Proof.
  revert bs i; induction l as [|a' l IH]; simpl; intros bs i H Hi.
  - destruct i; discriminate.
  - apply bind_Ok in H as (b & Hb & H). apply bind_Ok in H as (bs' & Hbs & H).
    inversion H; subst. destruct i as [|i]; simpl in *.
    + inversion Hi; subst. eauto.
    + eauto.
Qed.

Lemma mapM_total {A B} (f : A -> res B) l :
  (forall a, In a l -> exists b, f a = Ok b) -> exists bs, mapM f l = Ok bs.
Proof.
  induction l as [|a l IH]; intros H; simpl.
  - eauto.
  - destruct (H a) as [b Hb]; [now left|].
    destruct IH as [bs Hbs]; [intros; apply H; now right|].
    rewrite Hb; simpl. rewrite Hbs; simpl. eauto.
Qed.

Lemma mapM_ext_Ok {A B} (f : A -> res B) (g : A -> B) l :
  (forall a, In a l -> f a = Ok (g a)) -> mapM f l = Ok (map g l).
Proof.
  induction l as [|a l IH]; intros H; simpl; auto.
  rewrite (H a) by now left. simpl. rewrite IH by (intros; apply H; now right).
  reflexivity.
Qed.

Lemma nth_error_Some_lt {A} (l : list A) i a :
  nth_error l i = Some a -> i < length l.
Proof. intros H; apply nth_error_Some; congruence. Qed.

Lemma nth_error_lt_Some {A} (l : list A) i :
  i < length l -> exists a, nth_error l i = Some a.
Proof.
  intros H. destruct (nth_error l i) eqn:E; eauto.
  apply nth_error_None in E; lia.
Qed.

Lemma nth_error_ext_eq {A} (l m : list A) :
  (forall i, nth_error l i = nth_error m i) -> l = m.
Proof.
  revert m; induction l as [|a l IH]; intros [|b m] H; auto.
  - specialize (H 0); discriminate.
  - specialize (H 0); discriminate.
  - f_equal.
    + specialize (H 0); simpl in H; congruence.
    + apply IH; intros i; exact (H (S i)).
Qed.

Lemma rect_row {A} n T (m : list (list A)) i r :
  rect n T m -> nth_error m i = Some r -> length r = T.
Proof. intros [_ H] Hi. apply H. eapply nth_error_In; eauto. Qed.

Lemma rect_at2 {A} n T (m : list (list A)) i t :
  rect n T m -> i < n -> t < T -> exists a, at2 m i t = Some a.
Proof.
  intros H Hi Ht. unfold at2.
  destruct (nth_error_lt_Some m i) as [r Hr]; [destruct H; lia|].
  rewrite Hr. apply nth_error_lt_Some. rewrite (rect_row _ _ _ _ _ H Hr); auto.
Qed.

Lemma at2_Some_lt {A} n T (m : list (list A)) i t a :
  rect n T m -> at2 m i t = Some a -> i < n /\ t < T.
Proof.
  intros H. unfold at2. destruct (nth_error m i) as [r|] eqn:E; [|discriminate].
  intros Ht. split.
  - destruct H as [H _]. rewrite <- H. eapply nth_error_Some_lt; eauto.
  - rewrite <- (rect_row _ _ _ _ _ H E). eapply nth_error_Some_lt; eauto.
Qed.

Lemma rect_ext {A} n T (m m' : list (list A)) :
  rect n T m -> rect n T m' ->
  (forall i t, i < n -> t < T -> at2 m i t = at2 m' i t) -> m = m'.
Proof.
  intros H H' E. apply nth_error_ext_eq; intros i.
  destruct (Nat.lt_ge_cases i n) as [Hi|Hi].
  - destruct (nth_error_lt_Some m i) as [r Hr]; [destruct H; lia|].
    destruct (nth_error_lt_Some m' i) as [r' Hr']; [destruct H'; lia|].
    rewrite Hr, Hr'. f_equal. apply nth_error_ext_eq; intros t.
    pose proof (rect_row _ _ _ _ _ H Hr). pose proof (rect_row _ _ _ _ _ H' Hr').
    destruct (Nat.lt_ge_cases t T) as [Ht|Ht].
    + specialize (E i t Hi Ht). unfold at2 in E. now rewrite Hr, Hr' in E.
    + rewrite (proj2 (nth_error_None r t)) by lia.
      now rewrite (proj2 (nth_error_None r' t)) by lia.
  - rewrite (proj2 (nth_error_None m i)) by (destruct H; lia).
    now rewrite (proj2 (nth_error_None m' i)) by (destruct H'; lia).
Qed.

Lemma rectb_spec {A} n T (m : list (list A)) : rectb n T m = true <-> rect n T m.
Proof.
  unfold rectb, rect. rewrite andb_true_iff, Nat.eqb_eq, forallb_forall.
  setoid_rewrite Nat.eqb_eq. reflexivity.
Qed.

Lemma Forall2_len {A B} (P : A -> B -> Prop) l m : Forall2 P l m -> length l = length m.
Proof. induction 1; simpl; auto. Qed.
