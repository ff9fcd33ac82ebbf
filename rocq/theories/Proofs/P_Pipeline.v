(** The data pipeline (C47). *)
From Coq Require Import List Arith ZArith Bool Permutation Lia.
From Verif.Lib Require Import Base.
From Verif.Model Require Import Pipeline.
From Verif.Spec Require Import LoadSpec.
Import ListNotations.
Local Open Scope nat_scope.

(** ** Sharding *)
Lemma classes_permutation {A} (key : A -> nat) (l : list A) n :
  (forall a, In a l -> key a < n) ->
  Permutation (concat (map (fun i => filter (fun a => key a =? i) l) (seq 0 n))) l.
Proof.
  induction l as [|a l IH]; intros H.
  - assert (E : forall s, concat (map (fun i => filter (fun a : A => key a =? i) []) s) = []).
    { induction s; simpl; auto. }
    rewrite E. constructor.
  - assert (Ha : key a < n) by (apply H; now left).
    specialize (IH (fun b Hb => H b (or_intror Hb))).
    transitivity (a :: concat (map (fun i => filter (fun b => key b =? i) l) (seq 0 n))); [|now constructor].
    replace (seq 0 n) with (seq 0 (key a) ++ key a :: seq (S (key a)) (n - S (key a))).
    2:{ transitivity (seq 0 (key a + S (n - S (key a)))); [now rewrite seq_app|f_equal; lia]. }
    rewrite !map_app, !concat_app. cbn [map concat].
    assert (E1 : forall s, ~ In (key a) s ->
       map (fun i => filter (fun b => key b =? i) (a :: l)) s = map (fun i => filter (fun b => key b =? i) l) s).
    { intros s Hs. apply map_ext_in. intros i Hi. cbn [filter].
      destruct (Nat.eqb_spec (key a) i) as [e|]; [subst i; contradiction|reflexivity]. }
    rewrite !E1 by (rewrite in_seq; lia). cbn [filter]. rewrite Nat.eqb_refl. cbn [app].
    symmetry. apply Permutation_middle.
Qed.

Lemma map_snd_combine_seq {A} (l : list A) k : map snd (combine (seq k (length l)) l) = l.
Proof. revert k. induction l as [|a l IH]; intros k; simpl; auto. now rewrite IH. Qed.

Lemma shard_partition {A} (l : list A) n : 1 <= n ->
  Permutation (concat (map (shard l n) (seq 0 n))) l.
Proof.
  intros Hn. unfold shard.
  replace (map (fun i => map snd (filter (fun p => fst p mod n =? i) (combine (seq 0 (length l)) l))) (seq 0 n))
    with (map (map snd) (map (fun i => filter (fun p => fst p mod n =? i) (combine (seq 0 (length l)) l)) (seq 0 n)))
    by now rewrite map_map.
  rewrite <- concat_map.
  transitivity (map snd (combine (seq 0 (length l)) l)); [|now rewrite map_snd_combine_seq].
  apply Permutation_map. apply (classes_permutation (fun p => fst p mod n)).
  intros a _. apply Nat.mod_upper_bound. lia.
Qed.

Lemma combine_seq_nth {A} (m : list A) : forall k j,
  nth_error (combine (seq k (length m)) m) j = option_map (pair (k + j)) (nth_error m j).
Proof.
  induction m as [|x m IH]; intros k [|j]; simpl; auto; [now rewrite Nat.add_0_r|].
  rewrite IH. f_equal. f_equal. lia.
Qed.

(** The i-th shard consists of the elements at positions i, i + n, i + 2 n, ... *)
Lemma shard_In {A} (l : list A) n i a : In a (shard l n i) <->
  exists k, nth_error l k = Some a /\ k mod n = i.
Proof.
  unfold shard. rewrite in_map_iff. split.
  - intros ([k b] & E & H). simpl in E. subst b. apply filter_In in H as [H M]. simpl in M.
    apply Nat.eqb_eq in M. apply In_nth_error in H as [j Hj].
    exists k. split; auto.
    assert (Lj : j < length l).
    { apply nth_error_Some_lt in Hj. rewrite combine_length, seq_length in Hj. lia. }
    pose proof (combine_seq_nth l 0 j) as E. cbn [Nat.add] in E.
    rewrite E in Hj. destruct (nth_error l j) eqn:Ej; [|discriminate]. simpl in Hj. congruence.
  - intros (k & Ek & M). exists (k, a). split; auto. apply filter_In. split; [|now apply Nat.eqb_eq].
    apply (nth_error_In _ k).
    rewrite (combine_seq_nth l 0 k), Ek. reflexivity.
Qed.

(** ** Interleaving *)
Lemma interleaving_perm {A} (ls : list (list A)) out : interleaving ls out -> Permutation out (concat ls).
Proof.
  induction 1 as [ls H|l1 a r l2 out H IH].
  - assert (concat ls = []) as ->; [|constructor].
    induction H as [|l ls -> _ IH]; simpl; auto.
  - rewrite concat_app in *. cbn [concat app] in *.
    transitivity (a :: (concat l1 ++ r ++ concat l2)); [now constructor|]. apply Permutation_middle.
Qed.

Lemma interleaving_one {A} (l out : list A) : interleaving [l] out <-> out = l.
Proof.
  split.
  - revert out. induction l as [|a l IH]; intros out H; inversion H as [ls F E1 E2|l1 b r l2 o H1 E1 E2]; subst.
    + reflexivity.
    + destruct l1 as [|? [|? ?]]; simpl in E1; discriminate.
    + inversion F; discriminate.
    + destruct l1 as [|x l1]; simpl in E1.
      * injection E1 as <- <- ->. rewrite (IH o H1). reflexivity.
      * injection E1 as _ E1. destruct l1; discriminate.
  - intros ->. induction l as [|a l IH].
    + constructor. repeat constructor.
    + apply (inter_take [] a l [] l). exact IH.
Qed.

Lemma interleaving_exists {A} (ls : list (list A)) : interleaving ls (concat ls).
Proof.
  assert (G : forall (done ls : list (list A)), Forall (fun l => l = []) done -> interleaving (done ++ ls) (concat ls)).
  { intros done l0. revert done. induction l0 as [|l l0 IH]; intros done Hd.
    - constructor. now rewrite app_nil_r.
    - cbn [concat]. induction l as [|a l IHl].
      + cbn [app]. replace (done ++ [] :: l0) with ((done ++ [[]]) ++ l0) by (rewrite <- app_assoc; reflexivity).
        apply IH. apply Forall_app. split; auto.
      + cbn [app]. constructor. exact IHl. }
  exact (G [] ls (Forall_nil _)).
Qed.

(** ** Batching *)
Lemma flat_map_concat {A B} (f : A -> list B) (l : list A) : flat_map f l = concat (map f l).
Proof. apply flat_map_concat_map. Qed.

Lemma flat_map_perm {A B} (f : A -> list B) l l' : Permutation l l' -> Permutation (flat_map f l) (flat_map f l').
Proof.
  induction 1; simpl; auto.
  - now apply Permutation_app_head.
  - rewrite !app_assoc. apply Permutation_app_tail, Permutation_app_comm.
  - etransitivity; eauto.
Qed.

Lemma concat_perm {A} (l l' : list (list A)) : Permutation l l' -> Permutation (concat l) (concat l').
Proof.
  induction 1; simpl; auto.
  - now apply Permutation_app_head.
  - rewrite !app_assoc. apply Permutation_app_tail, Permutation_app_comm.
  - etransitivity; eauto.
Qed.

Lemma concat_Forall2_perm {A} (l l' : list (list A)) : Forall2 (@Permutation A) l l' -> Permutation (concat l) (concat l').
Proof. induction 1; simpl; auto. now apply Permutation_app. Qed.

Lemma batches_flat {A} b drop (l : list A) : forall cur, length cur < b ->
  exists rest, concat (batches b drop cur l) ++ rest = cur ++ l /\ length rest < b /\
    (drop = false -> rest = []).
Proof.
  induction l as [|a l IH]; intros cur Hc; cbn [batches].
  - destruct drop.
    + exists cur. rewrite app_nil_r. split; [reflexivity|]. split; [auto|discriminate].
    + exists []. split; [destruct cur; cbn [concat]; now rewrite ?app_nil_r|].
      split; [simpl; lia|auto].
  - destruct (Nat.eqb_spec (length (cur ++ [a])) b) as [E|E].
    + destruct (IH []) as (rest & Er & Lr & Nr); [simpl; rewrite app_length in E; simpl in E; lia|].
      exists rest. cbn [concat]. rewrite <- app_assoc, Er, <- app_assoc. auto.
    + destruct (IH (cur ++ [a])) as (rest & Er & Lr & Nr).
      { rewrite app_length in *. simpl in *. lia. }
      exists rest. rewrite Er, <- app_assoc. auto.
Qed.

Lemma batches_size {A} b drop (l : list A) : forall cur, length cur < b ->
  Forall (fun x => 1 <= length x <= b /\ (drop = true -> length x = b)) (batches b drop cur l).
Proof.
  induction l as [|a l IH]; intros cur Hc; cbn [batches].
  - destruct drop; [constructor|]. destruct cur; constructor; [|constructor].
    split; [simpl in *; lia|discriminate].
  - destruct (Nat.eqb_spec (length (cur ++ [a])) b) as [E|E].
    + constructor; [rewrite E; split; [lia|auto]|].
      apply IH. rewrite app_length in E. simpl in *. lia.
    + apply IH. rewrite app_length in *. simpl in *. lia.
Qed.

Lemma flat_examples_batch {A} (ls : list (list (elem A))) :
  flat_map examples (map Batch ls) = flat_map examples (concat ls).
Proof.
  induction ls as [|l ls IH]; simpl; auto. rewrite flat_map_app, IH. reflexivity.
Qed.

Lemma shape_count {A} dims (e : elem A) : fits_shape dims e -> 1 <= length (examples e) <= prod dims.
Proof.
  revert e. induction dims as [|d dims IH]; intros e H; inversion H; subst.
  - simpl. lia.
  - cbn [examples prod fold_right]. fold (prod dims).
    assert (G : forall l, Forall (fits_shape dims) l -> length l <= length (flat_map (@examples A) l) <= length l * prod dims).
    { induction l0 as [|x l0 IHl]; intros Fl; [simpl; lia|]. inversion Fl; subst.
      cbn [flat_map length]. rewrite app_length. specialize (IHl H5). specialize (IH x H3). nia. }
    specialize (G l H4). nia.
Qed.

Lemma has_fits {A} dims (e : elem A) : (forall d, In d dims -> 1 <= d) -> has_shape dims e -> fits_shape dims e.
Proof.
  revert e. induction dims as [|d dims IH]; intros e Hd H; inversion H; subst; constructor.
  - split; [apply Hd; now left|lia].
  - rewrite Forall_forall in *. intros x Hx. apply IH; auto. intros d' H'. apply Hd. now right.
Qed.

(** The whole loop, for the dimensions already wrapped [inner]. *)
Lemma batch_all_spec {A} drop det rev_dims : forall inner (ds out : list (elem A)),
  batch_all drop det rev_dims ds out ->
  Forall (fits_shape inner) ds -> (drop = true -> Forall (has_shape inner) ds) ->
  Forall (fun d => 1 <= d) rev_dims /\
  Forall (fits_shape (rev rev_dims ++ inner)) out /\
  (drop = true -> Forall (has_shape (rev rev_dims ++ inner)) out) /\
  exists rest, Permutation (flat_map examples out ++ rest) (flat_map examples ds) /\
    (det = true -> flat_map examples out ++ rest = flat_map examples ds) /\
    (drop = false -> rest = []) /\ length rest + prod inner <= prod (rev rev_dims ++ inner).
Proof.
  induction rev_dims as [|b dims IH]; intros inner ds out H Fd Hd.
  - inversion H; subst. cbn [rev app].
    split; [constructor|]. split; auto. split; auto. exists []. rewrite app_nil_r. simpl. auto.
  - inversion H as [|b0 dims0 ds0 ds' out0 G Hds' Hrest]; subst b0 dims0 ds0 out0.
    assert (L0 : @length (elem A) [] < b) by (simpl; lia).
    destruct (batches_flat b drop ds [] L0) as (r1 & E1 & Lr1 & N1). cbn [app] in E1.
    pose proof (batches_size b drop ds [] L0) as Sz.
    assert (Sub : forall P : elem A -> Prop, Forall P ds -> forall l, In l (batches b drop [] ds) -> Forall P l).
    { intros P FP l Hl. rewrite Forall_forall in *. intros x Hx. apply FP. rewrite <- E1.
      apply in_or_app. left. apply in_concat. eauto. }
    assert (Pds' : Permutation ds' (map Batch (batches b drop [] ds))) by (destruct det; [now subst|auto]).
    destruct (IH (b :: inner) ds' out Hrest) as (F1 & F2 & F3 & rest & E2 & O2 & N2 & L2).
    + apply Forall_forall. intros x Hx. apply (Permutation_in _ Pds') in Hx.
      apply in_map_iff in Hx as (l & <- & Hl).
      rewrite Forall_forall in Sz. destruct (Sz l Hl) as [S1 _]. constructor; auto.
    + intros D. apply Forall_forall. intros x Hx. apply (Permutation_in _ Pds') in Hx.
      apply in_map_iff in Hx as (l & <- & Hl).
      rewrite Forall_forall in Sz. destruct (Sz l Hl) as [_ S1]. constructor; auto.
    + split; [constructor; auto|].
      replace (rev (b :: dims) ++ inner) with (rev dims ++ b :: inner) by (simpl; now rewrite <- app_assoc).
      split; auto. split; auto.
      exists (rest ++ flat_map examples r1).
      split; [|split; [|split]].
      * rewrite app_assoc, E2, (flat_map_perm examples _ _ Pds'), flat_examples_batch, <- flat_map_app, E1. auto.
      * intros D. rewrite D in Hds'. rewrite app_assoc, (O2 D), Hds', flat_examples_batch, <- flat_map_app, E1. auto.
      * intros D. now rewrite N1, N2.
      * rewrite app_length. cbn [prod fold_right] in L2. fold (prod inner) in L2.
        assert (Fr1 : Forall (fits_shape inner) r1).
        { rewrite Forall_forall in *. intros x Hx. apply Fd. rewrite <- E1. apply in_or_app. now right. }
        assert (Lx : length (flat_map examples r1) <= length r1 * prod inner).
        { clear - Fr1. induction r1 as [|x r1 IHr]; [simpl; lia|]. inversion Fr1; subst.
          cbn [flat_map length]. rewrite app_length. specialize (IHr H2).
          pose proof (shape_count inner x H1). nia. }
        nia.
Qed.

Lemma batch_all_total {A} drop det rev_dims : forall (ds : list (elem A)), Forall (fun d => 1 <= d) rev_dims ->
  exists out, batch_all drop det rev_dims ds out.
Proof.
  induction rev_dims as [|b dims IH]; intros ds H; [eexists; constructor|].
  inversion H; subst. destruct (IH (map Batch (batches b drop [] ds)) H3) as [out Ho].
  exists out. econstructor; eauto. destruct det; auto.
Qed.

(** ** The pipeline *)
Lemma examples_One {A} (l : list A) : flat_map examples (map One l) = l.
Proof. induction l; simpl; auto. now f_equal. Qed.

(** [r] passes over the data of the files. *)
Section Run.
  Context {File Rec Ex : Type} (records : File -> list Rec) (expand : Rec -> list Ex)
    (py_shuffle : Z -> list File -> list File).
  Hypothesis py_shuffle_perm : forall s l, Permutation (py_shuffle s l) l.

  Definition all_examples (files : list File) : list Ex := flat_map expand (flat_map records files).
  Definition passes (files : list File) (r : nat) : list Ex := concat (repeat (all_examples files) r).

  Lemma file_order_perm seed files : Permutation (file_order py_shuffle seed files) files.
  Proof. unfold file_order. destruct seed as [z|]; auto. destruct (Z.eqb z 0); auto. Qed.

  Lemma passes_perm fs fs' r : Permutation fs fs' -> Permutation (passes fs r) (passes fs' r).
  Proof.
    intros H. unfold passes. apply concat_Forall2_perm. induction r; simpl; constructor; auto.
    unfold all_examples. now apply flat_map_perm, flat_map_perm.
  Qed.

  Lemma passes_app fs fs' r : Permutation (passes (fs ++ fs') r) (passes fs r ++ passes fs' r).
  Proof.
    unfold passes. induction r as [|r IH]; simpl; auto.
    unfold all_examples at 1. rewrite !flat_map_app. fold (all_examples fs). fold (all_examples fs').
    rewrite IH. rewrite <- !app_assoc. apply Permutation_app_head.
    rewrite !app_assoc. apply Permutation_app_tail. apply Permutation_app_comm.
  Qed.

  Lemma passes_nil r : passes [] r = [].
  Proof. unfold passes. induction r; simpl; auto. Qed.

  Lemma passes_concat fss r : Permutation (passes (concat fss) r) (concat (map (fun fs => passes fs r) fss)).
  Proof.
    induction fss as [|fs fss IH]; simpl; [now rewrite passes_nil|].
    rewrite passes_app. now apply Permutation_app_head.
  Qed.

  (** One loader shard. *)
  Lemma make_dataset_spec c files i out :
    make_dataset records expand c files i out ->
    Forall (fits_shape (ld_batch_dims c)) out /\
    (ld_drop c = true -> Forall (has_shape (ld_batch_dims c)) out) /\
    exists rest, Permutation (flat_map examples out ++ rest)
                   (passes (shard files (ld_num_shards c) i) (ld_repeat c)) /\
      (ld_drop c = false -> rest = []) /\ length rest < prod (ld_batch_dims c).
  Proof.
    intros (epochs & ds & Le & Fe & Hs & Hb).
    destruct (batch_all_spec _ _ (rev (ld_batch_dims c)) [] _ _ Hb) as (_ & F2 & F3 & rest & E & _ & N & L).
    { apply Forall_forall. intros x Hx. apply in_map_iff in Hx as (a & <- & _). constructor. }
    { intros _. apply Forall_forall. intros x Hx. apply in_map_iff in Hx as (a & <- & _). constructor. }
    rewrite rev_involutive, app_nil_r in *. cbn [prod fold_right] in L. fold (prod (ld_batch_dims c)) in L.
    split; auto. split; auto. exists rest. rewrite E, examples_One. split; [|split; [auto|lia]].
    assert (Pd : Permutation ds (concat epochs)) by (destruct (ld_seed c), (ld_deterministic c); solve [auto|now subst]).
    rewrite (flat_map_perm expand _ _ Pd). clear - Le Fe.
    unfold passes. rewrite <- Le. clear Le.
    induction Fe as [|e es He Fe IH]; cbn [concat length repeat flat_map]; auto.
    rewrite flat_map_app. apply Permutation_app; auto.
    unfold all_examples. apply flat_map_perm. rewrite (interleaving_perm _ _ He), flat_map_concat_map. auto.
  Qed.

  Lemma make_dataset_total c files i : Forall (fun d => 1 <= d) (ld_batch_dims c) ->
    exists out, make_dataset records expand c files i out.
  Proof.
    intros H.
    set (lf := map records (shard files (ld_num_shards c) i)).
    set (epochs := repeat (concat lf) (ld_repeat c)).
    destruct (batch_all_total (ld_drop c) (ld_deterministic c) (rev (ld_batch_dims c)) (map One (flat_map expand (concat epochs))))
      as [out Ho]; [now apply Forall_rev|].
    exists out, epochs, (concat epochs). split; [apply repeat_length|]. split.
    - apply Forall_forall. intros x Hx. apply repeat_spec in Hx. subst x. apply interleaving_exists.
    - split; [destruct (ld_seed c), (ld_deterministic c); auto|exact Ho].
  Qed.

  (** One process. *)
  Lemma process_spec c files count index out : 1 <= ld_num_shards c ->
    tf_examples_dataset records expand py_shuffle c files count index out ->
    Forall (fits_shape (ld_batch_dims c)) out /\
    (ld_drop c = true -> Forall (has_shape (ld_batch_dims c)) out) /\
    exists rest, Permutation (flat_map examples out ++ rest)
                   (passes (shard (file_order py_shuffle (ld_seed c) files) count index) (ld_repeat c)) /\
      (ld_drop c = false -> rest = []) /\
      length rest + ld_num_shards c <= ld_num_shards c * prod (ld_batch_dims c).
  Proof.
    intros Hn (parts & Lp & Hp & Hi). pose proof (interleaving_perm _ _ Hi) as PI.
    set (fs := shard (file_order py_shuffle (ld_seed c) files) count index) in *.
    assert (G : forall m parts k, length parts = m ->
      (forall i part, nth_error parts i = Some part -> make_dataset records expand c fs (k + i) part) ->
      Forall (fits_shape (ld_batch_dims c)) (concat parts) /\
      (ld_drop c = true -> Forall (has_shape (ld_batch_dims c)) (concat parts)) /\
      exists rest, Permutation (flat_map examples (concat parts) ++ rest)
          (concat (map (fun i => passes (shard fs (ld_num_shards c) i) (ld_repeat c)) (seq k m))) /\
        (ld_drop c = false -> rest = []) /\ length rest + m <= m * prod (ld_batch_dims c)).
    { clear. induction m as [|m IH]; intros [|p ps] k L H; try discriminate.
      - simpl. split; [constructor|]. split; [constructor|]. exists []. simpl. auto.
      - injection L as L. destruct (IH ps (S k) L) as (F1 & F2 & rest & Pr & Nr & Lr).
        { intros i part Hpart. replace (S k + i) with (k + S i) by lia. apply H. exact Hpart. }
        destruct (make_dataset_spec c fs (k + 0) p (H 0 p eq_refl)) as (D1 & D2 & r0 & Pr0 & Nr0 & Lr0).
        rewrite Nat.add_0_r in Pr0.
        cbn [concat seq map]. split; [apply Forall_app; auto|].
        split; [intros D; apply Forall_app; auto|].
        exists (r0 ++ rest). rewrite flat_map_app. split.
        + rewrite <- Pr0, <- Pr. rewrite <- !app_assoc. apply Permutation_app_head.
          rewrite !app_assoc. apply Permutation_app_tail. apply Permutation_app_comm.
        + split; [intros D; now rewrite Nr0, Nr|]. rewrite app_length. nia. }
    destruct (G (ld_num_shards c) parts 0 Lp Hp) as (F1 & F2 & rest & Pr & Nr & Lr).
    assert (Tr : forall P : elem Ex -> Prop, Forall P (concat parts) -> Forall P out).
    { intros P FP. rewrite Forall_forall in *. intros x Hx. apply FP. eapply Permutation_in; eauto. }
    split; auto. split; auto. exists rest. split; [|auto].
    rewrite (flat_map_perm examples _ _ PI), Pr.
    symmetry. rewrite (passes_perm _ _ _ (Permutation_sym (shard_partition fs (ld_num_shards c) Hn))).
    rewrite passes_concat, map_map. reflexivity.
  Qed.

  Lemma process_total c files count index : Forall (fun d => 1 <= d) (ld_batch_dims c) ->
    exists out, tf_examples_dataset records expand py_shuffle c files count index out.
  Proof.
    intros H. set (fs := shard (file_order py_shuffle (ld_seed c) files) count index).
    assert (G : forall m k, exists parts, length parts = m /\
      forall i part, nth_error parts i = Some part -> make_dataset records expand c fs (k + i) part).
    { induction m as [|m IH]; intros k.
      - exists []. split; auto. intros [|i] p E; discriminate.
      - destruct (IH (S k)) as (ps & L & Hp). destruct (make_dataset_total c fs k H) as [p Ep].
        exists (p :: ps). split; [simpl; lia|]. intros [|i] q E; simpl in E.
        + rewrite Nat.add_0_r. congruence.
        + replace (k + S i) with (S k + i) by lia. auto. }
    destruct (G (ld_num_shards c) 0) as (parts & L & Hp).
    exists (concat parts), parts. split; auto. split; auto. apply interleaving_exists.
  Qed.

  (** All processes together. *)
  Lemma all_processes c files count outs : 1 <= ld_num_shards c -> 1 <= count ->
    length outs = count ->
    (forall p out, nth_error outs p = Some out -> tf_examples_dataset records expand py_shuffle c files count p out) ->
    Forall (fun out => Forall (fits_shape (ld_batch_dims c)) out /\
                       (ld_drop c = true -> Forall (has_shape (ld_batch_dims c)) out)) outs /\
    exists rest, Permutation (flat_map examples (concat outs) ++ rest) (passes files (ld_repeat c)) /\
      (ld_drop c = false -> rest = []) /\
      length rest + count * ld_num_shards c <= count * ld_num_shards c * prod (ld_batch_dims c).
  Proof.
    intros Hn Hc Lo Ho.
    assert (G : forall m outs k, length outs = m ->
      (forall i out, nth_error outs i = Some out -> tf_examples_dataset records expand py_shuffle c files count (k + i) out) ->
      Forall (fun out => Forall (fits_shape (ld_batch_dims c)) out /\
                       (ld_drop c = true -> Forall (has_shape (ld_batch_dims c)) out)) outs /\
      exists rest, Permutation (flat_map examples (concat outs) ++ rest)
          (concat (map (fun i => passes (shard (file_order py_shuffle (ld_seed c) files) count i) (ld_repeat c)) (seq k m))) /\
        (ld_drop c = false -> rest = []) /\
        length rest + m * ld_num_shards c <= m * ld_num_shards c * prod (ld_batch_dims c)).
    { clear - Hn. induction m as [|m IH]; intros [|p ps] k L H; try discriminate.
      - simpl. split; [constructor|]. exists []. simpl. auto.
      - injection L as L. destruct (IH ps (S k) L) as (F1 & rest & Pr & Nr & Lr).
        { intros i part Hpart. replace (S k + i) with (k + S i) by lia. apply H. exact Hpart. }
        destruct (process_spec c files count (k + 0) p Hn (H 0 p eq_refl)) as (D1 & D2 & r0 & Pr0 & Nr0 & Lr0).
        rewrite Nat.add_0_r in Pr0.
        cbn [concat seq map]. split; [constructor; auto|].
        exists (r0 ++ rest). rewrite flat_map_app. split.
        + rewrite <- Pr0, <- Pr. rewrite <- !app_assoc. apply Permutation_app_head.
          rewrite !app_assoc. apply Permutation_app_tail. apply Permutation_app_comm.
        + split; [intros D; now rewrite Nr0, Nr|]. rewrite app_length. nia. }
    destruct (G count outs 0 Lo Ho) as (F1 & rest & Pr & Nr & Lr).
    split; auto. exists rest. split; [|auto]. rewrite Pr.
    symmetry. rewrite (passes_perm _ _ _ (Permutation_sym (file_order_perm (ld_seed c) files))).
    rewrite (passes_perm _ _ _ (Permutation_sym (shard_partition (file_order py_shuffle (ld_seed c) files) count Hc))).
    rewrite passes_concat, map_map. reflexivity.
  Qed.

  (** One file on one process with one loader shard and no shuffling: in order. *)
  Lemma single_file_order c f out : ld_num_shards c = 1 -> ld_seed c = None -> ld_deterministic c = true ->
    tf_examples_dataset records expand py_shuffle c [f] 1 0 out ->
    exists rest, flat_map examples out ++ rest = passes [f] (ld_repeat c) /\
      (ld_drop c = false -> rest = []) /\ length rest < prod (ld_batch_dims c).
  Proof.
    intros H1 Hs Hdet (parts & Lp & Hp & Hi). rewrite H1 in Lp.
    destruct parts as [|p [|? ?]]; try discriminate. apply interleaving_one in Hi. subst p.
    destruct (Hp 0 out eq_refl) as (epochs & ds & Le & Fe & Hd & Hb).
    rewrite Hs, Hdet in Hd. subst ds. rewrite H1, Hs in Fe. cbn in Fe.
    destruct (batch_all_spec _ _ (rev (ld_batch_dims c)) [] _ _ Hb) as (_ & _ & _ & rest & _ & E & N & L).
    { apply Forall_forall. intros x Hx. apply in_map_iff in Hx as (a & <- & _). constructor. }
    { intros _. apply Forall_forall. intros x Hx. apply in_map_iff in Hx as (a & <- & _). constructor. }
    rewrite rev_involutive, app_nil_r in *. cbn [prod fold_right] in L. fold (prod (ld_batch_dims c)) in L.
    exists rest. rewrite (E Hdet), examples_One. split; [|split; [auto|lia]].
    unfold passes. rewrite <- Le. clear - Fe.
    induction Fe as [|e es He Fe IH]; cbn [concat length repeat flat_map]; auto.
    rewrite flat_map_app, IH. apply interleaving_one in He. subst e.
    unfold all_examples. cbn [flat_map]. now rewrite app_nil_r.
  Qed.
End Run.

(** ** Positions *)
Lemma shard_nth_gen {A} n i : i < n -> forall (l : list A) k d j, d < n -> (k + d) mod n = i ->
  nth_error (map snd (filter (fun p => fst p mod n =? i) (combine (seq k (length l)) l))) j
  = nth_error l (d + n * j).
Proof.
  intros Hi. induction l as [|a l IH]; intros k d j Hd E.
  - simpl. destruct j; now destruct (d + n * _).
  - cbn [length seq combine filter fst].
    destruct (Nat.eqb_spec (k mod n) i) as [Ek|Ek].
    + assert (d = 0).
      { pose proof (Nat.div_mod k n ltac:(lia)) as Dk. pose proof (Nat.div_mod (k + d) n ltac:(lia)) as Dd.
        rewrite E in Dd. rewrite Ek in Dk. 
        assert ((k + d) / n = k / n \/ (k + d) / n >= S (k / n)) as [Q|Q].
        { pose proof (Nat.div_le_mono k (k + d) n ltac:(lia) ltac:(lia)). lia. }
        - rewrite Q in Dd. lia.
        - nia. }
      subst d. cbn [map snd]. destruct j as [|j]; [now rewrite Nat.mul_0_r|].
      cbn [nth_error]. rewrite (IH (S k) (n - 1) j) by
        (try lia; replace (S k + (n - 1)) with (k + 1 * n) by lia; rewrite Nat.mod_add by lia; auto).
      replace (0 + n * S j) with (S (n - 1 + n * j)) by nia. reflexivity.
    + destruct d as [|d]; [rewrite Nat.add_0_r in E; contradiction|].
      rewrite (IH (S k) d j) by (try lia; rewrite <- E; f_equal; lia). reflexivity.
Qed.

Lemma shard_nth {A} (l : list A) n i j : i < n -> nth_error (shard l n i) j = nth_error l (i + n * j).
Proof.
  intros Hi. unfold shard. apply shard_nth_gen; auto. simpl. now apply Nat.mod_small.
Qed.

Lemma shard_of_shard {A} (l : list A) P p N i j : p < P -> i < N ->
  nth_error (shard (shard l P p) N i) j = nth_error l (p + P * (i + N * j)).
Proof. intros. now rewrite !shard_nth. Qed.

Lemma position_unique P N : 1 <= P -> 1 <= N -> forall k,
  exists p i j, p < P /\ i < N /\ k = p + P * (i + N * j) /\
    forall p' i' j', p' < P -> i' < N -> k = p' + P * (i' + N * j') -> p' = p /\ i' = i /\ j' = j.
Proof.
  intros HP HN k. exists (k mod P), (k / P mod N), (k / P / N).
  split; [apply Nat.mod_upper_bound; lia|]. split; [apply Nat.mod_upper_bound; lia|]. split.
  - pose proof (Nat.div_mod k P ltac:(lia)). pose proof (Nat.div_mod (k / P) N ltac:(lia)). nia.
  - intros p' i' j' Hp Hi ->.
    assert (E1 : (p' + P * (i' + N * j')) mod P = p').
    { rewrite (Nat.mul_comm P), Nat.mod_add by lia. now apply Nat.mod_small. }
    assert (E2 : (p' + P * (i' + N * j')) / P = i' + N * j').
    { rewrite (Nat.mul_comm P), Nat.div_add by lia. now rewrite Nat.div_small. }
    rewrite E1, E2. split; auto. split.
    + rewrite (Nat.mul_comm N), Nat.mod_add by lia. now rewrite Nat.mod_small.
    + rewrite (Nat.mul_comm N), Nat.div_add by lia. now rewrite Nat.div_small.
Qed.

Lemma zero_batch_empty {File Rec Ex} (records : File -> list Rec) (expand : Rec -> list Ex) sh c files count index :
  1 <= ld_num_shards c -> In 0 (ld_batch_dims c) ->
  forall out, ~ tf_examples_dataset records expand sh c files count index out.
Proof.
  intros Hn H0 out (parts & Lp & Hp & _). destruct parts as [|p ps]; [simpl in Lp; lia|].
  destruct (Hp 0 p eq_refl) as (epochs & ds & _ & _ & _ & Hb).
  destruct (batch_all_spec _ _ _ [] _ _ Hb) as (F & _).
  { apply Forall_forall. intros x Hx. apply in_map_iff in Hx as (a & <- & _). constructor. }
  { intros _. apply Forall_forall. intros x Hx. apply in_map_iff in Hx as (a & <- & _). constructor. }
  rewrite Forall_forall in F. specialize (F 0). rewrite <- in_rev in F. specialize (F H0). lia.
Qed.
