(** C47: sharding, interleaving and batching of the data. *)
From Coq Require Import List Arith ZArith Bool Permutation Lia.
From Verif.Lib Require Import Base.
From Verif.Model Require Import Pipeline.
From Verif.Spec Require Import LoadSpec.
From Verif.Proofs Require Import P_Pipeline.
Import ListNotations.
Local Open Scope nat_scope.

(** Loader shard i of process p reads the files at positions p + P (i + N j) and in
    this order; every position is of this form for one process, shard and j. *)
Theorem C47_files_of_a_shard {A} (files : list A) P p N i j : p < P -> i < N ->
  nth_error (shard (shard files P p) N i) j = nth_error files (p + P * (i + N * j)).
Proof. exact (shard_of_shard files P p N i j). Qed.
Theorem C47_every_file_once P N : 1 <= P -> 1 <= N -> forall k,
  exists p i j, p < P /\ i < N /\ k = p + P * (i + N * j) /\
    forall p' i' j', p' < P -> i' < N -> k = p' + P * (i' + N * j') -> p' = p /\ i' = i /\ j' = j.
Proof. exact (position_unique P N). Qed.

(** Whatever the schedule of interleaving, shuffling and parallel calls: the examples
    of all processes together, with some [rest] that was dropped, are those of
    [repeat] passes over all files.  Nothing is dropped if drop_remainder is off;
    otherwise every element has exactly the batch shape, and each loader shard drops
    less than one full batch. *)
Theorem C47_all_data {File Rec Ex} (records : File -> list Rec) (expand : Rec -> list Ex) py_shuffle :
  (forall s l, Permutation (py_shuffle s l) l) ->
  forall c files count outs, 1 <= ld_num_shards c -> 1 <= count -> length outs = count ->
  (forall p out, nth_error outs p = Some out ->
     tf_examples_dataset records expand py_shuffle c files count p out) ->
  Forall (fun out => Forall (fits_shape (ld_batch_dims c)) out /\
                     (ld_drop c = true -> Forall (has_shape (ld_batch_dims c)) out)) outs /\
  exists rest,
    Permutation (flat_map examples (concat outs) ++ rest) (passes_over records expand files (ld_repeat c)) /\
    (ld_drop c = false -> rest = []) /\
    length rest + count * ld_num_shards c <= count * ld_num_shards c * prod (ld_batch_dims c).
Proof. exact (fun H => all_processes records expand py_shuffle H). Qed.

(** Such runs exist for any configuration with positive batch sizes ... *)
Theorem C47_runs {File Rec Ex} (records : File -> list Rec) (expand : Rec -> list Ex) py_shuffle c files count index :
  Forall (fun d => 1 <= d) (ld_batch_dims c) ->
  exists out, tf_examples_dataset records expand py_shuffle c files count index out.
Proof. exact (process_total records expand py_shuffle c files count index). Qed.

(** ... and for no configuration with a batch size of zero. *)
Theorem C47_zero_batch_fails {File Rec Ex} (records : File -> list Rec) (expand : Rec -> list Ex) py_shuffle c files count index :
  1 <= ld_num_shards c -> In 0 (ld_batch_dims c) ->
  forall out, ~ tf_examples_dataset records expand py_shuffle c files count index out.
Proof. exact (zero_batch_empty records expand py_shuffle c files count index). Qed.

(** Without batching nothing is lost and the number of loader shards
    makes no difference to the data. *)
Theorem C47_num_shards_without_batching {File Rec Ex} (records : File -> list Rec) (expand : Rec -> list Ex) py_shuffle :
  (forall s l, Permutation (py_shuffle s l) l) ->
  forall c c' files out out',
  1 <= ld_num_shards c -> 1 <= ld_num_shards c' -> ld_repeat c = ld_repeat c' ->
  ld_batch_dims c = [] -> ld_batch_dims c' = [] ->
  tf_examples_dataset records expand py_shuffle c files 1 0 out ->
  tf_examples_dataset records expand py_shuffle c' files 1 0 out' ->
  Permutation (flat_map examples out) (flat_map examples out').
Proof.
  intros Hp c c' files out out' H1 H1' Hr Hb Hb' H H'.
  assert (G : forall c out, 1 <= ld_num_shards c -> ld_batch_dims c = [] ->
    tf_examples_dataset records expand py_shuffle c files 1 0 out ->
    Permutation (flat_map examples out) (passes_over records expand files (ld_repeat c))).
  { intros d o N D T.
    destruct (all_processes records expand py_shuffle Hp d files 1 [o] N) as (_ & rest & P & _ & L); auto.
    - intros [|[|p]] x E; try discriminate. now injection E as <-.
    - rewrite D in L. simpl in L. assert (length rest = 0) by lia.
      destruct rest; [|discriminate]. rewrite app_nil_r in P. cbn [concat] in P. rewrite app_nil_r in P. exact P. }
  rewrite (G c out), (G c' out'), Hr; auto.
Qed.

(** The documentation says num_shards has no effect on the data returned.  With
    batching and drop_remainder, the default, it has: two files of one record each
    make a batch of two with one loader shard, and nothing at all with two. *)
Theorem C47_num_shards_no_effect_refuted :
  let dataset n out := tf_examples_dataset (fun f : nat => [f]) (fun r : nat => [r]) (fun _ l => l)
      (mkloader n 1 None [2] true true) [7; 8] 1 0 out in
  (forall out, dataset 1 out -> exists a b, out = [Batch [One a; One b]] /\ Permutation [a; b] [7; 8]) /\
  (forall out, dataset 2 out -> out = []) /\ (exists out, dataset 1 out) /\ (exists out, dataset 2 out).
Proof.
  cbv zeta. split; [|split; [|split; apply process_total; repeat constructor]].
  - intros out (parts & Lp & Hp & Hi). destruct parts as [|p [|? ?]]; try discriminate.
    apply interleaving_one in Hi. subst p.
    destruct (Hp 0 out eq_refl) as (epochs & ds & Le & Fe & Hd & Hb). cbn in Le, Fe, Hd, Hb.
    destruct epochs as [|e [|? ?]]; try discriminate. inversion Fe as [|? ? He _]; subst.
    apply interleaving_perm in He. cbn in He.
    destruct e as [|a [|b [|? ?]]]; try (apply Permutation_length in He; discriminate).
    exists a, b. split; auto. cbn in Hb. inversion Hb as [|? ? ? ? ? _ E Hr]; subst.
    cbn in Hr. now inversion Hr.
  - intros out (parts & Lp & Hp & Hi). destruct parts as [|p [|p' [|? ?]]]; try discriminate.
    assert (E : forall i q, nth_error [p; p'] i = Some q -> q = []).
    { intros i q E. destruct (Hp i q E) as (epochs & ds & Le & Fe & Hd & Hb).
      cbn in Le, Fe, Hd, Hb. destruct epochs as [|e [|? ?]]; try discriminate.
      inversion Fe as [|? ? He _]; subst.
      assert (L : length e = 1).
      { destruct i as [|[|i]]; try (destruct i; discriminate); apply interleaving_one in He; now subst e. }
      destruct e as [|a [|? ?]]; try discriminate. cbn in Hb.
      inversion Hb as [|? ? ? ? ? _ E' Hr]; subst. cbn in Hr. now inversion Hr. }
    apply interleaving_perm in Hi. rewrite (E 0 p), (E 1 p') in Hi by reflexivity.
    now apply Permutation_sym, Permutation_nil in Hi.
Qed.

(** All processes must use the same seed: with a seed on the first of two processes
    only, one file may be read by both and the other by none. *)
Theorem C47_seeds_must_agree_refuted : exists (py_shuffle : Z -> list nat -> list nat),
  (forall s l, Permutation (py_shuffle s l) l) /\
  forall out0 out1,
  tf_examples_dataset (fun f : nat => [f]) (fun r : nat => [r]) py_shuffle
    (mkloader 1 1 (Some 1%Z) [] false true) [7; 8] 2 0 out0 ->
  tf_examples_dataset (fun f : nat => [f]) (fun r : nat => [r]) py_shuffle
    (mkloader 1 1 None [] false true) [7; 8] 2 1 out1 ->
  flat_map examples (out0 ++ out1) = [8; 8].
Proof.
  assert (Hp : forall s (l : list nat), Permutation ((fun (_ : Z) l => rev l) s l) l)
    by (intros; symmetry; apply Permutation_rev).
  exists (fun _ l => rev l). split; auto. intros out0 out1 H0 H1.
  apply (process_spec _ _ _ _ _ _ _) in H0 as (_ & _ & r0 & P0 & N0 & _); [|simpl; lia].
  apply (process_spec _ _ _ _ _ _ _) in H1 as (_ & _ & r1 & P1 & N1 & _); [|simpl; lia].
  rewrite N0, app_nil_r in P0 by reflexivity. rewrite N1, app_nil_r in P1 by reflexivity.
  cbn in P0, P1. apply Permutation_sym, Permutation_length_1_inv in P0.
  apply Permutation_sym, Permutation_length_1_inv in P1.
  rewrite flat_map_app, P0, P1. reflexivity.
Qed.

(** One file, one process, one loader shard, no seed and deterministic: the examples
    come in file order, pass after pass, whatever the batch dimensions. *)
Theorem C47_single_file_order {File Rec Ex} (records : File -> list Rec) (expand : Rec -> list Ex) py_shuffle c f out :
  ld_num_shards c = 1 -> ld_seed c = None -> ld_deterministic c = true ->
  tf_examples_dataset records expand py_shuffle c [f] 1 0 out ->
  exists rest, flat_map examples out ++ rest = passes_over records expand [f] (ld_repeat c) /\
    (ld_drop c = false -> rest = []) /\ length rest < prod (ld_batch_dims c).
Proof. exact (single_file_order records expand py_shuffle c f out). Qed.

(** Distributed loading: every element is an array with one batch per device. *)
Theorem C47_distributed {File Rec Ex} (records : File -> list Rec) (expand : Rec -> list Ex) py_shuffle :
  (forall s l, Permutation (py_shuffle s l) l) ->
  forall c devices dims files count index out, 1 <= ld_num_shards c -> ld_drop c = true ->
  ld_batch_dims c = generator_batch_dims true devices dims ->
  tf_examples_dataset records expand py_shuffle c files count index out ->
  forall e, In e out -> exists per_device, e = Batch per_device /\
    length per_device = devices /\ forall b, In b per_device -> has_shape dims b.
Proof.
  intros Hp c devices dims files count index out Hn Hd Hb H e He.
  destruct (process_spec records expand py_shuffle c files count index out Hn H) as (_ & F & _).
  specialize (F Hd). rewrite Hb in F. cbn in F. rewrite Forall_forall in F. specialize (F e He).
  inversion F as [|d ds l L FL]; subst. exists l. rewrite Forall_forall in FL. auto.
Qed.

(** Seven records in three files, two processes with two loader shards, two passes,
    batches of two times one. *)
Definition ex_records (f : nat) : list nat := match f with 0 => [1; 2; 3] | 1 => [4; 5; 6] | _ => [7] end.
Definition ex_loader : loader := mkloader 2 2 (Some 5%Z) [2; 1] true true.
Example C47_ex : exists out0 out1,
  tf_examples_dataset ex_records (fun r => [10 * r]) (fun _ l => rev l) ex_loader [0; 1; 2] 2 0 out0 /\
  tf_examples_dataset ex_records (fun r => [10 * r]) (fun _ l => rev l) ex_loader [0; 1; 2] 2 1 out1 /\
  out0 = [Batch [Batch [One 70]; Batch [One 70]];
          Batch [Batch [One 10]; Batch [One 20]]; Batch [Batch [One 30]; Batch [One 10]];
          Batch [Batch [One 20]; Batch [One 30]]] /\
  length out1 = 3.
Proof.
  assert (M : forall f r i l, ex_loader = ex_loader ->
    concat (repeat (concat (map ex_records (shard f 2 i))) 2) = r ->
    batch_all true true [1; 2] (map One (flat_map (fun r => [10 * r]) r)) l ->
    make_dataset ex_records (fun r => [10 * r]) ex_loader f i l).
  { intros f r i l _ E B. exists (repeat (concat (map ex_records (shard f 2 i))) 2), r.
    split; [reflexivity|]. split; [|split; [rewrite <- E; apply Permutation_refl|exact B]].
    apply Forall_forall. intros x Hx. apply repeat_spec in Hx. subst x. apply interleaving_exists. }
  eexists _, _. split; [|split; [|split; [reflexivity|]]].
  - exists [[Batch [Batch [One 70]; Batch [One 70]]];
          [Batch [Batch [One 10]; Batch [One 20]]; Batch [Batch [One 30]; Batch [One 10]];
          Batch [Batch [One 20]; Batch [One 30]]]].
    split; [reflexivity|]. split; [|exact (interleaving_exists [[_]; [_; _; _]])].
    intros [|[|i]] part E; [| |destruct i; discriminate]; injection E as <-;
      (eapply M; [reflexivity|vm_compute; reflexivity|]);
      repeat (econstructor; [lia|cbn; reflexivity|]); constructor.
  - exists [[Batch [Batch [One 40]; Batch [One 50]]; Batch [Batch [One 60]; Batch [One 40]];
          Batch [Batch [One 50]; Batch [One 60]]]; []].
    split; [reflexivity|]. split; [|exact (interleaving_exists [[_; _; _]; []])].
    intros [|[|i]] part E; [| |destruct i; discriminate]; injection E as <-;
      (eapply M; [reflexivity|vm_compute; reflexivity|]);
      repeat (econstructor; [lia|cbn; reflexivity|]); constructor.
  - reflexivity.
Qed.

Print Assumptions C47_all_data.
Print Assumptions C47_files_of_a_shard.
Print Assumptions C47_every_file_once.
Print Assumptions C47_num_shards_no_effect_refuted.
Print Assumptions C47_seeds_must_agree_refuted.
Print Assumptions C47_single_file_order.
Print Assumptions C47_distributed.
