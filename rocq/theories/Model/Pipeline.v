(** Model of waymax/dataloader/dataloader_utils.py: tf_examples_dataset and
    get_data_generator.  A finite tf.data.Dataset is the list of its elements; since
    interleaving and shuffling depend on a schedule, a dataset is described by the
    relation "the elements can come out as this list". *)
From Coq Require Import List Arith ZArith Bool Permutation.
From Verif.Lib Require Import Base.
Import ListNotations.

(** Dataset.shard(num, index): every num-th element from index on. *)
Definition shard {A} (l : list A) (num index : nat) : list A :=
  map snd (filter (fun p => fst p mod num =? index) (combine (seq 0 (length l)) l)).

(** Dataset.interleave: elements are taken from the inputs in some order, each input
    front to back.  Covers every cycle length, parallelism and the setting
    deterministic=False. *)
Inductive interleaving {A} : list (list A) -> list A -> Prop :=
| inter_done ls : Forall (fun l => l = []) ls -> interleaving ls []
| inter_take l1 a r l2 out :
    interleaving (l1 ++ r :: l2) out -> interleaving (l1 ++ (a :: r) :: l2) (a :: out).

(** Elements after batching: an example, or an array of batched elements. *)
Inductive elem (A : Type) := One (a : A) | Batch (l : list (elem A)).
Arguments One {A}. Arguments Batch {A}.

(** Dataset.batch(b, drop_remainder): [cur] is the batch being filled. *)
Fixpoint batches {A} (b : nat) (drop : bool) (cur l : list A) : list (list A) :=
  match l with
  | [] => if drop then [] else match cur with [] => [] | _ => [cur] end
  | a :: r =>
      if length (cur ++ [a]) =? b then (cur ++ [a]) :: batches b drop [] r
      else batches b drop (cur ++ [a]) r
  end.

(** dataloader_utils.py:150-157, the loop over reversed(batch_dims).  A batch size
    of zero is an error; without determinism the batches may come in any order. *)
Inductive batch_all {A} (drop det : bool) : list nat -> list (elem A) -> list (elem A) -> Prop :=
| batch_none ds : batch_all drop det [] ds ds
| batch_some b dims ds ds' out :
    1 <= b ->
    (if det then ds' = map Batch (batches b drop [] ds)
     else Permutation ds' (map Batch (batches b drop [] ds))) ->
    batch_all drop det dims ds' out -> batch_all drop det (b :: dims) ds out.

(** The arguments of tf_examples_dataset that matter here. *)
Record loader := mkloader {
  ld_num_shards : nat; ld_repeat : nat; ld_seed : option Z;
  ld_batch_dims : list nat; ld_drop : bool; ld_deterministic : bool }.

Section Pipeline.
  (** Files, raw records, examples; [records] is TFRecordDataset; [expand] is
      preprocess_fn followed, if batch_by_scenario is False, by unbatch: the
      examples one record gives rise to.  [py_shuffle] is random.seed followed by
      random.shuffle. *)
  Context {File Rec Ex : Type} (records : File -> list Rec) (expand : Rec -> list Ex)
    (py_shuffle : Z -> list File -> list File).

  (** dataloader_utils.py:118-120: the seed is tested for truth, so 0 does not count. *)
  Definition file_order (seed : option Z) (files : list File) : list File :=
    match seed with
    | Some s => if (s =? 0)%Z then files else py_shuffle s files
    | None => files
    end.

  (** dataloader_utils.py:125-158, _make_dataset.  Simplifications: repeat=None
      (endless) is left out; shuffling gives any order, whatever the buffer size. *)
  Definition make_dataset (c : loader) (files : list File) (shard_index : nat)
    (out : list (elem Ex)) : Prop :=
    let local_files := shard files (ld_num_shards c) shard_index in
    exists epochs ds,
      length epochs = ld_repeat c /\
      Forall (interleaving (map records local_files)) epochs /\
      (match ld_seed c, ld_deterministic c with
       | None, true => ds = concat epochs
       | _, _ => Permutation ds (concat epochs)
       end) /\
      batch_all (ld_drop c) (ld_deterministic c) (rev (ld_batch_dims c))
        (map One (flat_map expand ds)) out.

  (** dataloader_utils.py:115-175, tf_examples_dataset on process [index] of [count];
      [files] is what the path stands for (Filenames.files_to_load).  The tf.data
      service and prefetching do not change the elements. *)
  Definition tf_examples_dataset (c : loader) (files : list File) (count index : nat)
    (out : list (elem Ex)) : Prop :=
    let local := shard (file_order (ld_seed c) files) count index in
    exists parts,
      length parts = ld_num_shards c /\
      (forall i part, nth_error parts i = Some part -> make_dataset c local i part) /\
      interleaving parts out.
End Pipeline.

(** dataloader_utils.py:202-204: the devices come first in the batch dimensions. *)
Definition generator_batch_dims (distributed : bool) (devices : nat) (dims : list nat) : list nat :=
  if distributed then devices :: dims else dims.
