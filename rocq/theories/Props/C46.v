(** C46: names of sharded files. *)
From Coq Require Import Ascii String.
From Coq Require Import List ZArith Lia Bool.
From Verif.Lib Require Import Base.
From Verif.Model Require Import Filenames.
From Verif.Spec Require Import FileSpec.
From Verif.Proofs Require Import P_Filenames.
Import ListNotations.
Local Open Scope nat_scope.

(** For a base name without '@' and '%' and a numeral [shards] of n >= 1, the path
    base@shards stands for n names, the i-th being base-XXXXX-of-YYYYY with i and n
    in decimal: n filled with zeros to five digits or more, i as long as n. *)
Theorem C46_names (base shards : str) n :
  ~ In "@"%char base -> ~ In "%"%char base -> reads shards n -> (1 <= n)%Z ->
  exists names, generate_sharded_filenames (base ++ "@"%char :: shards) = Ok names /\
    length names = Z.to_nat n /\
    forall i, i < Z.to_nat n -> exists name, nth_error names i = Some name /\
      shard_name base (Z.of_nat i) n name.
Proof. exact (generate_Ok base shards n). Qed.

(** The specification leaves no choice: one name per base, shard and count, and a
    name tells all three. *)
Theorem C46_name_is_unique base i n a b : shard_name base i n a -> shard_name base i n b -> a = b.
Proof. exact (shard_name_fun base i n a b). Qed.
Theorem C46_name_is_decodable base i n base' i' n' name :
  shard_name base i n name -> shard_name base' i' n' name -> base = base' /\ i = i' /\ n = n'.
Proof. exact (shard_name_inj base i n base' i' n' name). Qed.

(** No file is named twice by a path, and two paths that have one file in common have
    all files in common. *)
Theorem C46_distinct path names :
  generate_sharded_filenames path = Ok names -> ~ In "%"%char path -> NoDup names.
Proof. exact (generate_nodup path names). Qed.
Theorem C46_paths_share_all_or_nothing p1 p2 l1 l2 f :
  generate_sharded_filenames p1 = Ok l1 -> generate_sharded_filenames p2 = Ok l2 ->
  ~ In "%"%char p1 -> ~ In "%"%char p2 -> In f l1 -> In f l2 -> l1 = l2.
Proof. exact (generate_disjoint p1 p2 l1 l2 f). Qed.

(** No '@', two '@', and fewer than one shard raise ValueError. *)
Theorem C46_rejected path :
  (~ In "@"%char path -> generate_sharded_filenames path = Err ValueError) /\
  (forall a b c, path = a ++ "@"%char :: b ++ "@"%char :: c ->
     generate_sharded_filenames path = Err ValueError) /\
  (forall base shards n, path = base ++ "@"%char :: shards ->
     ~ In "@"%char base -> ~ In "@"%char shards ->
     py_int shards = Ok n -> (n < 1)%Z -> generate_sharded_filenames path = Err ValueError).
Proof. exact (generate_fails path). Qed.

(** The shard count is read as Python's int() reads a text: digits with single underscores
    between them, an optional sign in front, blanks around; nothing else. *)
Theorem C46_count_text s z : py_int s = Ok z <-> integer_text s z.
Proof. exact (py_int_spec s z). Qed.

(** A path without '%' is accepted exactly if it has one '@' and behind it the text of a
    count of at least one; otherwise the call raises ValueError. *)
Theorem C46_accepted_paths path : ~ In "%"%char path ->
  (exists names, generate_sharded_filenames path = Ok names) <->
  exists base shards n, path = base ++ "@"%char :: shards /\ ~ In "@"%char base /\ ~ In "@"%char shards /\
    integer_text shards n /\ (1 <= n)%Z.
Proof. exact (generate_accepts path). Qed.
Theorem C46_other_paths_raise path e : ~ In "%"%char path ->
  generate_sharded_filenames path = Err e -> e = ValueError.
Proof. exact (generate_Err path e). Qed.

(** The loader expands a path only if the part after the last slash has an '@'. *)
Theorem C46_loader_expands dir base : ~ In "/"%char base ->
  files_to_load (dir ++ "/"%char :: base) =
    if in_dec ascii_dec "@"%char base then generate_sharded_filenames (dir ++ "/"%char :: base)
    else Ok [dir ++ "/"%char :: base].
Proof. exact (files_spec dir base). Qed.

(** So a sharded file in a directory with '@' in its name cannot be loaded, ... *)
Theorem C46_at_in_directory_fails_refuted dir1 dir2 base shards : ~ In "/"%char (base ++ "@"%char :: shards) ->
  files_to_load ((dir1 ++ "@"%char :: dir2) ++ "/"%char :: (base ++ "@"%char :: shards)) = Err ValueError.
Proof.
  intros N. rewrite files_spec by exact N. destruct (in_dec ascii_dec _ _) as [_|X].
  - apply (proj1 (proj2 (generate_fails _)) dir1 (dir2 ++ "/"%char :: base) shards).
    rewrite <- !app_assoc. cbn [app]. now rewrite <- ?app_assoc.
  - exfalso. apply X. apply in_or_app. right. now left.
Qed.

(** ... and a '%' in the base name is taken for formatting: names lose a character
    or the call raises. *)
Theorem C46_percent_refuted :
  generate_sharded_filenames (lit "a%%b@2") = Ok [lit "a%b-00000-of-00002"; lit "a%b-00001-of-00002"] /\
  generate_sharded_filenames (lit "x%d@2") = Err TypeError.
Proof. repeat split; vm_compute; reflexivity. Qed.

Example C46_example :
  generate_sharded_filenames (lit "my-file@3")
    = Ok [lit "my-file-00000-of-00003"; lit "my-file-00001-of-00003"; lit "my-file-00002-of-00003"] /\
  reads (lit "3") 3 /\ reads (lit "0120") 120 /\
  generate_sharded_filenames (lit "f@0") = Err ValueError /\
  generate_sharded_filenames (lit "a@b@3") = Err ValueError /\
  files_to_load (lit "/data@x/plain") = Ok [lit "/data@x/plain"] /\
  integer_text (lit " +1_0 ") 10 /\
  generate_sharded_filenames (lit "f@+") = Err ValueError /\
  generate_sharded_filenames (lit "f@1__0") = Err ValueError.
Proof.
  split; [vm_compute; reflexivity|]. split; [constructor; split; [lia|reflexivity]|]. split.
  - apply (reads_more (lit "012") 12 "0"%char 0); [|split; [lia|reflexivity]].
    apply (reads_more (lit "01") 1 "2"%char 2); [|split; [lia|reflexivity]].
    apply (reads_more (lit "0") 0 "1"%char 1); [|split; [lia|reflexivity]].
    constructor. split; [lia|reflexivity].
  - split; [vm_compute; reflexivity|]. split; [vm_compute; reflexivity|]. split; [vm_compute; reflexivity|].
    split; [apply py_int_spec; vm_compute; reflexivity|]. split; vm_compute; reflexivity.
Qed.
(** A six-digit shard count: index and count have the same width. *)
Example C46_example_wide :
  shard_name (lit "f") 7 120000 (lit "f-000007-of-120000").
Proof.
  exists (zero_padded 6 7), (zero_padded 5 120000). split; [apply zero_padded_reads; lia|].
  split; [apply zero_padded_padded; lia|]. split; reflexivity.
Qed.

Print Assumptions C46_names.
Print Assumptions C46_distinct.
Print Assumptions C46_paths_share_all_or_nothing.
Print Assumptions C46_rejected.
Print Assumptions C46_count_text.
Print Assumptions C46_accepted_paths.
Print Assumptions C46_other_paths_raise.
Print Assumptions C46_loader_expands.
