(** C01: time indexing is in-bounds and has one fixed out-of-range rule.
    [window_start start T size w] (Spec/IndexSpec.v) is the specification: the
    requested start when the window fits, counted from the end when negative,
    otherwise clamped to the nearest fitting start. *)
From Coq Require Import List ZArith Lia Bool.
From Verif.Lib Require Import Base JaxIndex Scalar.
From Verif.Model Require Import Operations.
From Verif.Spec Require Import IndexSpec.
From Verif.Proofs Require Import Core P_Indexing.
Import ListNotations.
Open Scope nat_scope.

(** Reading a window of any size <= T at any integer start succeeds and returns
    the prescribed window. *)
Theorem C01_slice_reads_window {A} n T (m : list (list A)) start size :
  rect n T m -> size <= T ->
  exists s, dynamic_slice m start size = Ok s /\ rect n size s /\
    exists w, window_start start T size w /\
    forall i t, i < n -> t < size -> at2 s i t = at2 m i (w + t).
Proof. exact (slice_lemma n T m start size). Qed.

Theorem C01_index_reads_entry {A} n T (m : list (list A)) k :
  rect n T m -> 0 < T ->
  exists c, dynamic_index m k = Ok c /\ length c = n /\
    exists w, window_start k T 1 w /\ forall i, i < n -> nth_error c i = at2 m i w.
Proof. exact (index_lemma n T m k). Qed.

(** A window larger than the axis is rejected. *)
Theorem C01_slice_too_big_fails {A} n T (m : list (list A)) start size :
  rect n T m -> 0 < n -> T < size -> dynamic_slice m start size = Err TypeError.
Proof. exact (slice_too_big n T m start size). Qed.

(** Writing replaces exactly the prescribed window by the prescribed window of
    the updates, and nothing else. *)
Theorem C01_write_changes_exactly_the_window {A} n T (m u : list (list A))
  istart ustart size :
  rect n T m -> rect n T u -> size <= T ->
  exists r, update_by_slice_in_dim m u istart (Some ustart) (Some size) = Ok r /\
    rect n T r /\
    exists wi wu, window_start istart T size wi /\ window_start ustart T size wu /\
    forall i t, i < n ->
      at2 r i t = if (wi <=? t) && (t <? wi + size) then at2 u i (wu + (t - wi))
                  else at2 m i t.
Proof. exact (write_lemma n T m u istart ustart size). Qed.

(** Reading back the window just written gives what was written. *)
Theorem C01_read_after_write {A} n T (m u r s : list (list A)) istart ustart size :
  rect n T m -> rect n T u -> size <= T ->
  update_by_slice_in_dim m u istart (Some ustart) (Some size) = Ok r ->
  dynamic_slice r istart size = Ok s ->
  dynamic_slice u ustart size = Ok s.
Proof. exact (read_after_write_lemma n T m u istart ustart size r s). Qed.

(** The rule determines the window. *)
Theorem C01_window_is_unique start T size w1 w2 :
  size <= T -> window_start start T size w1 -> window_start start T size w2 -> w1 = w2.
Proof. exact (window_start_unique start T size w1 w2). Qed.

Example C01_ex_read :
  rect 2 4 [[0;1;2;3];[4;5;6;7]] /\
  dynamic_slice [[0;1;2;3];[4;5;6;7]] 1 2 = Ok [[1;2];[5;6]] /\
  dynamic_slice [[0;1;2;3];[4;5;6;7]] (-2) 2 = Ok [[2;3];[6;7]] /\
  dynamic_slice [[0;1;2;3];[4;5;6;7]] (-1) 2 = Ok [[2;3];[6;7]] /\
  dynamic_slice [[0;1;2;3];[4;5;6;7]] 9 2 = Ok [[2;3];[6;7]] /\
  dynamic_slice [[0;1;2;3];[4;5;6;7]] (-9) 2 = Ok [[0;1];[4;5]] /\
  dynamic_slice [[0;1;2;3];[4;5;6;7]] 0 5 = Err TypeError.
Proof. repeat split; try reflexivity. intros r [<-|[<-|[]]]; reflexivity. Qed.

Example C01_ex_write :
  update_by_slice_in_dim [[0;1;2;3]] [[10;11;12;13]] 3 (Some 1%Z) (Some 2)
  = Ok [[0;1;11;12]].
Proof. reflexivity. Qed.

Print Assumptions C01_slice_reads_window.
Print Assumptions C01_index_reads_entry.
Print Assumptions C01_slice_too_big_fails.
Print Assumptions C01_write_changes_exactly_the_window.
Print Assumptions C01_read_after_write.
Print Assumptions C01_window_is_unique.
