(** Specification of time indexing used by C01: where a window of [size] entries
    requested at integer [start] on an axis of length [T] actually begins. *)
From Coq Require Import ZArith.
Open Scope Z_scope.

Definition window_start (start : Z) (T size w : nat) : Prop :=
  let T := Z.of_nat T in let size := Z.of_nat size in let w := Z.of_nat w in
  (* fits: used as requested *)
  (0 <= start /\ start + size <= T /\ w = start) \/
  (* runs off the end: the last window *)
  (0 <= start /\ T < start + size /\ w + size = T) \/
  (* negative: counted from the end *)
  (start < 0 /\ 0 <= start + T /\ start + size <= 0 /\ w = start + T) \/
  (* negative and runs off the end: the last window *)
  (start < 0 /\ 0 <= start + T /\ 0 < start + size /\ w + size = T) \/
  (* before the beginning: the first window *)
  (start < 0 /\ start + T < 0 /\ w = 0).
