(** Decimal numerals and names of sharded files, independent of the model. *)
From Coq Require Import Ascii String.
From Coq Require Import List ZArith.
Import ListNotations.

Definition digit (a : ascii) (d : Z) : Prop :=
  (0 <= d <= 9)%Z /\ Z.of_nat (nat_of_ascii a) = (48 + d)%Z.

(** The text is a non-empty sequence of decimal digits with the value [z]. *)
Inductive reads : list ascii -> Z -> Prop :=
| reads_one a d : digit a d -> reads [a] d
| reads_more s z a d : reads s z -> digit a d -> reads (s ++ [a]) (10 * z + d).

(** The numeral of [z], filled with zeros to at least [w] digits. *)
Definition padded (w : nat) (z : Z) (s : list ascii) : Prop :=
  reads s z /\ w <= length s /\ (w < length s -> hd_error s <> Some "0"%char).

(** [name] is the file of shard [i] of [n] of [base]: base-XXXXX-of-YYYYY. *)
Definition shard_name (base : list ascii) (i n : Z) (name : list ascii) : Prop :=
  exists xs ys, reads xs i /\ padded 5 n ys /\ length xs = length ys /\
    name = base ++ list_ascii_of_string "-" ++ xs ++ list_ascii_of_string "-of-" ++ ys.

(** The texts Python's int() reads: digits with single underscores between them, an
    optional sign in front, and blanks around. *)
Inductive numeral : list ascii -> Z -> Prop :=
| numeral_one a d : digit a d -> numeral [a] d
| numeral_more s z a d : numeral s z -> digit a d -> numeral (s ++ [a]) (10 * z + d)
| numeral_under s z a d : numeral s z -> digit a d -> numeral (s ++ ["_"%char; a]) (10 * z + d).
Definition blank (a : ascii) : Prop :=
  9 <= nat_of_ascii a <= 13 \/ 28 <= nat_of_ascii a <= 32.
Definition signed (s : list ascii) (z : Z) : Prop :=
  numeral s z \/ (exists r, s = "+"%char :: r /\ numeral r z) \/
  (exists r, s = "-"%char :: r /\ numeral r (- z)).
Definition integer_text (s : list ascii) (z : Z) : Prop :=
  exists l b r, s = l ++ b ++ r /\ Forall blank l /\ Forall blank r /\ signed b z.
