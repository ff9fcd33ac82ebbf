(** Model of waymax/dataloader/dataloader_utils.py: names of sharded files.
    A Python string is the list of its characters; only ASCII is modelled. *)
From Coq Require Import Ascii String.
From Coq Require Import List ZArith Bool.
From Verif.Lib Require Import Base.
Import ListNotations.

Definition str := list ascii.
Definition lit (s : string) : str := list_ascii_of_string s.

(** str.split(c) for a one-character separator. *)
Fixpoint split_on (c : ascii) (s : str) : list str :=
  match s with
  | [] => [[]]
  | a :: r =>
      let parts := split_on c r in
      if Ascii.eqb a c then [] :: parts
      else match parts with p :: ps => (a :: p) :: ps | [] => [[a]] end
  end.

Definition digit_value (a : ascii) : option Z :=
  let n := Z.of_nat (nat_of_ascii a) in
  if (48 <=? n)%Z && (n <=? 57)%Z then Some (n - 48)%Z else None.

Definition is_space (a : ascii) : bool :=
  let n := nat_of_ascii a in
  ((9 <=? n) && (n <=? 13) || (28 <=? n) && (n <=? 32))%nat.

Fixpoint lstrip (s : str) : str :=
  match s with
  | a :: r => if is_space a then lstrip r else s
  | [] => []
  end.
Definition strip (s : str) : str := rev (lstrip (rev (lstrip s))).

(** The digits of int(), single underscores between digits allowed.  [ok] is
    true after a digit, when the text may end. *)
Fixpoint parse_digits (s : str) (acc : Z) (ok : bool) : option Z :=
  match s with
  | [] => if ok then Some acc else None
  | a :: r =>
      match digit_value a with
      | Some d => parse_digits r (10 * acc + d)%Z true
      | None => if Ascii.eqb a "_" && ok then parse_digits r acc false else None
      end
  end.

(** int(s) for a str: blanks around, an optional sign, digits. *)
Definition py_int (s : str) : res Z :=
  let o := match strip s with
           | "+"%char :: r => parse_digits r 0 false
           | "-"%char :: r => option_map Z.opp (parse_digits r 0 false)
           | r => parse_digits r 0 false
           end in
  match o with Some z => Ok z | None => Err ValueError end.

(** Decimal digits of z >= 0, most significant first; [fuel] bounds their number. *)
Definition digit_char (z : Z) : ascii := ascii_of_nat (Z.to_nat (48 + z)).
Fixpoint decimal (fuel : nat) (z : Z) (acc : str) : str :=
  match fuel with
  | 0 => acc
  | S f =>
      let acc' := digit_char (z mod 10) :: acc in
      if (z <? 10)%Z then acc' else decimal f (z / 10) acc'
  end.
Definition show (z : Z) : str := decimal (S (Z.to_nat (Z.log2 z))) z [].

(** '%0wd' % z for z >= 0. *)
Definition zero_padded (w : nat) (z : Z) : str :=
  repeat "0"%char (w - length (show z)) ++ show z.

(** int(math.log10(n) + 1) for n >= 1, the number of decimal digits.
    Simplification: math.log10 is exact here; in double precision the result is
    one too large for some n just below a power of ten from 10^15 on. *)
Definition log10_digits (n : Z) : nat := length (show n).

(** format % args for a format made of literal characters, %%, %d and %0wd; args
    are non-negative integers.  [Percent] is the state after a percent sign,
    [Width w] the one after the width digits read so far.  Simplification: the other
    flags and conversions of Python are not modelled and give NotImplementedError,
    which the code cannot raise here. *)
Inductive fstate := Text | Percent | Width (w : Z).
Fixpoint py_format (st : fstate) (fmt : str) (args : list Z) : res str :=
  match fmt with
  | [] =>
      match st, args with
      | Text, [] => Ok []
      | Text, _ :: _ => Err TypeError
      | _, _ => Err ValueError
      end
  | a :: r =>
      let convert w :=
        match args with
        | [] => Err TypeError
        | z :: args' => let* s := py_format Text r args' in Ok (zero_padded w z ++ s)
        end in
      match st with
      | Text =>
          if Ascii.eqb a "%" then py_format Percent r args
          else let* s := py_format Text r args in Ok (a :: s)
      | Percent =>
          if Ascii.eqb a "%" then let* s := py_format Text r args in Ok (a :: s)
          else if Ascii.eqb a "d" then convert 0
          else if Ascii.eqb a "0" then py_format (Width 0) r args
          else Err NotImplementedError
      | Width w =>
          match digit_value a with
          | Some d => py_format (Width (10 * w + d)) r args
          | None => if Ascii.eqb a "d" then convert (Z.to_nat w) else Err NotImplementedError
          end
      end
  end.

(** dataloader_utils.py:33-60, generate_sharded_filenames.  Unpacking the split
    into two names and log10 of a number below 1 raise ValueError. *)
Definition generate_sharded_filenames (path : str) : res (list str) :=
  match split_on "@"%char path with
  | [base_name; shards] =>
      let* num_shards := py_int shards in
      let* _ := guard (1 <=? num_shards)%Z ValueError in
      let shard_width := Nat.max 5 (log10_digits num_shards) in
      let format_str := base_name ++ lit "-%0" ++ show (Z.of_nat shard_width) ++ lit "d-of-%05d" in
      mapM (fun i => py_format Text format_str [Z.of_nat i; num_shards])
        (seq 0 (Z.to_nat num_shards))
  | _ => Err ValueError
  end.

(** os.path.basename on POSIX: what follows the last slash. *)
Definition basename (path : str) : str := last (split_on "/"%char path) [].

(** dataloader_utils.py:113-115, files_to_load. *)
Definition files_to_load (path : str) : res (list str) :=
  if existsb (Ascii.eqb "@") (basename path) then generate_sharded_filenames path
  else Ok [path].
