(** Names of sharded files (C46). *)
From Coq Require Import Ascii String.
From Coq Require Import List ZArith Lia Bool.
From Verif.Lib Require Import Base.
From Verif.Model Require Import Filenames.
From Verif.Spec Require Import FileSpec.
Import ListNotations.
Local Open Scope nat_scope.

(** ** Digits and numerals *)
Lemma digit_value_Some a d : digit_value a = Some d <-> digit a d.
Proof.
  unfold digit_value, digit. destruct (_ && _) eqn:E.
  - apply andb_true_iff in E as [E1 E2]. apply Z.leb_le in E1, E2. split.
    + intros [= <-]. lia.
    + intros [H1 H2]. f_equal. lia.
  - apply andb_false_iff in E. rewrite !Z.leb_gt in E. split; [discriminate|]. intros [H1 H2]. lia.
Qed.

Lemma digit_char_digit z : (0 <= z <= 9)%Z -> digit (digit_char z) z.
Proof.
  intros H. unfold digit, digit_char. split; auto.
  rewrite nat_ascii_embedding by lia. lia.
Qed.

Lemma digit_fun a d d' : digit a d -> digit a d' -> d = d'.
Proof. unfold digit. lia. Qed.

Lemma reads_fun s z : reads s z -> forall z', reads s z' -> z = z'.
Proof.
  induction 1 as [a d D|s z a d R IH D]; intros z' R'.
  - inversion R' as [a' d' D'|s' z1 a' d' R1 D' E1]; subst.
    + eapply digit_fun; eauto.
    + exfalso. destruct s' as [|? [|? ?]]; try discriminate. inversion R1. destruct s; discriminate.
  - inversion R' as [a' d' D' E1|s' z1 a' d' R1 D' E1]; subst.
    + exfalso. destruct s as [|? [|? ?]]; try discriminate. inversion R. destruct s; discriminate.
    + apply app_inj_tail in E1 as [-> ->]. rewrite (IH z1 R1), (digit_fun a d d' D D'). reflexivity.
Qed.

Lemma reads_nonneg s z : reads s z -> (0 <= z)%Z.
Proof. induction 1 as [a d D|s z a d R IH D]; destruct D; lia. Qed.

Lemma reads_digits s z : reads s z -> Forall (fun a => exists d, digit a d) s.
Proof.
  induction 1 as [a d D|s z a d R IH D]; [repeat constructor; eauto|].
  apply Forall_app. split; auto. constructor; eauto.
Qed.

Lemma reads_not_nil s z : reads s z -> s <> [].
Proof. destruct 1; [discriminate|]. destruct s; discriminate. Qed.

Lemma reads_zero s z : reads s z -> reads ("0"%char :: s) z.
Proof.
  assert (Z0 : digit "0"%char 0) by (split; [lia|reflexivity]).
  induction 1 as [a d D|s z a d R IH D].
  - change ["0"%char; a] with (["0"%char] ++ [a]).
    replace d with (10 * 0 + d)%Z by lia. constructor; auto. now constructor.
  - change ("0"%char :: s ++ [a]) with (("0"%char :: s) ++ [a]). now constructor.
Qed.

Lemma reads_zeros k s z : reads s z -> reads (repeat "0"%char k ++ s) z.
Proof. intros R. induction k; simpl; auto. now apply reads_zero. Qed.

Lemma decimal_acc fuel : forall z acc, decimal fuel z acc = decimal fuel z [] ++ acc.
Proof.
  induction fuel as [|f IH]; intros z acc; simpl; auto.
  destruct (z <? 10)%Z; auto. rewrite IH, (IH _ [digit_char (z mod 10)]), <- app_assoc. reflexivity.
Qed.

Lemma decimal_reads fuel : forall z, (0 <= z < 2 ^ Z.of_nat fuel)%Z -> 0 < fuel ->
  reads (decimal fuel z []) z /\ ((10 <= z)%Z -> hd_error (decimal fuel z []) <> Some "0"%char) /\
  ((z < 10)%Z -> length (decimal fuel z []) = 1) .
Proof.
  induction fuel as [|f IH]; intros z Hz Hf; [lia|].
  cbn [decimal]. destruct (z <? 10)%Z eqn:E.
  - apply Z.ltb_lt in E. split; [|split; [lia|reflexivity]].
    rewrite Z.mod_small by lia. constructor. apply digit_char_digit. lia.
  - apply Z.ltb_ge in E. rewrite decimal_acc.
    assert (Hd : (0 <= z / 10 < 2 ^ Z.of_nat f)%Z).
    { split; [apply Z.div_pos; lia|]. apply Z.div_lt_upper_bound; [lia|].
      replace (Z.of_nat (S f)) with (Z.of_nat f + 1)%Z in Hz by lia.
      rewrite Z.pow_add_r, Z.pow_1_r in Hz by lia. lia. }
    assert (0 < f).
    { destruct f; [|lia]. simpl in Hd. pose proof (Z.div_le_lower_bound z 10 1). lia. }
    destruct (IH (z / 10)%Z Hd) as (R & H10 & H1); auto.
    assert (Dm : digit (digit_char (z mod 10)) (z mod 10)).
    { apply digit_char_digit. pose proof (Z.mod_pos_bound z 10). lia. }
    split; [|split; [|lia]].
    + assert (Ez : z = (10 * (z / 10) + z mod 10)%Z) by (apply Z.div_mod; lia).
      pose proof (reads_more _ _ _ _ R Dm) as RR. rewrite <- Ez in RR. exact RR.
    + intros _. destruct (Z.lt_ge_cases (z / 10) 10) as [L|L].
      * specialize (H1 L). destruct (decimal f (z / 10) []) as [|c [|? ?]]; try discriminate.
        simpl. intros [= ->].
        assert (R0 : reads ["0"%char] 0) by (constructor; split; [lia|reflexivity]).
        pose proof (reads_fun _ _ R 0%Z R0).
        assert (1 <= z / 10)%Z by (apply Z.div_le_lower_bound; lia). lia.
      * pose proof (reads_not_nil _ _ R). destruct (decimal f (z / 10) []); [congruence|].
        simpl. apply H10. lia.
Qed.

Lemma show_reads z : (0 <= z)%Z ->
  reads (show z) z /\ ((10 <= z)%Z -> hd_error (show z) <> Some "0"%char) /\
  ((z < 10)%Z -> length (show z) = 1).
Proof.
  intros H. unfold show. apply decimal_reads; [|lia]. split; auto.
  replace (Z.of_nat (S (Z.to_nat (Z.log2 z)))) with (Z.log2 z + 1)%Z.
  - destruct (Z.eq_dec z 0) as [->|N]; [reflexivity|].
    replace (Z.log2 z + 1)%Z with (Z.succ (Z.log2 z)) by lia. apply Z.log2_spec. lia.
  - pose proof (Z.log2_nonneg z). lia.
Qed.

(** Numerals of the same or smaller value are not longer. *)
Lemma reads_bound s z : reads s z -> (z < 10 ^ Z.of_nat (length s))%Z.
Proof.
  induction 1 as [a d D|s z a d R IH D].
  - destruct D. simpl length. change (10 ^ Z.of_nat 1)%Z with 10%Z. lia.
  - rewrite app_length. simpl length. destruct D.
    replace (Z.of_nat (length s + 1)) with (Z.of_nat (length s) + 1)%Z by lia.
    rewrite Z.pow_add_r, Z.pow_1_r by lia. lia.
Qed.

Lemma reads_lower s z : reads s z -> hd_error s <> Some "0"%char ->
  (10 ^ (Z.of_nat (length s) - 1) <= z)%Z.
Proof.
  induction 1 as [a d D|s z a d R IH D]; intros N.
  - simpl. destruct D as [D1 D2]. destruct (Z.eq_dec d 0) as [->|]; [|lia].
    exfalso. apply N. simpl. f_equal. rewrite <- (ascii_nat_embedding a).
    replace (nat_of_ascii a) with 48 by lia. reflexivity.
  - rewrite app_length. simpl length. destruct D.
    pose proof (reads_not_nil _ _ R) as NN.
    assert (Hh : hd_error s <> Some "0"%char) by (destruct s; [congruence|exact N]).
    specialize (IH Hh).
    replace (Z.of_nat (length s + 1) - 1)%Z with (Z.of_nat (length s) - 1 + 1)%Z by lia.
    assert (0 < length s) by (destruct s; [congruence|simpl; lia]).
    rewrite Z.pow_add_r, Z.pow_1_r by lia. lia.
Qed.

Lemma show_length_mono i n : (0 <= i <= n)%Z -> length (show i) <= length (show n).
Proof.
  intros H. destruct (show_reads i) as (Ri & Hi & H1i); [lia|]. destruct (show_reads n) as (Rn & _ & _); [lia|].
  destruct (Z.lt_ge_cases i 10).
  - rewrite H1i by lia. pose proof (reads_not_nil _ _ Rn). destruct (show n); [congruence|simpl; lia].
  - pose proof (reads_lower _ _ Ri (Hi ltac:(lia))). pose proof (reads_bound _ _ Rn).
    assert (10 ^ (Z.of_nat (length (show i)) - 1) < 10 ^ Z.of_nat (length (show n)))%Z by lia.
    apply Z.pow_lt_mono_r_iff in H3; lia.
Qed.

Lemma zero_padded_reads w z : (0 <= z)%Z -> reads (zero_padded w z) z.
Proof. intros H. unfold zero_padded. apply reads_zeros. now apply show_reads. Qed.

Lemma zero_padded_length w z : length (zero_padded w z) = Nat.max w (length (show z)).
Proof. unfold zero_padded. rewrite app_length, repeat_length. lia. Qed.

Lemma zero_padded_padded w z : (0 <= z)%Z -> 1 <= w -> padded w z (zero_padded w z).
Proof.
  intros H Hw. split; [now apply zero_padded_reads|]. rewrite zero_padded_length. split; [lia|].
  intros L. unfold zero_padded. replace (w - length (show z)) with 0 by lia. simpl.
  destruct (show_reads z H) as (_ & Hh & H1). destruct (Z.lt_ge_cases z 10); [|auto].
  specialize (H1 H0). lia.
Qed.

(** ** Parsing of the shard count *)
Lemma parse_digits_app s : Forall (fun a => exists d, digit a d) s -> s <> [] ->
  forall t acc ok, exists acc', parse_digits (s ++ t) acc ok = parse_digits t acc' true /\
    forall s0, (s0 = [] -> acc = 0%Z) -> (s0 <> [] -> reads s0 acc) -> reads (s0 ++ s) acc'.
Proof.
  induction s as [|a s IH]; intros Fs N t acc ok; [congruence|].
  inversion Fs as [|? ? [d D] Fs']; subst. cbn [parse_digits app].
  apply digit_value_Some in D as Dv. rewrite Dv.
  destruct s as [|b s].
  - cbn [app]. eexists. split; [reflexivity|]. intros s0 H0 H1. destruct s0 as [|c s0].
    + simpl. rewrite H0 by auto. constructor. now replace (10 * 0 + d)%Z with d by lia.
    + constructor; auto. apply H1. discriminate.
  - destruct (IH Fs' ltac:(discriminate) t (10 * acc + d)%Z true) as (acc' & E & H).
    exists acc'. split; [exact E|]. intros s0 H0 H1.
    replace (s0 ++ a :: b :: s) with ((s0 ++ [a]) ++ b :: s) by now rewrite <- app_assoc.
    apply H.
    + intros X. destruct s0; discriminate.
    + intros _. destruct s0 as [|c s0].
      * simpl. rewrite H0 by auto. constructor. now replace (10 * 0 + d)%Z with d by lia.
      * constructor; auto. apply H1. discriminate.
Qed.

Lemma digit_not_space a d : digit a d -> is_space a = false.
Proof.
  intros [H1 H2]. unfold is_space. apply orb_false_iff. rewrite !andb_false_iff, !Nat.leb_gt. lia.
Qed.

Lemma lstrip_digits s z : reads s z -> lstrip s = s.
Proof.
  intros R. pose proof (reads_digits _ _ R) as Fs. destruct s as [|a s]; [reflexivity|].
  inversion Fs as [|? ? [d D] _]; subst. simpl. now rewrite (digit_not_space a d D).
Qed.

Lemma strip_digits s z : reads s z -> strip s = s.
Proof.
  intros R. unfold strip. rewrite (lstrip_digits s z R).
  assert (E : lstrip (rev s) = rev s).
  { pose proof (reads_digits _ _ R) as Fs. apply Forall_rev in Fs.
    destruct (rev s) as [|a r]; [reflexivity|].
    inversion Fs as [|? ? [d D] _]; subst. simpl. now rewrite (digit_not_space a d D). }
  now rewrite E, rev_involutive.
Qed.

Lemma digit_cases a d : digit a d -> In a (lit "0123456789").
Proof.
  intros [H1 H2]. rewrite <- (ascii_nat_embedding a).
  assert (N : nat_of_ascii a = 48 + Z.to_nat d) by lia. rewrite N.
  assert (L : Z.to_nat d < 10) by lia. clear - L. revert L. generalize (Z.to_nat d). intros m L.
  do 10 (destruct m as [|m]; [unfold lit; cbn; tauto|]). lia.
Qed.

Lemma py_int_reads s z : reads s z -> py_int s = Ok z.
Proof.
  intros R. unfold py_int. rewrite (strip_digits s z R).
  pose proof (reads_digits _ _ R) as Fs. pose proof (reads_not_nil _ _ R) as N.
  assert (P : parse_digits s 0 false = Some z).
  { destruct (parse_digits_app s Fs N [] 0%Z false) as (acc' & E & H).
    rewrite app_nil_r in E. rewrite E. cbn [parse_digits]. f_equal.
    apply (reads_fun s); auto. apply (H []); [auto|congruence]. }
  destruct s as [|a s]; [congruence|]. inversion Fs as [|? ? [d D] _]; subst.
  apply digit_cases in D. unfold lit in D. cbn in D.
  repeat (destruct D as [<-|D]; [now rewrite P|]). contradiction.
Qed.

(** ** Splitting *)
Lemma split_none c s : ~ In c s -> split_on c s = [s].
Proof.
  induction s as [|a s IH]; intros N; simpl; auto.
  destruct (Ascii.eqb_spec a c) as [->|]; [exfalso; apply N; now left|].
  rewrite IH; auto. intros H. apply N. now right.
Qed.

Lemma split_not_nil c s : split_on c s <> [].
Proof.
  induction s as [|a s IH]; simpl; [discriminate|].
  destruct (Ascii.eqb a c); [discriminate|]. destruct (split_on c s); discriminate.
Qed.

Lemma split_app c s t : ~ In c s -> split_on c (s ++ c :: t) = s :: split_on c t.
Proof.
  induction s as [|a s IH]; intros N; simpl.
  - now rewrite Ascii.eqb_refl.
  - destruct (Ascii.eqb_spec a c) as [->|]; [exfalso; apply N; now left|].
    rewrite IH; auto. intros H. apply N. now right.
Qed.

Lemma split_longer c x : forall y, length (split_on c y) < length (split_on c (x ++ c :: y)).
Proof.
  induction x as [|u x IH]; intros y.
  - cbn [app split_on]. rewrite Ascii.eqb_refl. simpl. lia.
  - cbn [app split_on]. specialize (IH y). destruct (Ascii.eqb u c); [simpl; lia|].
    destruct (split_on c (x ++ c :: y)) eqn:Ex; simpl in *; lia.
Qed.

Lemma first_sep (c : ascii) (s : str) : In c s -> exists a b, s = a ++ c :: b /\ ~ In c a.
Proof.
  induction s as [|x s IH]; intros H; [destruct H|].
  destruct (Ascii.eqb_spec x c) as [->|N].
  - exists [], s. auto.
  - destruct H as [->|H]; [congruence|]. destruct (IH H) as (a & b & -> & Na).
    exists (x :: a), b. split; auto. intros [X|X]; congruence || auto.
Qed.

(** ** Formatting *)
Lemma format_text (base rest : str) args : ~ In "%"%char base ->
  py_format Text (base ++ rest) args = rmap (fun s => base ++ s) (py_format Text rest args).
Proof.
  induction base as [|a b IH]; intros N.
  - simpl. destruct (py_format Text rest args); reflexivity.
  - cbn [app py_format]. destruct (Ascii.eqb_spec a "%") as [->|]; [exfalso; apply N; now left|].
    rewrite IH by (intros H; apply N; now right).
    destruct (py_format Text rest args); reflexivity.
Qed.

Lemma format_width s t args : Forall (fun a => exists d, digit a d) s -> s <> [] ->
  forall w, exists w', py_format (Width w) (s ++ t) args = py_format (Width w') t args /\
    forall s0, (s0 = [] -> w = 0%Z) -> (s0 <> [] -> reads s0 w) -> reads (s0 ++ s) w'.
Proof.
  induction s as [|a s IH]; intros Fs N w; [congruence|].
  inversion Fs as [|? ? [d D] Fs']; subst.
  apply digit_value_Some in D as Dv. cbn [app py_format]. rewrite Dv.
  destruct s as [|b s].
  - cbn [app]. eexists. split; [reflexivity|]. intros s0 H0 H1. destruct s0 as [|c s0].
    + simpl. rewrite H0 by auto. constructor. now replace (10 * 0 + d)%Z with d by lia.
    + constructor; auto. apply H1. discriminate.
  - destruct (IH Fs' ltac:(discriminate) (10 * w + d)%Z) as (w' & E & H).
    exists w'. split; [exact E|]. intros s0 H0 H1.
    replace (s0 ++ a :: b :: s) with ((s0 ++ [a]) ++ b :: s) by now rewrite <- app_assoc.
    apply H.
    + intros X. destruct s0; discriminate.
    + intros _. destruct s0 as [|c s0].
      * simpl. rewrite H0 by auto. constructor. now replace (10 * 0 + d)%Z with d by lia.
      * constructor; auto. apply H1. discriminate.
Qed.

Lemma format_shard (base : str) w i n : ~ In "%"%char base ->
  py_format Text (base ++ lit "-%0" ++ show (Z.of_nat w) ++ lit "d-of-%05d") [i; n]
  = Ok (base ++ lit "-" ++ zero_padded w i ++ lit "-of-" ++ zero_padded 5 n).
Proof.
  intros N. rewrite format_text by auto.
  destruct (show_reads (Z.of_nat w)) as (R & _); [lia|].
  destruct (format_width (show (Z.of_nat w)) (lit "d-of-%05d") [i; n]
              (reads_digits _ _ R) (reads_not_nil _ _ R) 0%Z) as (w' & E & H).
  assert (w' = Z.of_nat w) as ->.
  { apply (reads_fun (show (Z.of_nat w))); auto. apply (H []); [auto|congruence]. }
  assert (E1 : py_format Text (lit "-%0" ++ show (Z.of_nat w) ++ lit "d-of-%05d") [i; n]
    = let* s := py_format (Width (Z.of_nat w)) (lit "d-of-%05d") [i; n] in Ok ("-"%char :: s)).
  { rewrite <- E. reflexivity. }
  rewrite E1.
  assert (E2 : py_format (Width (Z.of_nat w)) (lit "d-of-%05d") [i; n]
    = Ok (zero_padded w i ++ lit "-of-" ++ zero_padded 5 n ++ [])).
  { unfold lit. cbn [list_ascii_of_string py_format]. cbn -[zero_padded]. now rewrite Nat2Z.id. }
  rewrite E2, app_nil_r. reflexivity.
Qed.

(** ** The names *)
Lemma generate_Ok (base shards : str) n : ~ In "@"%char base -> ~ In "%"%char base -> reads shards n -> (1 <= n)%Z ->
  exists names, generate_sharded_filenames (base ++ "@"%char :: shards) = Ok names /\
    length names = Z.to_nat n /\
    forall i, i < Z.to_nat n -> exists name, nth_error names i = Some name /\
      shard_name base (Z.of_nat i) n name.
Proof.
  intros Na Np R Hn. unfold generate_sharded_filenames.
  assert (Ns : ~ In "@"%char shards).
  { intros H. pose proof (reads_digits _ _ R) as Fs. rewrite Forall_forall in Fs.
    destruct (Fs _ H) as (d & D1 & D2).
  match type of D2 with Z.of_nat ?n = _ => let m := eval vm_compute in n in change n with m in D2 end. lia. }
  rewrite split_app, split_none by auto. rewrite (py_int_reads shards n R). cbn [bind].
  replace (1 <=? n)%Z with true by (symmetry; apply Z.leb_le; lia). cbn [guard bind].
  set (w := Nat.max 5 (log10_digits n)).
  assert (E : forall i : nat, py_format Text (base ++ lit "-%0" ++ show (Z.of_nat w) ++ lit "d-of-%05d")
                [Z.of_nat i; n]
              = Ok (base ++ lit "-" ++ zero_padded w (Z.of_nat i) ++ lit "-of-" ++ zero_padded 5 n)).
  { intros i. now apply format_shard. }
  destruct (mapM_total (fun i : nat => py_format Text (base ++ lit "-%0" ++ show (Z.of_nat w) ++ lit "d-of-%05d")
                [Z.of_nat i; n]) (seq 0 (Z.to_nat n))) as [names Hm].
  { intros i _. rewrite E. eauto. }
  exists names. split; [exact Hm|]. split; [now rewrite (mapM_length _ _ _ Hm), seq_length|].
  intros i Hi.
  assert (Es : nth_error (seq 0 (Z.to_nat n)) i = Some i).
  { rewrite (nth_error_nth' _ 0) by (rewrite seq_length; auto). now rewrite seq_nth. }
  destruct (mapM_nth _ _ _ _ _ Hm Es) as (name & Hname & Nname).
  rewrite E in Hname. injection Hname as <-. eexists. split; [exact Nname|].
  exists (zero_padded w (Z.of_nat i)), (zero_padded 5 n).
  split; [apply zero_padded_reads; lia|]. split; [apply zero_padded_padded; lia|].
  split; [|reflexivity]. rewrite !zero_padded_length.
  assert (length (show (Z.of_nat i)) <= length (show n)) by (apply show_length_mono; lia).
  unfold w, log10_digits. lia.
Qed.

Lemma last_sep {A} (c : A) s : forall s' d d', ~ In c d -> ~ In c d' ->
  s ++ c :: d = s' ++ c :: d' -> s = s' /\ d = d'.
Proof.
  induction s as [|a s IH]; intros s' d d' N N' E.
  - destruct s' as [|a' s']; simpl in E.
    + injection E as ->. auto.
    + injection E as -> ->. exfalso. apply N. apply in_or_app. right. now left.
  - destruct s' as [|a' s']; simpl in E.
    + injection E as -> <-. exfalso. apply N'. apply in_or_app. right. now left.
    + injection E as -> E. destruct (IH s' d d' N N' E) as [-> ->]. auto.
Qed.

Lemma reads_no_dash s z : reads s z -> ~ In "-"%char s.
Proof.
  intros R H. pose proof (reads_digits _ _ R) as Fs. rewrite Forall_forall in Fs.
  destruct (Fs _ H) as (d & D1 & D2).
  match type of D2 with Z.of_nat ?n = _ => let m := eval vm_compute in n in change n with m in D2 end. lia.
Qed.

(** A name determines base name, shard and number of shards. *)
Lemma shard_name_inj base i n base' i' n' name :
  shard_name base i n name -> shard_name base' i' n' name -> base = base' /\ i = i' /\ n = n'.
Proof.
  intros (xs & ys & Rx & (Ry & _ & _) & _ & E) (xs' & ys' & Rx' & (Ry' & _ & _) & _ & E').
  subst name.
  assert (G : forall b x y, b ++ list_ascii_of_string "-" ++ x ++ list_ascii_of_string "-of-" ++ y
    = ((b ++ "-"%char :: x) ++ "-"%char :: lit "of") ++ "-"%char :: y).
  { intros. cbn. rewrite <- !app_assoc. cbn. reflexivity. }
  rewrite !G in E'.
  apply last_sep in E' as [E' <-]; [|now apply (reads_no_dash _ _ Ry)|now apply (reads_no_dash _ _ Ry')].
  apply last_sep in E' as [E' _]; [|cbv; intuition discriminate|cbv; intuition discriminate].
  apply last_sep in E' as [<- <-]; [|now apply (reads_no_dash _ _ Rx)|now apply (reads_no_dash _ _ Rx')].
  split; auto. split; eapply reads_fun; eauto.
Qed.

(** What a successful call looks like. *)
Lemma generate_parts path names : generate_sharded_filenames path = Ok names ->
  exists base shards n, path = base ++ "@"%char :: shards /\ ~ In "@"%char base /\ ~ In "@"%char shards /\
    py_int shards = Ok n /\ (1 <= n)%Z.
Proof.
  unfold generate_sharded_filenames. intros H.
  destruct (split_on "@"%char path) as [|b [|s [|? ?]]] eqn:E; try discriminate.
  apply bind_Ok in H as (n & Hn & H). apply bind_Ok in H as (u & G & _).
  apply guard_Ok, Z.leb_le in G.
  assert (In "@"%char path) as I.
  { destruct (in_dec ascii_dec "@"%char path) as [I|I]; auto.
    rewrite split_none in E by auto. discriminate. }
  destruct (first_sep _ _ I) as (b' & r & -> & Nb). rewrite split_app in E by auto.
  injection E as -> E. assert (~ In "@"%char r) as Nr.
  { intros Hr. destruct (first_sep _ _ Hr) as (b1 & r1 & -> & N1).
    rewrite split_app in E by auto. injection E as _ E. now apply split_not_nil in E. }
  rewrite split_none in E by auto. injection E as ->. eauto 10.
Qed.

Lemma generate_names path names : generate_sharded_filenames path = Ok names ->
  ~ In "%"%char path ->
  exists base n, (1 <= n)%Z /\ length names = Z.to_nat n /\
    (exists shards, path = base ++ "@"%char :: shards) /\
    forall i, i < Z.to_nat n -> exists name, nth_error names i = Some name /\
      shard_name base (Z.of_nat i) n name.
Proof.
  intros H Np. destruct (generate_parts _ _ H) as (base & shards & n & E & Nb & Ns & Hn & H1).
  exists base, n. split; auto.
  assert (Npb : ~ In "%"%char base) by (intros X; apply Np; rewrite E; apply in_or_app; now left).
  (* the same names as for the plain numeral *)
  destruct (show_reads n) as (R & _); [lia|].
  destruct (generate_Ok base (show n) n Nb Npb R H1) as (names' & H' & L & Nm).
  assert (names' = names) as ->.
  { unfold generate_sharded_filenames in H, H'. rewrite E in H.
    rewrite split_app, split_none in H by auto. rewrite Hn in H.
    assert (Ns' : ~ In "@"%char (show n)).
    { intros X. pose proof (reads_digits _ _ R) as Fs. rewrite Forall_forall in Fs.
      destruct (Fs _ X) as (d & D1 & D2).
      match type of D2 with Z.of_nat ?n = _ => let m := eval vm_compute in n in change n with m in D2 end. lia. }
    rewrite split_app, split_none in H' by auto. rewrite (py_int_reads _ _ R) in H'. congruence. }
  split; auto. split; eauto.
Qed.

Lemma shard_name_fun base i n a b : shard_name base i n a -> shard_name base i n b -> a = b.
Proof.
  intros (xs & ys & Rx & Py & Lx & ->) (xs' & ys' & Rx' & Py' & Lx' & ->).
  assert (U : forall s z, reads s z -> forall s', reads s' z -> length s = length s' -> s = s').
  { intros s z R. induction R as [c d D|s z c d R IH D]; intros s' R' L.
    - inversion R' as [c' d' D'|s1 z1 c' d' R1 D' E1]; subst.
      + f_equal. destruct D, D'. rewrite <- (ascii_nat_embedding c), <- (ascii_nat_embedding c'). f_equal. lia.
      + exfalso. pose proof (reads_not_nil _ _ R1). rewrite app_length in L. destruct s1; [congruence|simpl in L; lia].
    - inversion R' as [c' d' D' E1|s1 z1 c' d' R1 D' E1 E2]; subst.
      + exfalso. pose proof (reads_not_nil _ _ R). rewrite app_length in L. destruct s; [congruence|simpl in L; lia].
      + rewrite !app_length in L. simpl in L. destruct D, D'.
        assert (d' = d /\ z1 = z) as [-> ->].
        { change (10 * z1 + d' = 10 * z + d)%Z in E2. apply reads_nonneg in R, R1. lia. }
        rewrite (IH s1 R1) by lia. f_equal. f_equal.
        rewrite <- (ascii_nat_embedding c), <- (ascii_nat_embedding c'). f_equal. lia. }
  assert (Ey : ys = ys').
  { destruct Py as (Ry & L5 & Hh), Py' as (Ry' & L5' & Hh').
    apply (U ys n Ry ys' Ry').
    destruct (Nat.eq_dec (length ys) (length ys')) as [|NE]; auto. exfalso.
    assert (W : forall u v, reads u n -> reads v n -> 5 <= length v ->
              (5 < length u -> hd_error u <> Some "0"%char) -> length v < length u -> False).
    { intros u v Ru Rv L5v Hu Luv. pose proof (reads_lower _ _ Ru (Hu ltac:(lia))).
      pose proof (reads_bound _ _ Rv).
      assert (X : (10 ^ (Z.of_nat (length u) - 1) < 10 ^ Z.of_nat (length v))%Z) by lia.
      apply Z.pow_lt_mono_r_iff in X; lia. }
    destruct (Nat.lt_ge_cases (length ys) (length ys')).
    - apply (W ys' ys); auto.
    - apply (W ys ys'); auto. lia. }
  subst ys'. rewrite (U xs i Rx xs' Rx') by congruence. reflexivity.
Qed.

(** Names of one path are distinct; paths of different files share none. *)
Lemma generate_nodup path names : generate_sharded_filenames path = Ok names ->
  ~ In "%"%char path -> NoDup names.
Proof.
  intros H Np. destruct (generate_names _ _ H Np) as (base & n & H1 & L & _ & Nm).
  apply NoDup_nth_error. intros i j Hi E. rewrite L in Hi.
  destruct (Nm i Hi) as (a & Ea & Sa). rewrite Ea in E.
  assert (Hj : j < Z.to_nat n) by (rewrite <- L; eapply nth_error_Some_lt; symmetry; eauto).
  destruct (Nm j Hj) as (b & Eb & Sb). assert (a = b) as <- by congruence.
  destruct (shard_name_inj _ _ _ _ _ _ _ Sa Sb) as (_ & X & _). lia.
Qed.

Lemma generate_disjoint p1 p2 l1 l2 f :
  generate_sharded_filenames p1 = Ok l1 -> generate_sharded_filenames p2 = Ok l2 ->
  ~ In "%"%char p1 -> ~ In "%"%char p2 -> In f l1 -> In f l2 -> l1 = l2.
Proof.
  intros H1 H2 N1 N2 I1 I2.
  destruct (generate_names _ _ H1 N1) as (b1 & n1 & P1 & L1 & _ & Nm1).
  destruct (generate_names _ _ H2 N2) as (b2 & n2 & P2 & L2 & _ & Nm2).
  apply In_nth_error in I1 as (i & Ei), I2 as (j & Ej).
  assert (Hi : i < Z.to_nat n1) by (rewrite <- L1; eapply nth_error_Some_lt; eauto).
  assert (Hj : j < Z.to_nat n2) by (rewrite <- L2; eapply nth_error_Some_lt; eauto).
  destruct (Nm1 i Hi) as (a & Ea & Sa), (Nm2 j Hj) as (b & Eb & Sb).
  assert (a = f) as -> by congruence. assert (b = f) as -> by congruence.
  destruct (shard_name_inj _ _ _ _ _ _ _ Sa Sb) as (-> & _ & ->).
  apply nth_error_ext_eq. intros k. destruct (Nat.lt_ge_cases k (Z.to_nat n2)) as [Hk|Hk].
  - destruct (Nm1 k Hk) as (a & Ea' & Sa'), (Nm2 k Hk) as (b & Eb' & Sb').
    rewrite Ea', Eb'. f_equal. eapply shard_name_fun; eauto.
  - rewrite !(proj2 (nth_error_None _ k)) by lia. reflexivity.
Qed.

(** Failures. *)
Lemma generate_fails path :
  (~ In "@"%char path -> generate_sharded_filenames path = Err ValueError) /\
  (forall a b c, path = a ++ "@"%char :: b ++ "@"%char :: c ->
     generate_sharded_filenames path = Err ValueError) /\
  (forall base shards n, path = base ++ "@"%char :: shards -> ~ In "@"%char base -> ~ In "@"%char shards ->
     py_int shards = Ok n -> (n < 1)%Z -> generate_sharded_filenames path = Err ValueError).
Proof.
  split; [|split].
  - intros N. unfold generate_sharded_filenames. now rewrite split_none.
  - intros a b c ->. unfold generate_sharded_filenames.
    assert (L : 3 <= length (split_on "@"%char (a ++ "@"%char :: b ++ "@"%char :: c))).
    { pose proof (split_longer "@"%char) as G.
      pose proof (G a (b ++ "@"%char :: c)). pose proof (G b c).
      pose proof (split_not_nil "@"%char c). destruct (split_on "@"%char c); [congruence|]. simpl in *. lia. }
    destruct (split_on _ _) as [|? [|? [|? ?]]]; simpl in L; try lia; reflexivity.
  - intros base shards n -> Nb Ns Hn H1. unfold generate_sharded_filenames.
    rewrite split_app, split_none by auto. rewrite Hn. cbn [bind].
    replace (1 <=? n)%Z with false by (symmetry; apply Z.leb_gt; lia). reflexivity.
Qed.

(** files_to_load *)
Lemma basename_app dir base : ~ In "/"%char base -> basename (dir ++ "/"%char :: base) = base.
Proof.
  intros N. unfold basename.
  assert (G : forall d, last (split_on "/"%char (d ++ "/"%char :: base)) [] = base).
  { induction d as [|a d IH].
    - cbn [app split_on Ascii.eqb]. rewrite split_none by auto. reflexivity.
    - cbn [app split_on]. destruct (split_on "/"%char (d ++ "/"%char :: base)) as [|p ps] eqn:E.
      + now apply split_not_nil in E.
      + destruct (Ascii.eqb a "/"); [exact IH|]. destruct ps as [|p' ps].
        * exfalso. assert (L : length (split_on "/"%char (d ++ "/"%char :: base)) = 1) by now rewrite E.
          pose proof (split_longer "/"%char d base) as G. pose proof (split_not_nil "/"%char base).
          destruct (split_on "/"%char base); [congruence|]. simpl in G. lia.
        * exact IH. }
  apply G.
Qed.

Lemma files_spec dir base : ~ In "/"%char base ->
  files_to_load (dir ++ "/"%char :: base) =
    if in_dec ascii_dec "@"%char base then generate_sharded_filenames (dir ++ "/"%char :: base)
    else Ok [dir ++ "/"%char :: base].
Proof.
  intros N. unfold files_to_load. rewrite basename_app by auto.
  destruct (existsb (Ascii.eqb "@") base) eqn:E.
  - apply existsb_exists in E as (x & Hx & Ex). apply Ascii.eqb_eq in Ex. subst x.
    destruct (in_dec ascii_dec "@"%char base); [reflexivity|contradiction].
  - destruct (in_dec ascii_dec "@"%char base) as [I|]; [|reflexivity]. exfalso.
    assert (X : existsb (Ascii.eqb "@") base = true).
    { apply existsb_exists. exists "@"%char. split; auto. }
    congruence.
Qed.

(** ** int() *)
Fixpoint digits_state (s : str) (acc : Z) (ok : bool) : option (Z * bool) :=
  match s with
  | [] => Some (acc, ok)
  | a :: r =>
      match digit_value a with
      | Some d => digits_state r (10 * acc + d)%Z true
      | None => if Ascii.eqb a "_" && ok then digits_state r acc false else None
      end
  end.
Lemma parse_state s : forall acc ok,
  parse_digits s acc ok = match digits_state s acc ok with Some (z, true) => Some z | _ => None end.
Proof.
  induction s as [|a s IH]; intros acc ok; simpl; [destruct ok; reflexivity|].
  destruct (digit_value a); [apply IH|]. destruct (_ && _); [apply IH|reflexivity].
Qed.
Lemma state_app s t : forall acc ok, digits_state (s ++ t) acc ok =
  match digits_state s acc ok with Some (z, b) => digits_state t z b | None => None end.
Proof.
  induction s as [|a s IH]; intros acc ok; simpl; [reflexivity|].
  destruct (digit_value a); [apply IH|]. destruct (_ && _); [apply IH|reflexivity].
Qed.
Lemma digit_not_under d : ~ digit "_"%char d.
Proof. intros [H1 H2]. change (Z.of_nat (nat_of_ascii "_")) with 95%Z in H2. lia. Qed.
Lemma under_not_digit : digit_value "_"%char = None.
Proof. reflexivity. Qed.

Lemma state_numeral s z : numeral s z -> digits_state s 0 false = Some (z, true).
Proof.
  induction 1 as [a d D|s z a d R IH D|s z a d R IH D].
  - apply digit_value_Some in D. cbn [digits_state]. rewrite D. reflexivity.
  - rewrite state_app, IH. apply digit_value_Some in D. cbn [digits_state]. now rewrite D.
  - rewrite state_app, IH. apply digit_value_Some in D. cbn [digits_state]. rewrite under_not_digit. cbn. now rewrite D.
Qed.
Lemma state_inv s z b : digits_state s 0 false = Some (z, b) ->
  if b then numeral s z else (s = [] /\ z = 0%Z) \/ exists s', s = s' ++ ["_"%char] /\ numeral s' z.
Proof.
  revert z b. induction s as [|a s IH] using rev_ind; intros z b H.
  - injection H as <- <-. auto.
  - rewrite state_app in H. destruct (digits_state s 0 false) as [[z1 b1]|] eqn:E; [|discriminate].
    specialize (IH _ _ eq_refl). cbn [digits_state] in H. destruct (digit_value a) as [d|] eqn:D.
    + injection H as <- <-. apply digit_value_Some in D. destruct b1; [now constructor|].
      destruct IH as [[-> ->]|(s' & -> & N)].
      * cbn [app]. replace (10 * 0 + d)%Z with d by lia. now constructor.
      * rewrite <- app_assoc. now constructor.
    + destruct (Ascii.eqb_spec a "_"%char) as [->|]; [|discriminate]. destruct b1; [|discriminate].
      injection H as <- <-. right. eauto.
Qed.
Lemma parse_numeral s z : parse_digits s 0 false = Some z <-> numeral s z.
Proof.
  rewrite parse_state. split.
  - destruct (digits_state s 0 false) as [[z1 [|]]|] eqn:E; intros H; try discriminate.
    injection H as ->. exact (state_inv _ _ _ E).
  - intros N. now rewrite (state_numeral _ _ N).
Qed.

Lemma is_space_blank a : is_space a = true <-> blank a.
Proof.
  unfold is_space, blank. rewrite orb_true_iff, !andb_true_iff, !Nat.leb_le. tauto.
Qed.
Lemma lstrip_app s : exists l, s = l ++ lstrip s /\ Forall blank l.
Proof.
  induction s as [|a s (l & E & F)]; [exists []; auto|]. simpl. destruct (is_space a) eqn:B.
  - exists (a :: l). split; [simpl; now rewrite <- E|]. constructor; [now apply is_space_blank|auto].
  - exists []. auto.
Qed.
Lemma lstrip_keep s t : Forall blank s -> lstrip (s ++ t) = lstrip t.
Proof.
  induction 1 as [|a s B _ IH]; simpl; auto. apply is_space_blank in B. now rewrite B.
Qed.
Lemma lstrip_nonblank a s : ~ blank a -> lstrip (a :: s) = a :: s.
Proof. intros N. simpl. destruct (is_space a) eqn:B; auto. now apply is_space_blank in B. Qed.
Lemma strip_app s : exists l r, s = l ++ strip s ++ r /\ Forall blank l /\ Forall blank r.
Proof.
  unfold strip. destruct (lstrip_app s) as (l & E & F).
  destruct (lstrip_app (rev (lstrip s))) as (r & E' & F').
  exists l, (rev r). split; [|split; [exact F|now apply Forall_rev]].
  rewrite E at 1. f_equal. rewrite <- rev_app_distr, <- E'. now rewrite rev_involutive.
Qed.
Lemma strip_exact l b r : Forall blank l -> Forall blank r ->
  (exists a t, b = a :: t /\ ~ blank a) -> (exists a t, b = t ++ [a] /\ ~ blank a) ->
  strip (l ++ b ++ r) = b.
Proof.
  intros Fl Fr (a & t & E & N) (a' & t' & E' & N'). unfold strip. rewrite lstrip_keep by auto.
  assert (H : lstrip (b ++ r) = b ++ r) by (rewrite E; cbn [app]; now apply lstrip_nonblank). rewrite H.
  rewrite rev_app_distr, lstrip_keep by now apply Forall_rev.
  rewrite E', rev_app_distr. cbn [rev app]. rewrite lstrip_nonblank by auto.
  change (a' :: rev t') with ([a'] ++ rev t'). now rewrite rev_app_distr, rev_involutive.
Qed.

Lemma digit_not_blank a d : digit a d -> ~ blank a.
Proof. intros [H1 H2] [B|B]; lia. Qed.
Lemma numeral_last s z : numeral s z -> exists a t, s = t ++ [a] /\ ~ blank a.
Proof.
  destruct 1 as [a d D|s z a d R D|s z a d R D].
  - exists a, []. split; [reflexivity|eapply digit_not_blank; eauto].
  - exists a, s. split; [reflexivity|eapply digit_not_blank; eauto].
  - exists a, (s ++ ["_"%char]). rewrite <- app_assoc. split; [reflexivity|eapply digit_not_blank; eauto].
Qed.
Lemma numeral_first s z : numeral s z -> exists a t d, s = a :: t /\ digit a d.
Proof.
  induction 1 as [a d D|s z a d R (b & t & e & -> & B) D|s z a d R (b & t & e & -> & B) D]; cbn [app]; eauto 6.
Qed.

Definition sign_parse (b : str) : option Z := match b with
           | "+"%char :: r => parse_digits r 0 false
           | "-"%char :: r => option_map Z.opp (parse_digits r 0 false)
           | r => parse_digits r 0 false
           end.
Lemma py_int_parse s : py_int s = match sign_parse (strip s) with Some z => Ok z | None => Err ValueError end.
Proof.
  unfold py_int. destruct (strip s) as [|[[|] [|] [|] [|] [|] [|] [|] [|]] t]; reflexivity.
Qed.

Lemma py_int_spec s z : py_int s = Ok z <-> integer_text s z.
Proof.
  assert (Dp : forall d, ~ digit "+"%char d) by (intros d [H1 H2]; change (Z.of_nat (nat_of_ascii "+")) with 43%Z in H2; lia).
  assert (Dm : forall d, ~ digit "-"%char d) by (intros d [H1 H2]; change (Z.of_nat (nat_of_ascii "-")) with 45%Z in H2; lia).
  assert (G : forall b, match sign_parse b with Some z => Ok z | None => Err ValueError end = Ok z <-> signed b z).
  { intros b. destruct b as [|a b].
    { cbn. split; [discriminate|]. intros [N|[(r & E & _)|(r & E & _)]]; try discriminate.
      destruct (numeral_first _ _ N) as (? & ? & ? & ? & _). discriminate. }
    destruct (Ascii.eqb_spec a "+"%char) as [->|Np]; [|destruct (Ascii.eqb_spec a "-"%char) as [->|Nm]].
    - cbn -[parse_digits]; destruct (parse_digits b 0 false) as [z1|] eqn:E; cbn.
      + split.
        * intros [= <-]. right. left. exists b. split; [reflexivity|]. now apply parse_numeral.
        * intros [N|[(r & Er & N)|(r & Er & _)]]; [|injection Er as <-; apply parse_numeral in N; congruence|discriminate].
          destruct (numeral_first _ _ N) as (a & t & d & Ea & D). injection Ea as <- _. now apply Dp in D.
      + split; [discriminate|].
        intros [N|[(r & Er & N)|(r & Er & _)]]; [|injection Er as <-; apply parse_numeral in N; congruence|discriminate].
        destruct (numeral_first _ _ N) as (a & t & d & Ea & D). injection Ea as <- _. now apply Dp in D.
    - cbn -[parse_digits]; destruct (parse_digits b 0 false) as [z1|] eqn:E; cbn.
      + split.
        * intros [= <-]. right. right. exists b. split; [reflexivity|]. rewrite Z.opp_involutive. now apply parse_numeral.
        * intros [N|[(r & Er & _)|(r & Er & N)]]; [|discriminate|injection Er as <-; apply parse_numeral in N; f_equal; assert (z1 = (- z)%Z) by congruence; lia].
          destruct (numeral_first _ _ N) as (a & t & d & Ea & D). injection Ea as <- _. now apply Dm in D.
      + split; [discriminate|].
        intros [N|[(r & Er & _)|(r & Er & N)]]; [|discriminate|injection Er as <-; apply parse_numeral in N; congruence].
        destruct (numeral_first _ _ N) as (a & t & d & Ea & D). injection Ea as <- _. now apply Dm in D.
    - assert (E0 : sign_parse (a :: b) = parse_digits (a :: b) 0 false).
      { destruct a as [[|] [|] [|] [|] [|] [|] [|] [|]]; try reflexivity; congruence. }
      rewrite E0. destruct (parse_digits (a :: b) 0 false) as [z1|] eqn:E; split.
      + intros [= <-]. left. now apply parse_numeral.
      + intros [N|[(r & Er & _)|(r & Er & _)]]; [apply parse_numeral in N; congruence|congruence|congruence].
      + discriminate.
      + intros [N|[(r & Er & _)|(r & Er & _)]]; [apply parse_numeral in N; congruence|congruence|congruence]. }
  rewrite py_int_parse, G. split.
  - intros H. destruct (strip_app s) as (l & r & E & Fl & Fr). exists l, (strip s), r. auto.
  - intros (l & b & r & -> & Fl & Fr & Sg). rewrite strip_exact; auto.
    + destruct Sg as [N|[(t & -> & _)|(t & -> & _)]].
      * destruct (numeral_first _ _ N) as (a & t & d & -> & D). exists a, t. split; [reflexivity|eapply digit_not_blank; eauto].
      * exists "+"%char, t. split; [reflexivity|]. intros [B|B]; cbv in B; lia.
      * exists "-"%char, t. split; [reflexivity|]. intros [B|B]; cbv in B; lia.
    + destruct Sg as [N|[(t & -> & N)|(t & -> & N)]].
      * exact (numeral_last _ _ N).
      * destruct (numeral_last _ _ N) as (a & t' & -> & B). exists a, ("+"%char :: t'). auto.
      * destruct (numeral_last _ _ N) as (a & t' & -> & B). exists a, ("-"%char :: t'). auto.
Qed.

Lemma py_int_Err s e : py_int s = Err e -> e = ValueError.
Proof. rewrite py_int_parse. destruct (sign_parse (strip s)); congruence. Qed.

(** Which paths are accepted. *)
Lemma generate_accepts path : ~ In "%"%char path ->
  (exists names, generate_sharded_filenames path = Ok names) <->
  exists base shards n, path = base ++ "@"%char :: shards /\ ~ In "@"%char base /\ ~ In "@"%char shards /\
    integer_text shards n /\ (1 <= n)%Z.
Proof.
  intros Np. split.
  - intros [names H]. destruct (generate_parts path names H) as (base & shards & n & E & Nb & Ns & Hn & G).
    exists base, shards, n. split; [exact E|]. split; [exact Nb|]. split; [exact Ns|]. split; [now apply py_int_spec|exact G].
  - intros (base & shards & n & -> & Nb & Ns & It & Hn). apply py_int_spec in It.
    unfold generate_sharded_filenames. rewrite split_app, split_none by auto. rewrite It. cbn [bind].
    replace (1 <=? n)%Z with true by (symmetry; apply Z.leb_le; lia). cbn [guard bind]. apply mapM_total.
    intros i _. rewrite format_shard; [eauto|..]; auto. intros X. apply Np. apply in_or_app. auto.
Qed.

Lemma split_two path base shards : split_on "@"%char path = [base; shards] ->
  path = base ++ "@"%char :: shards /\ ~ In "@"%char base /\ ~ In "@"%char shards.
Proof.
  intros E. assert (I : In "@"%char path).
  { destruct (in_dec ascii_dec "@"%char path) as [I|N]; auto. rewrite split_none in E by auto. discriminate. }
  destruct (first_sep _ _ I) as (b' & r & -> & Nb). rewrite split_app in E by auto.
  injection E as -> E. assert (~ In "@"%char r) as Nr.
  { intros Hr. destruct (first_sep _ _ Hr) as (b1 & r1 & -> & N1).
    rewrite split_app in E by auto. injection E as _ E. now apply split_not_nil in E. }
  rewrite split_none in E by auto. injection E as ->. auto.
Qed.

Lemma generate_Err path e : ~ In "%"%char path -> generate_sharded_filenames path = Err e -> e = ValueError.
Proof.
  intros Np H. unfold generate_sharded_filenames in H.
  destruct (split_on "@"%char path) as [|base [|shards [|? ?]]] eqn:Es; try congruence.
  destruct (py_int shards) as [n|e1] eqn:En; [|cbn in H; apply py_int_Err in En; congruence].
  cbn [bind] in H. destruct (1 <=? n)%Z eqn:G; [|cbn in H; congruence]. exfalso.
  assert (X : exists names, generate_sharded_filenames path = Ok names).
  { apply generate_accepts; auto. apply split_two in Es as (E & Nb & Ns). exists base, shards, n. split; [exact E|].
    split; [exact Nb|]. split; [exact Ns|]. split; [now apply py_int_spec|now apply Z.leb_le]. }
  destruct X as [names X]. unfold generate_sharded_filenames in X. rewrite Es, En in X. cbn [bind] in X. rewrite G in X. congruence.
Qed.
