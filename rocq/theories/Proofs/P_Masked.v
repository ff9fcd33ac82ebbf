(** Proofs for C45 and C56. *)
From Coq Require Import Reals ZArith List Lia Lra Bool.
From Verif.Lib Require Import Base JaxIndex Scalar XR.
From Verif.Model Require Import Operations Metrics Masked.
From Verif.Spec Require Import StateSpec MetricSpec MaskSpec.
From Verif.Proofs Require Import P_Metrics P_Route.
Import ListNotations.
Open Scope R_scope.

Lemma fsum_count_from (v : list bool) a :
  fold_left (fadd (Scalar := XR)) (map fbool v) (Fin a) = Fin (a + INR (valid_count v)).
Proof.
  revert a. induction v as [|b v IH]; intros a; cbn [map fold_left valid_count].
  - simpl. f_equal. lra.
  - destruct b; unfold fbool at 2; [rewrite f1_Fin|rewrite f0_Fin]; rewrite fadd_Fin, IH; f_equal.
    + rewrite plus_INR. simpl. lra.
    + simpl. lra.
Qed.

Lemma fsum_count (v : list bool) : fsum (S := XR) (map fbool v) = Fin (INR (valid_count v)).
Proof. unfold fsum. rewrite f0_Fin, fsum_count_from. f_equal. lra. Qed.

Lemma sum_where_from (x : list xr) v r a : valid_entries x v r ->
  fold_left (fadd (Scalar := XR)) (map fst (filter snd (combine x v))) (Fin a) = Fin (a + valid_sum r v).
Proof.
  revert v r a. induction x as [|y x IH]; intros [|b v] [|s r] a (L1 & L2 & H); try discriminate.
  - simpl. f_equal. lra.
  - assert (HV : valid_entries x v r).
    { split; [simpl in *; lia|]. split; [simpl in *; lia|]. intros i Hi. exact (H (S i) Hi). }
    cbn [combine filter snd valid_sum]. destruct b.
    + specialize (H 0%nat eq_refl). cbn in H. apply Some_inj in H. subst y.
      cbn [map fst fold_left]. rewrite fadd_Fin, IH with (r := r) by auto. f_equal. lra.
    + rewrite IH with (r := r) by auto. f_equal. lra.
Qed.

Lemma sum_where_Fin (x : list xr) v r : valid_entries x v r -> sum_where (S := XR) x v = Fin (valid_sum r v).
Proof. intros H. unfold sum_where, fsum. rewrite f0_Fin, (sum_where_from x v r) by auto. f_equal. lra. Qed.

Lemma line_mean_Fin (x : list xr) v r inv : valid_entries x v r ->
  line_mean (S := XR) x v inv
  = if (valid_count v =? 0)%nat then inv else Fin (valid_sum r v / INR (valid_count v)).
Proof.
  intros H. unfold line_mean. rewrite fsum_count, (sum_where_Fin x v r) by auto. rewrite f0_Fin, feqb_Fin.
  destruct (Nat.eqb_spec (valid_count v) 0) as [E|E].
  - rewrite E. assert (Hz : Reqb (INR 0) 0 = true) by (apply Reqb_true; reflexivity). now rewrite Hz.
  - assert (HN : INR (valid_count v) <> 0) by (apply not_0_INR; auto).
    assert (Hz : Reqb (INR (valid_count v)) 0 = false).
    { destruct (Reqb (INR (valid_count v)) 0) eqn:EE; auto. apply Reqb_true in EE. contradiction. }
    rewrite Hz. unfold where_. now apply fdiv_Fin.
Qed.

(** The mean lies between any bounds of the valid entries. *)
Lemma valid_sum_bounds r v lo hi : length r = length v ->
  (forall i a, nth_error v i = Some true -> nth_error r i = Some a -> lo <= a <= hi) ->
  lo * INR (valid_count v) <= valid_sum r v <= hi * INR (valid_count v).
Proof.
  revert v. induction r as [|a r IH]; intros [|b v] L H; try discriminate.
  - simpl. lra.
  - cbn [valid_sum valid_count]. injection L as L.
    specialize (IH v L (fun i c => H (S i) c)). destruct b.
    + specialize (H 0%nat a eq_refl eq_refl). rewrite plus_INR. simpl. lra.
    + simpl. lra.
Qed.

Lemma valid_count_pos v i : nth_error v i = Some true -> (0 < valid_count v)%nat.
Proof.
  revert i. induction v as [|b v IH]; intros [|i] H; try discriminate; cbn [valid_count].
  - injection H as ->. lia.
  - specialize (IH i H). destruct b; lia.
Qed.

Lemma valid_count_zero v : valid_count v = 0%nat -> forall i, nth_error v i <> Some true.
Proof. intros H i Hi. apply valid_count_pos in Hi. lia. Qed.

Lemma masked_mean_vec_spec (x : list xr) v inv :
  (forall r, valid_entries x v r ->
     exists m, masked_mean_vec (S := XR) x v inv = Ok m /\ length m = length x /\
       ((forall j, nth_error v j <> Some true) -> forall y, In y m -> y = inv) /\
       ((exists j, nth_error v j = Some true) -> forall y, In y m ->
          y = Fin (valid_sum r v / INR (valid_count v)))) /\
  (length v <> length x -> length v <> 1%nat -> masked_mean_vec (S := XR) x v inv = Err ValueError).
Proof.
  unfold masked_mean_vec. split.
  - intros r HV. pose proof HV as (L1 & L2 & _). change (@F XR) with xr.
    assert (L : length x = length v) by congruence. rewrite L, Nat.eqb_refl. cbn [guard bind].
    eexists. split; [reflexivity|]. rewrite repeat_length. split; auto.
    rewrite (line_mean_Fin x v r) by auto. split.
    + intros Hn y Hy. apply repeat_spec in Hy. subst y.
      destruct (Nat.eqb_spec (valid_count v) 0) as [E|E]; auto. exfalso.
      clear -Hn E. induction v as [|b v IH]; [now apply E|]. destruct b; [now apply (Hn 0%nat)|].
      apply IH; [intros j; exact (Hn (Datatypes.S j))|exact E].
    + intros (j & Hj) y Hy. apply repeat_spec in Hy. subst y.
      apply valid_count_pos in Hj. destruct (Nat.eqb_spec (valid_count v) 0); [lia|reflexivity].
  - intros H _. change (@F XR) with xr. destruct (Nat.eqb_spec (length x) (length v)); [congruence|reflexivity].
Qed.

Lemma masked_mean_last_Ok (x : list (list xr)) v inv m : masked_mean_last (S := XR) x v inv = Ok m ->
  length m = length x /\ length v = length x /\
  forall i xi, nth_error x i = Some xi -> exists vi,
    nth_error v i = Some vi /\ length vi = length xi /\
    nth_error m i = Some (repeat (line_mean (S := XR) xi vi inv) (length xi)).
Proof.
  unfold masked_mean_last. intros H. apply bind_Ok in H as (u & G & H). apply guard_Ok in G.
  apply Nat.eqb_eq in G.
  assert (LC : length (combine x v) = length x) by (rewrite combine_length; unfold F, XR in *; lia).
  split; [rewrite (mapM_length _ _ _ H); exact LC|]. split; [symmetry; exact G|].
  intros i xi Hx.
  assert (Hv : exists vi, nth_error v i = Some vi).
  { destruct (nth_error v i) eqn:E; [eauto|]. apply nth_error_None in E.
    pose proof (nth_error_Some_lt _ _ _ Hx). unfold F, XR in *. lia. }
  destruct Hv as [vi Hv]. exists vi. split; auto.
  assert (HC : nth_error (combine x v) i = Some (xi, vi)).
  { clear - Hx Hv. revert v i Hx Hv. induction x as [|a x IH]; intros [|b v] [|i] Hx Hv; try discriminate.
    - cbn in *. apply Some_inj in Hx. apply Some_inj in Hv. subst. reflexivity.
    - cbn in *. now apply IH. }
  destruct (mapM_nth _ _ _ _ _ H HC) as (r & Hr & Hm). cbn [fst snd] in Hr.
  apply bind_Ok in Hr as (u' & G' & Hr). apply guard_Ok in G'. apply Nat.eqb_eq in G'.
  injection Hr as <-. split; [symmetry; exact G'|exact Hm].
Qed.

Lemma nth_error_repeat_Some {A} (a : A) n j b : nth_error (repeat a n) j = Some b -> b = a.
Proof. intros H. apply nth_error_In in H. now apply repeat_spec in H. Qed.

(** C45: the row-wise masked mean. *)
Lemma masked_mean_spec (x : list (list xr)) v inv m i xi vi r :
  masked_mean_last (S := XR) x v inv = Ok m ->
  nth_error x i = Some xi -> nth_error v i = Some vi -> valid_entries xi vi r ->
  exists mi, nth_error m i = Some mi /\ length mi = length xi /\
    ((forall j, nth_error vi j <> Some true) -> forall y, In y mi -> y = inv) /\
    ((exists j, nth_error vi j = Some true) -> forall y, In y mi ->
       y = Fin (valid_sum r vi / INR (valid_count vi)) /\
       forall lo hi, (forall j a, nth_error vi j = Some true -> nth_error r j = Some a -> lo <= a <= hi) ->
         lo <= valid_sum r vi / INR (valid_count vi) <= hi).
Proof.
  intros H Hx Hv HE. destruct (masked_mean_last_Ok _ _ _ _ H) as (_ & _ & HR).
  destruct (HR i xi Hx) as (vi' & Hv' & L & Hm). rewrite Hv in Hv'. injection Hv' as <-.
  eexists. split; [exact Hm|]. split; [apply repeat_length|].
  rewrite (line_mean_Fin xi vi r inv HE). split.
  - intros HN y Hy. apply repeat_spec in Hy. subst y.
    destruct (Nat.eqb_spec (valid_count vi) 0) as [E|E]; auto.
    exfalso. clear - HN E. induction vi as [|b vi IH]; [now apply E|].
    destruct b; [now apply (HN 0%nat)|]. apply IH; [intros j; exact (HN (S j))|simpl in E; auto].
  - intros [j Hj] y Hy. apply repeat_spec in Hy. subst y. pose proof (valid_count_pos _ _ Hj) as P.
    destruct (Nat.eqb_spec (valid_count vi) 0) as [E|E]; [lia|]. split; auto.
    intros lo hi B. destruct HE as (_ & LR & _).
    pose proof (valid_sum_bounds r vi lo hi LR B) as [B1 B2].
    assert (0 < INR (valid_count vi)) by (apply lt_0_INR; auto).
    split; [apply Rmult_le_reg_r with (INR (valid_count vi)); auto|
            apply Rmult_le_reg_r with (INR (valid_count vi)); auto];
    unfold Rdiv; rewrite Rmult_assoc, Rinv_l, Rmult_1_r by lra; lra.
Qed.

(** Entries outside the mask have no influence, whatever they are. *)
Lemma sum_where_ext {S : Scalar} (x x' : list F) v : length x = length v -> length x' = length v ->
  (forall i, nth_error v i = Some true -> nth_error x i = nth_error x' i) ->
  sum_where x v = sum_where x' v.
Proof.
  intros L L' H. unfold sum_where. do 2 f_equal. revert v x' L L' H.
  induction x as [|a x IH]; intros [|b v] [|a' x'] L L' H; try discriminate; auto.
  cbn [combine filter snd]. injection L as L. injection L' as L'.
  rewrite (IH v x' L L' (fun i => H (Datatypes.S i))). destruct b; auto.
  specialize (H 0%nat eq_refl). cbn in H. apply Some_inj in H. now subst.
Qed.

Lemma masked_mean_ignores {S : Scalar} (x x' : list (list F)) v inv :
  (forall i j, at2 v i j = Some true -> at2 x i j = at2 x' i j) ->
  Forall2 (fun a b => length a = length b) x v -> Forall2 (fun a b => length a = length b) x' v ->
  masked_mean_last x v inv = masked_mean_last x' v inv.
Proof.
  intros H F1 F2. unfold masked_mean_last.
  rewrite (Forall2_len _ _ _ F1), (Forall2_len _ _ _ F2). destruct (length v =? length v)%nat; auto.
  cbn [guard bind]. revert x' F2 H.
  induction F1 as [|a b x v Hab F1 IH]; intros x' F2 H; inversion F2 as [|a' b' x2 v2 Hab' F2']; subst; auto.
  cbn [combine mapM fst snd].
  rewrite (IH x2 F2') by (intros i j; exact (H (Datatypes.S i) j)).
  rewrite Hab, Hab', Nat.eqb_refl. cbn [guard bind].
  replace (line_mean a' b inv) with (line_mean a b inv); auto.
  unfold line_mean. rewrite (sum_where_ext a a' b); auto.
  intros j Hj. specialize (H 0%nat j). cbn in H. auto.
Qed.

Lemma masked_mean_total {S : Scalar} (x : list (list F)) v inv :
  Forall2 (fun a b => length a = length b) x v -> exists m, masked_mean_last x v inv = Ok m.
Proof.
  intros H. unfold masked_mean_last. rewrite (Forall2_len _ _ _ H), Nat.eqb_refl. cbn [guard bind].
  apply mapM_total. intros [a b] Hin.
  assert (L : length a = length b).
  { clear - H Hin. induction H as [|p q x v Hpq H IH]; [destruct Hin|].
    cbn in Hin. destruct Hin as [E|Hin]; [injection E as <- <-; auto|auto]. }
  cbn [fst snd]. rewrite L, Nat.eqb_refl. cbn [guard bind]. eauto.
Qed.

(** The default axis on a matrix: the result row i is the mean of COLUMN i. *)
Lemma masked_mean_default {S : Scalar} n (x : list (list F)) v inv m :
  rect n n x -> masked_mean_first n x v inv = Ok m ->
  forall i, (i < n)%nat -> nth_error m i
    = Some (repeat (line_mean (col x i f0) (col v i false) inv) n).
Proof.
  intros HR H i Hi. unfold masked_mean_first in H. apply bind_Ok in H as (u & G & H).
  destruct HR as [L _]. rewrite L, Nat.eqb_refl in H. injection H as <-.
  rewrite !nth_error_map.
  assert (E : nth_error (seq 0 n) i = Some i).
  { rewrite (nth_error_nth' _ 0%nat) by (rewrite seq_length; auto). now rewrite seq_nth. }
  now rewrite E.
Qed.

Lemma masked_mean_default_fails {S : Scalar} n T (x : list (list F)) v inv :
  rect n T x -> rect n T v -> T <> n -> T <> 1%nat -> masked_mean_first T x v inv = Err ValueError.
Proof.
  intros [L H1] H2 E1 E2. unfold masked_mean_first. rewrite L.
  assert (B : rectb n T x && rectb n T v = true).
  { apply andb_true_iff. split; apply rectb_spec; [split; auto|auto]. }
  rewrite B. cbn [guard bind]. apply Nat.eqb_neq in E1, E2. now rewrite E1, E2.
Qed.

(* ---------------- one-hot ---------------- *)

Lemma select_onehot_spec (data : list xr) sel i r :
  length data = length sel -> one_hot sel i -> (forall y, In y data -> exists a, y = Fin a) ->
  nth_error data i = Some (Fin r) -> select_by_onehot (S := XR) data sel = Ok (Fin r).
Proof.
  intros L [H1 H2] HF Hx. destruct (Fin_list data HF) as [rs ->].
  unfold select_by_onehot. change (@length (@F XR)) with (@length xr). rewrite L, Nat.eqb_refl. cbn [guard bind].
  unfold fsum. rewrite f0_Fin. f_equal.
  rewrite nth_error_map in Hx. destruct (nth_error rs i) as [a|] eqn:E; [|discriminate].
  injection Hx as ->. rewrite <- (Rplus_0_l r). apply onehot_sum with i; auto.
Qed.

Lemma select_none_spec (data : list xr) sel :
  length data = length sel -> (forall j, nth_error sel j <> Some true) ->
  (forall y, In y data -> exists a, y = Fin a) ->
  select_by_onehot (S := XR) data sel = Ok (Fin 0).
Proof.
  intros L H2 HF. destruct (Fin_list data HF) as [rs ->].
  unfold select_by_onehot. change (@length (@F XR)) with (@length xr). rewrite L, Nat.eqb_refl. cbn [guard bind].
  unfold fsum. rewrite f0_Fin. f_equal. apply onehot_none. intros j Hj. now apply (H2 j).
Qed.

Lemma fold_NaN (l : list xr) : fold_left (fadd (Scalar := XR)) l NaN = NaN.
Proof. induction l as [|a l IH]; auto. Qed.

Lemma nan_in_fold (l : list xr) a : In NaN l -> fold_left (fadd (Scalar := XR)) l a = NaN.
Proof.
  revert a. induction l as [|b l IH]; intros a []; cbn [fold_left].
  - subst b. replace (fadd (Scalar := XR) a NaN) with NaN by (destruct a; reflexivity). apply fold_NaN.
  - now apply IH.
Qed.

(** A NaN or infinite entry anywhere outside the selection turns the result NaN. *)
Lemma select_poisoned (data : list xr) sel j y :
  length data = length sel -> nth_error sel j = Some false -> nth_error data j = Some y ->
  (forall a, y <> Fin a) -> select_by_onehot (S := XR) data sel = Ok NaN.
Proof.
  intros L Hs Hd HN. unfold select_by_onehot. change (@length (@F XR)) with (@length xr).
  rewrite L, Nat.eqb_refl. cbn [guard bind]. unfold fsum. f_equal. apply nan_in_fold.
  apply nth_error_In with j. rewrite nth_error_map2. change (@nth_error (@F XR)) with (@nth_error xr). rewrite Hd, Hs. f_equal. unfold fbool. rewrite f0_Fin.
  assert (RZ : forall z : R, z = 0 -> fmul (Scalar := XR) y (Fin z) = NaN).
  { intros z ->. destruct y as [a| | |]; [destruct (HN a eq_refl)| | |reflexivity];
    cbn; unfold inf_times; repeat (match goal with |- context [if ?c then _ else _] => destruct c; [lra|] end); reflexivity. }
  now apply RZ.
Qed.

Lemma update_by_mask_spec {A} (inputs updates : list A) mask n :
  length inputs = n -> length updates = n -> length mask = n ->
  length (update_by_mask inputs updates mask) = n /\
  forall i, nth_error (update_by_mask inputs updates mask) i
    = match nth_error mask i with
      | Some true => nth_error updates i
      | Some false => nth_error inputs i
      | None => None
      end.
Proof.
  intros L1 L2 L3. unfold update_by_mask. split; [rewrite map3_length; lia|].
  intros i. rewrite nth_error_map3.
  destruct (nth_error mask i) as [b|] eqn:E.
  - pose proof (nth_error_Some_lt _ _ _ E).
    destruct (nth_error_lt_Some inputs i) as [a Ha]; [lia|].
    destruct (nth_error_lt_Some updates i) as [c Hc]; [lia|].
    rewrite Ha, Hc. now destruct b.
  - destruct (nth_error inputs i), (nth_error updates i); auto.
Qed.

(* ---------------- equality ---------------- *)

Lemma feqb_xr_true (a b : xr) : feqb (Scalar := XR) a b = true <-> a = b /\ a <> NaN.
Proof.
  destruct a as [a| | |], b as [b| | |]; cbn; split; intros H; try discriminate; try tauto;
  try (destruct H as [H H']; congruence); try (split; congruence).
  - change (Reqb a b = true) in H. apply Reqb_true in H. subst. split; congruence.
  - destruct H as [H _]. injection H as ->. change (Reqb b b = true). now apply Reqb_true.
Qed.

Lemma array_equal_spec (x y : list xr) : array_equal (S := XR) x y = true <-> x = y /\ ~ In NaN x.
Proof.
  unfold array_equal. rewrite andb_true_iff, Nat.eqb_eq. split.
  - intros [L H]. revert y L H. induction x as [|a x IH]; intros [|b y] L H; try discriminate; [now split|].
    cbn [combine forallb fst snd] in H. apply andb_true_iff in H as [H1 H2].
    apply feqb_xr_true in H1 as [-> HN]. injection L as L. destruct (IH y L H2) as [-> HI].
    split; auto. intros [E|E]; auto.
  - intros [<- HN]. split; auto. induction x as [|a x IH]; auto.
    cbn [combine forallb fst snd]. apply andb_true_iff. split.
    + apply feqb_xr_true. split; auto. intros ->. apply HN. now left.
    + apply IH. intros HI. apply HN. now right.
Qed.

Lemma compare_spec (x y : list (list xr)) : length x = length y ->
  compare_all_leaf_nodes (S := XR) true x y = true <-> x = y /\ forall l, In l x -> ~ In NaN l.
Proof.
  intros L. unfold compare_all_leaf_nodes. revert y L.
  induction x as [|a x IH]; intros [|b y] L; try discriminate.
  - cbn. split; auto. 
  - injection L as L. cbn [combine forallb fst snd]. rewrite andb_true_iff, array_equal_spec, (IH y L).
    split.
    + intros [[-> H1] [-> H2]]. split; auto. intros l [<-|Hl]; auto.
    + intros [E H]. injection E as -> ->. split; split; auto.
      * apply H. now left.
      * intros l Hl. apply H. now right.
Qed.

(** Values of different types are never equal. *)
Lemma compare_typed (t : bool) (x y : list (list xr)) : length x = length y ->
  compare_all_leaf_nodes (S := XR) t x y = true <->
  t = true /\ x = y /\ forall l, In l x -> ~ In NaN l.
Proof.
  intros L. rewrite <- (compare_spec x y L). destruct t; [tauto|].
  split; [discriminate|]. intros [E _]; discriminate.
Qed.

(** MaskedArray.masked_value. *)
Lemma masked_value_spec {S : Scalar} (value : list F) valid fill :
  length value = length valid ->
  length (masked_value_fill value valid fill) = length value /\
  forall i v b, nth_error value i = Some v -> nth_error valid i = Some b ->
    nth_error (masked_value_fill value valid fill) i = Some (if b then v else fill).
Proof.
  intros L. unfold masked_value_fill. split; [rewrite map2_length; lia|].
  intros i v b Ev Eb. now rewrite nth_error_map2, Ev, Eb.
Qed.
