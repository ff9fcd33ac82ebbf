(** Proofs for C40. *)
From Coq Require Import Reals ZArith List Bool Lra Lia Permutation Sorted.
From Verif.Lib Require Import Base JaxIndex Scalar XR.
From Verif.Model Require Import State Geometry Metrics Roadgraph.
From Verif.Spec Require Import GeomSpec DynSpec ObsSpec.
From Verif.Proofs Require Import P_Metrics P_Waypoint.
Import ListNotations.

(* ---------- float32 rounding of integers ---------- *)
Local Open Scope Z_scope.

Lemma f32_small z : Z.abs z <= 2 ^ 24 -> f32_integer z.
Proof. intros H. exists z, 0. repeat split; try lia. Qed.

(** Representable integers above 2^(23+e) are multiples of 2^e. *)
Lemma f32_multiple w e : 0 <= e -> f32_integer w -> 2 ^ (24 + e) <= Z.abs w -> exists k, w = k * 2 ^ e.
Proof.
  intros He (m & x & Hx & Hm & ->) H.
  destruct (Z_le_gt_dec e x) as [L|L].
  - exists (m * 2 ^ (x - e)). rewrite <- Z.mul_assoc, <- Z.pow_add_r by lia. f_equal. f_equal. lia.
  - exfalso. rewrite Z.abs_mul in H. rewrite (Z.abs_eq (2 ^ x)) in H by lia.
    assert (2 ^ x < 2 ^ e) by (apply Z.pow_lt_mono_r; lia).
    rewrite Z.pow_add_r in H by lia. nia.
Qed.

Lemma f32_multiple' w e : 0 <= e -> f32_integer w -> 2 ^ (23 + e) <= Z.abs w -> exists k, w = k * 2 ^ e.
Proof.
  intros He Hw H. destruct (Z.eq_dec e 0) as [->|N].
  - exists w. rewrite Z.pow_0_r. lia.
  - destruct Hw as (m & x & Hx & Hm & ->).
    destruct (Z_le_gt_dec e x) as [L|L].
    + exists (m * 2 ^ (x - e)). rewrite <- Z.mul_assoc, <- Z.pow_add_r by lia. f_equal. f_equal. lia.
    + (* x = e - 1 and |m| = 2^24 *)
      rewrite Z.abs_mul in H. rewrite (Z.abs_eq (2 ^ x)) in H by lia.
      assert (x = e - 1).
      { destruct (Z.eq_dec x (e - 1)); auto. exfalso.
        assert (2 ^ x <= 2 ^ (e - 2)) by (apply Z.pow_le_mono_r; lia).
        replace (23 + e) with (25 + (e - 2)) in H by lia.
        rewrite Z.pow_add_r in H by lia. nia. }
      subst x. replace (23 + e) with (24 + (e - 1)) in H by lia.
      rewrite Z.pow_add_r in H by lia.
      assert (0 < 2 ^ (e - 1)) by (apply Z.pow_pos_nonneg; lia).
      assert (Z.abs m = 2 ^ 24) by nia.
      exists (Z.sgn m * 2 ^ 23). replace (2 ^ e) with (2 * 2 ^ (e - 1)).
      * assert (m = Z.sgn m * 2 ^ 24) by (rewrite <- H1; rewrite Z.mul_comm; symmetry; apply Z.abs_sgn).
        rewrite H2 at 1. change (2 ^ 24) with (2 * 2 ^ 23). ring.
      * rewrite <- Z.pow_succ_r by lia. f_equal. lia.
Qed.

Lemma f32_opp w : f32_integer w -> f32_integer (- w).
Proof. intros (m & e & H1 & H2 & ->). exists (- m), e. repeat split; try lia. Qed.

(** The positive case of the rounding. *)
Lemma float32_pos z : 2 ^ 24 <= z -> f32_nearest z (float32_int z).
Proof.
  intros Hz. unfold float32_int. rewrite (Z.abs_eq z) by lia.
  destruct (Z.ltb_spec z (2 ^ 24)); [lia|].
  assert (Sg : Z.sgn z = 1) by (apply Z.sgn_pos; lia). rewrite Sg, Z.mul_1_l.
  set (L := Z.log2 z).
  assert (HL : 24 <= L) by (change 24 with (Z.log2 (2 ^ 24)); apply Z.log2_le_mono; lia).
  destruct (Z.log2_spec z) as [B1 B2]; [lia|]. fold L in B1, B2.
  set (e := L - 23). assert (He : 1 <= e) by (subst e; lia).
  set (p := 2 ^ e). assert (Hp : 2 <= p) by (subst p; change 2 with (2 ^ 1) at 1; apply Z.pow_le_mono_r; lia).
  assert (P1 : 2 ^ L = 2 ^ 23 * p) by (subst p e; rewrite <- Z.pow_add_r by lia; f_equal; lia).
  assert (P2 : 2 ^ Z.succ L = 2 ^ 24 * p) by (subst p e; rewrite <- Z.pow_add_r by lia; f_equal; lia).
  rewrite P1 in B1. rewrite P2 in B2.
  set (q := z / p). set (r := z mod p).
  assert (DM : z = p * q + r) by (apply Z_div_mod_eq_full).
  assert (Hr : 0 <= r < p) by (apply Z.mod_pos_bound; lia).
  assert (Hq : 2 ^ 23 <= q < 2 ^ 24) by nia.
  set (q' := if 2 * r <? p then q else if p <? 2 * r then q + 1 else if Z.even q then q else q + 1).
  assert (Near : 2 * Z.abs (z - q' * p) <= p /\ (2 * Z.abs (z - q' * p) = p -> Z.Even q') /\ 2 ^ 23 <= q' <= 2 ^ 24).
  { subst q'. destruct (Z.ltb_spec (2 * r) p).
    - replace (z - q * p) with r by lia. rewrite Z.abs_eq by lia. repeat split; try lia.
    - destruct (Z.ltb_spec p (2 * r)).
      + replace (z - (q + 1) * p) with (r - p) by lia. rewrite Z.abs_neq by lia. repeat split; try lia.
      + assert (2 * r = p) by lia. destruct (Z.even q) eqn:Ev.
        * replace (z - q * p) with r by lia. rewrite Z.abs_eq by lia. repeat split; try lia.
          intros _. apply Z.even_spec; auto.
        * replace (z - (q + 1) * p) with (r - p) by lia. rewrite Z.abs_neq by lia. repeat split; try lia.
          intros _. apply Z.even_spec. rewrite Z.even_add, Ev. reflexivity. }
  destruct Near as (N1 & N2 & N3).
  assert (Rep : f32_integer (q' * p)) by (exists q', e; repeat split; try lia).
  assert (Mult : forall k, k <> q' -> p <= Z.abs (z - k * p) + Z.abs (z - q' * p)).
  { intros k Nk. assert (p <= Z.abs (k * p - q' * p)); [|lia].
    rewrite <- Z.mul_sub_distr_r, Z.abs_mul, (Z.abs_eq p) by lia. nia. }
  assert (Far : forall y, f32_integer y -> y <> q' * p ->
            Z.abs (z - q' * p) <= Z.abs (z - y) /\
            (Z.abs (z - y) = Z.abs (z - q' * p) -> 2 * Z.abs (z - q' * p) = p)).
  { intros y Hy Ny. destruct (Z_le_gt_dec (2 ^ 23 * p) y) as [G|G].
    - destruct (f32_multiple' y e) as [k Hk]; [lia | auto | rewrite Z.abs_eq by lia; rewrite Z.pow_add_r by lia; fold p; lia |].
      fold p in Hk. subst y. assert (k <> q') by congruence.
      pose proof (Mult k ltac:(auto)). lia.
    - assert (2 ^ 23 * p <= z) by lia.
      assert (Z.abs (z - q' * p) <= z - 2 ^ 23 * p).
      { destruct (Z.eq_dec q' (2 ^ 23)) as [->|N]; [lia|].
        pose proof (Mult (2 ^ 23) ltac:(auto)). lia. }
      lia. }
  split; [exact Rep|]. split.
  - intros y Hy. destruct (Z.eq_dec y (q' * p)) as [->|N]; [lia|]. apply Far; auto.
  - intros y Hy N E. exists q', e. repeat split; try lia. apply N2. apply (Far y); auto.
Qed.

Lemma float32_opp z : float32_int (- z) = - float32_int z.
Proof.
  unfold float32_int. rewrite Z.abs_opp. destruct (Z.abs z <? 2 ^ 24); [reflexivity|].
  rewrite Z.sgn_opp. apply Z.mul_opp_l.
Qed.

Lemma f32_nearest_opp z w : f32_nearest z w -> f32_nearest (- z) (- w).
Proof.
  intros (A & B & C). split; [apply f32_opp; auto|]. split.
  - intros y Hy. specialize (B (- y) (f32_opp _ Hy)). lia.
  - intros y Hy N E. destruct (C (- y) (f32_opp _ Hy)) as (m & e & H1 & H2 & H3 & H4); [lia | lia |].
    exists (- m), e. repeat split; try lia. destruct H4 as [h Hh]. exists (- h). lia.
Qed.

Lemma float32_nearest z : f32_nearest z (float32_int z).
Proof.
  destruct (Z_lt_le_dec (Z.abs z) (2 ^ 24)) as [L|L].
  - unfold float32_int. destruct (Z.ltb_spec (Z.abs z) (2 ^ 24)); [|lia].
    split; [apply f32_small; lia|]. split; intros; lia.
  - destruct (Z_le_gt_dec 0 z).
    + apply float32_pos; lia.
    + replace z with (- - z) by lia. rewrite float32_opp. apply f32_nearest_opp, float32_pos. lia.
Qed.

Lemma float32_exact z : float32_int z = z <-> f32_integer z.
Proof.
  destruct (float32_nearest z) as (A & B & _). split.
  - intros E. rewrite E in A. exact A.
  - intros H. specialize (B z H). lia.
Qed.

Local Close Scope Z_scope.
Local Open Scope nat_scope.

(* ---------- top_k ---------- *)
Section Sort.
  Variable ok : xr -> Prop.
  Hypothesis Htr : forall x y z, ok x -> ok y -> ok z -> xltb x y = true -> xltb y z = true -> xltb x z = true.
  Hypothesis Hle : forall x y z, ok x -> ok y -> ok z -> xltb x y = false -> xltb y z = false -> xltb x z = false.

  (** [a] is listed before [b]. *)
  Definition bef (a b : xr * nat) : Prop :=
    xltb (fst a) (fst b) = false /\ (xltb (fst b) (fst a) = true \/ snd a < snd b).

  Lemma xlt_not_gt x y : ok x -> ok y -> xltb x y = true -> xltb y x = false.
  Proof.
    intros Hx Hy H. destruct (xltb y x) eqn:E; auto.
    pose proof (Htr x y x Hx Hy Hx H E) as C. rewrite xlt_irrefl in C. discriminate.
  Qed.

  Lemma insert_perm (x : xr * nat) (l : list (xr * nat)) :
    Permutation (x :: l) (topk_insert (S := XR) x l).
  Proof.
    induction l as [|y l IH]; cbn [topk_insert]; [apply Permutation_refl|].
    change (@F XR) with xr in *. destruct (fltb (Scalar := XR) (fst x) (fst y)); [|apply Permutation_refl].
    eapply perm_trans; [apply perm_swap|]. apply perm_skip. exact IH.
  Qed.

  Lemma insert_sorted (x : xr * nat) (l : list (xr * nat)) : ok (fst x) -> Forall (fun y => ok (fst y) /\ snd x < snd y) l ->
    StronglySorted bef l -> StronglySorted bef (topk_insert (S := XR) x l).
  Proof.
    intros Ox. induction l as [|y l IH]; intros Hl Hs; simpl.
    - constructor; constructor.
    - inversion Hl as [|? ? [Oy Iy] Hl']; subst. inversion Hs as [|? ? Hs' Hy]; subst.
      destruct (xltb (fst x) (fst y)) eqn:E.
      + constructor; [apply IH; auto|].
        eapply Permutation_Forall; [apply insert_perm|]. constructor; auto.
        split; [apply xlt_not_gt; auto | left; auto].
      + constructor; auto. constructor; [split; auto|].
        rewrite Forall_forall in *. intros z Hz. destruct (Hl' z Hz) as [Oz Iz].
        destruct (Hy z Hz) as [A _]. split; [apply (Hle _ (fst y)); auto | right; auto].
  Qed.

  Lemma sort_sorted (l : list (xr * nat)) : Forall (fun y => ok (fst y)) l ->
    StronglySorted (fun a b => snd a < snd b) l ->
    Permutation l (fold_right (topk_insert (S := XR)) [] l) /\
    StronglySorted bef (fold_right (topk_insert (S := XR)) [] l).
  Proof.
    induction l as [|x l IH]; intros Ho Hs; simpl; [split; constructor|].
    inversion Ho; subst. inversion Hs; subst. destruct IH as [P Q]; auto. split.
    - eapply perm_trans; [|apply insert_perm]. constructor; auto.
    - apply insert_sorted; auto. eapply Permutation_Forall; [exact P|].
      rewrite Forall_forall in *. auto.
  Qed.
End Sort.

Definition nonan (x : xr) : Prop := x <> NaN.
Lemma nonan_tr x y z : nonan x -> nonan y -> nonan z -> xltb x y = true -> xltb y z = true -> xltb x z = true.
Proof.
  unfold nonan. destruct x, y, z; simpl; intros; try congruence; try reflexivity;
    repeat match goal with H : Rltb _ _ = true |- _ => apply Rltb_true in H end;
    try (apply Rltb_true; lra).
Qed.
Lemma nonan_le x y z : nonan x -> nonan y -> nonan z -> xltb x y = false -> xltb y z = false -> xltb x z = false.
Proof.
  unfold nonan. destruct x, y, z; simpl; intros; try congruence; try reflexivity;
    repeat match goal with H : Rltb _ _ = false |- _ => apply Rltb_false in H end;
    try (apply Rltb_false; lra).
Qed.

Lemma indexed_sorted {A} (l : list A) k :
  StronglySorted (fun a b : A * nat => snd a < snd b) (mapi_from k (fun i v => (v, i)) l).
Proof.
  revert k; induction l as [|a l IH]; intros k; simpl; [constructor|].
  constructor; auto. apply Forall_forall. intros [x i] H. apply In_nth_error in H as [j Hj].
  rewrite nth_error_mapi_from in Hj. destruct (nth_error l j); [|discriminate]. injection Hj as <- <-. simpl. lia.
Qed.

Lemma StronglySorted_nth {A} (P : A -> A -> Prop) l : StronglySorted P l ->
  forall i j a b, i < j -> nth_error l i = Some a -> nth_error l j = Some b -> P a b.
Proof.
  induction 1 as [|x l Hs IH Hf]; intros [|i] [|j] a b Hij Ha Hb; simpl in *; try discriminate; try lia.
  - injection Ha as <-. rewrite Forall_forall in Hf. apply Hf. eapply nth_error_In; eauto.
  - apply (IH i j); auto; lia.
Qed.

Lemma NoDup_firstn {A} k (l : list A) : NoDup l -> NoDup (firstn k l).
Proof.
  intros H. revert k. induction H as [|a l Ha Hl IH]; intros [|k]; simpl; try constructor; auto.
  intros Hin. apply Ha. rewrite <- (firstn_skipn k l). apply in_or_app; auto.
Qed.

(** The indices chosen by top_k: a full ranking cut after [k]. *)
Lemma top_k_spec (keys : list xr) k idx : Forall nonan keys -> top_k (S := XR) keys k = Ok idx ->
  exists all, length all = length keys /\ NoDup all /\ idx = firstn k all /\ k <= length keys /\
    (forall i, In i all <-> i < length keys) /\
    forall a b i j x y, a < b -> nth_error all a = Some i -> nth_error all b = Some j ->
      nth_error keys i = Some x -> nth_error keys j = Some y ->
      xltb x y = false /\ (xltb y x = true \/ i < j).
Proof.
  intros Ho H. unfold top_k in H. apply bind_Ok in H as (u & Hg & H). apply guard_Ok in Hg.
  apply Nat.leb_le in Hg. apply Ok_inj in H.
  set (prs := mapi (fun i v => (v, i)) keys) in *. change (@F XR) with xr in *.
  assert (Nth : forall i x, In (x, i) prs <-> nth_error keys i = Some x).
  { intros i x. split.
    - intros Hin. apply In_nth_error in Hin as [j Hj]. unfold prs in Hj. rewrite nth_error_mapi in Hj.
      destruct (nth_error keys j) eqn:E; [|discriminate]. injection Hj as <- <-. auto.
    - intros E. apply (nth_error_In _ i). unfold prs. rewrite nth_error_mapi, E. reflexivity. }
  destruct (sort_sorted nonan nonan_tr nonan_le prs) as [P Q].
  { apply Forall_forall. intros [x i] Hin. apply Nth in Hin. rewrite Forall_forall in Ho. apply Ho.
    eapply nth_error_In; eauto. }
  { apply indexed_sorted. }
  set (srt := fold_right _ _ _) in *.
  assert (Lp : length prs = length keys) by apply mapi_length.
  assert (Snd : map snd prs = seq 0 (length keys)).
  { apply nth_error_ext_eq. intros i. unfold prs. rewrite nth_error_map, nth_error_mapi.
    destruct (nth_error keys i) eqn:E; simpl.
    - symmetry. apply nth_error_Some_lt in E. rewrite (nth_error_nth' _ 0) by (rewrite seq_length; auto).
      rewrite seq_nth by auto. reflexivity.
    - symmetry. apply nth_error_None. rewrite seq_length. apply nth_error_None; auto. }
  exists (map snd srt).
  assert (PS : Permutation (seq 0 (length keys)) (map snd srt)) by (rewrite <- Snd; apply Permutation_map; auto).
  split; [rewrite map_length, <- (Permutation_length P); auto|].
  split; [eapply Permutation_NoDup; [exact PS | apply seq_NoDup]|].
  split; [rewrite <- H, firstn_map; reflexivity|]. split; auto. split.
  - intros i. split; intros Hi.
    + eapply Permutation_in in Hi; [|symmetry; exact PS]. apply in_seq in Hi. lia.
    + eapply Permutation_in; [exact PS|]. apply in_seq. lia.
  - intros a b i j x y Hab Ha Hb Hx Hy.
    rewrite nth_error_map in Ha, Hb.
    destruct (nth_error srt a) as [[x' i']|] eqn:Ea; [|discriminate].
    destruct (nth_error srt b) as [[y' j']|] eqn:Eb; [|discriminate].
    simpl in Ha, Hb. injection Ha as ->. injection Hb as ->.
    pose proof (StronglySorted_nth _ _ Q a b _ _ Hab Ea Eb) as B.
    assert (E1 : nth_error keys i = Some x').
    { apply Nth. eapply Permutation_in; [symmetry; exact P|]. eapply nth_error_In; eauto. }
    assert (E2 : nth_error keys j = Some y').
    { apply Nth. eapply Permutation_in; [symmetry; exact P|]. eapply nth_error_In; eauto. }
    rewrite E1 in Hx. rewrite E2 in Hy. injection Hx as ->. injection Hy as ->. exact B.
Qed.

Local Open Scope R_scope.

Lemma filter_topk_spec (rg : list (rgpt (S := XR))) pos ref k out :
  rg_real rg pos -> (k < length rg)%nat ->
  filter_topk_roadgraph_points rg (finv ref) k = Ok out ->
  length out = k /\
  exists keep : list nat, length keep = k /\ NoDup keep /\
    (forall a i, nth_error keep a = Some i ->
       exists p q, nth_error rg i = Some p /\ nth_error out a = Some q /\ same_sample p q) /\
    (forall a b i j, (a < b)%nat -> nth_error keep a = Some i -> nth_error keep b = Some j ->
       ranks_before rg pos ref i j) /\
    (forall i j, In i keep -> (j < length rg)%nat -> ~ In j keep -> ranks_before rg pos ref i j).
Proof.
  intros Hr Hk H. unfold filter_topk_roadgraph_points in H. cbv zeta in H.
  destruct (Nat.ltb_spec (length rg) k); [lia|]. destruct (Nat.ltb_spec k (length rg)); [|lia].
  apply bind_Ok in H as (idx & Hi & H). apply bind_Ok in H as (kept & Hkp & H). apply Ok_inj in H.
  match type of Hi with top_k ?ks _ = _ => set (keys := ks) in * end.
  assert (Keys : forall i, nth_error keys i = option_map (fun p : rgpt (S := XR) =>
             if rg_valid p then Fin (- dist ref (pos i)) else MInf) (nth_error rg i)).
  { intros i. unfold keys. rewrite nth_error_map, nth_error_map2, nth_error_map.
    destruct (nth_error rg i) as [p|] eqn:E; [|reflexivity]. simpl.
    destruct (rg_valid p) eqn:V; [|reflexivity].
    destruct (Hr i p E V) as [-> ->]. unfold finv; cbn [fst snd].
    change (Some (fopp (Scalar := XR) (norm2 (S := XR) (Fin (fst ref - fst (pos i))) (Fin (snd ref - snd (pos i)))))
      = Some (Fin (- dist ref (pos i)))).
    rewrite norm2_Fin. reflexivity. }
  assert (Lk : length keys = length rg).
  { unfold keys. rewrite map_length, map2_length, map_length. lia. }
  change (@F XR) with xr in *.
  destruct (top_k_spec keys k idx) as (all & La & Nd & -> & _ & In_all & Ord); auto.
  { apply Forall_forall. intros x Hx. apply In_nth_error in Hx as [i Hx]. rewrite Keys in Hx.
    destruct (nth_error rg i) as [p|]; [|discriminate]. simpl in Hx. injection Hx as <-.
    unfold nonan. destruct (rg_valid p); discriminate. }
  assert (Lkeep : length (firstn k all) = k) by (rewrite firstn_length, La, Lk; lia).
  assert (Rank : forall a b i j, (a < b)%nat -> nth_error all a = Some i -> nth_error all b = Some j ->
            ranks_before rg pos ref i j).
  { intros a b i j Hab Ha Hb.
    assert (Hi' : (i < length rg)%nat) by (rewrite <- Lk; apply In_all; eapply nth_error_In; eauto).
    assert (Hj' : (j < length rg)%nat) by (rewrite <- Lk; apply In_all; eapply nth_error_In; eauto).
    destruct (nth_error_lt_Some rg i Hi') as [p Ep]. destruct (nth_error_lt_Some rg j Hj') as [q Eq].
    exists p, q. split; auto. split; auto.
    pose proof (Keys i) as Ki. pose proof (Keys j) as Kj. rewrite Ep in Ki. rewrite Eq in Kj. simpl in Ki, Kj.
    destruct (Ord a b i j _ _ Hab Ha Hb Ki Kj) as [O1 O2].
    destruct (rg_valid p), (rg_valid q); simpl in O1, O2.
    - apply Rltb_false in O1. rewrite Rltb_true in O2.
      destruct O2 as [O2|O2]; [right; left; repeat split; lra|].
      destruct (Req_dec (dist ref (pos i)) (dist ref (pos j))); [right; right; auto | right; left; repeat split; lra].
    - left; auto.
    - discriminate.
    - right; right. split; auto. destruct O2; [discriminate | auto]. }
  split.
  { rewrite <- H, map_length. apply mapM_length in Hkp. congruence. }
  exists (firstn k all). split; auto.
  split; [apply NoDup_firstn; auto|].
  assert (NF : forall a i, nth_error (firstn k all) a = Some i -> nth_error all a = Some i /\ (a < k)%nat).
  { intros a i Ha. assert (a < k)%nat by (apply nth_error_Some_lt in Ha; lia). split; auto.
    rewrite <- Ha. symmetry. apply nth_error_firstn_lt; auto. }
  split; [|split].
  - intros a i Ha. destruct (mapM_nth _ _ _ a i Hkp Ha) as (p & Ep & Np).
    destruct (nth_error rg i) as [p'|] eqn:E; [|discriminate]. apply Ok_inj in Ep. subst p'.
    exists p, (restacked p). split; auto. split; [rewrite <- H, nth_error_map, Np; reflexivity|].
    unfold same_sample, restacked; simpl. repeat split; try reflexivity; apply float32_nearest.
  - intros a b i j Hab Ha Hb. apply NF in Ha, Hb. apply (Rank a b); tauto.
  - intros i j Hin Hj Hnot. apply In_nth_error in Hin as [a Ha]. apply NF in Ha.
    assert (Hja : In j all) by (apply In_all; lia). apply In_nth_error in Hja as [b Hb].
    apply (Rank a b); try tauto. destruct (Nat.lt_ge_cases a b); auto. exfalso. apply Hnot.
    apply (nth_error_In _ b). rewrite <- Hb. apply nth_error_firstn_lt. lia.
Qed.

Section Any.
  Context {S : Scalar}.

  Lemma filter_topk_cases (rg : list rgpt) ref k :
    ((k <= length rg)%nat -> exists out, filter_topk_roadgraph_points rg ref k = Ok out /\ length out = k) /\
    ((length rg < k)%nat -> filter_topk_roadgraph_points rg ref k = Err NotImplementedError) /\
    (k = length rg -> filter_topk_roadgraph_points rg ref k = Ok rg).
  Proof.
    unfold filter_topk_roadgraph_points. cbv zeta. split; [|split].
    - intros Hk. destruct (Nat.ltb_spec (length rg) k); [lia|]. destruct (Nat.ltb_spec k (length rg)).
      + set (keys := map fopp _).
        assert (Lk : length keys = length rg) by (unfold keys; rewrite map_length, map2_length, map_length; lia).
        unfold top_k. rewrite (proj2 (Nat.leb_le k (length keys))) by lia. cbn [guard bind].
        set (prs := mapi _ keys).
        assert (P : forall l : list (F * nat), Permutation l (fold_right topk_insert [] l)).
        { clear. induction l as [|x l IH]; simpl; auto.
          eapply perm_trans; [constructor; exact IH|]. generalize (fold_right topk_insert [] l). clear.
          induction l as [|y l IH]; simpl; auto. destruct (fltb (fst x) (fst y)); auto.
          eapply perm_trans; [apply perm_swap|]. constructor; auto. }
        specialize (P prs). set (srt := fold_right _ _ _) in *.
        assert (Lp : length srt = length rg) by (rewrite <- (Permutation_length P); unfold prs; rewrite mapi_length; auto).
        unfold take_along.
        match goal with |- context [mapM ?f ?l] => destruct (mapM_total f l) as [kept Hkept] end.
        { intros i Hi. apply in_map_iff in Hi as ([x i'] & <- & Hin). simpl.
          assert (Hin' : In (x, i') prs).
          { eapply Permutation_in; [symmetry; exact P|]. rewrite <- (firstn_skipn k srt). apply in_or_app; auto. }
          apply In_nth_error in Hin' as [j Hj]. unfold prs in Hj. rewrite nth_error_mapi in Hj.
          destruct (nth_error keys j) eqn:E; [|discriminate]. injection Hj as <- <-.
          apply nth_error_Some_lt in E. destruct (nth_error_lt_Some rg j) as [p ->]; [lia|]. eauto. }
        rewrite Hkept. cbn [bind]. eexists. split; [reflexivity|]. rewrite map_length.
        apply mapM_length in Hkept. rewrite Hkept, map_length, firstn_length. lia.
      + exists rg. split; auto. lia.
    - intros Hk. destruct (Nat.ltb_spec (length rg) k); [auto|lia].
    - intros ->. rewrite Nat.ltb_irrefl. reflexivity.
  Qed.
End Any.

Lemma same_sample_exact p q : same_sample p q -> f32_integer (rg_type p) -> f32_integer (rg_id p) -> q = p.
Proof.
  intros (E1 & E2 & E3 & E4 & E5 & E6 & E7 & (_ & T & _) & (_ & I & _)) HT HI.
  specialize (T _ HT). specialize (I _ HI). rewrite Z.sub_diag in T, I. simpl in T, I.
  destruct p, q; simpl in *. f_equal; auto; lia.
Qed.

(** When every type and id of the map is a 32-bit float, the kept samples are the
    original ones. *)
Lemma filter_topk_exact (rg : list (rgpt (S := XR))) pos ref k out :
  rg_real rg pos -> (k < length rg)%nat ->
  (forall p, In p rg -> f32_integer (rg_type p) /\ f32_integer (rg_id p)) ->
  filter_topk_roadgraph_points rg (finv ref) k = Ok out ->
  exists keep : list nat, length keep = k /\ NoDup keep /\
    map Some out = map (nth_error rg) keep.
Proof.
  intros R K X H. destruct (filter_topk_spec rg pos ref k out R K H) as (L & keep & Lk & ND & E & _).
  exists keep. split; [exact Lk|]. split; [exact ND|].
  apply nth_error_ext_eq. intros a. rewrite !nth_error_map.
  destruct (nth_error keep a) as [i|] eqn:Ei.
  - destruct (E a i Ei) as (p & q & Hp & Hq & SS). rewrite Hq. simpl. rewrite Hp. do 2 f_equal.
    destruct (X p) as [X1 X2]; [eapply nth_error_In; eauto|]. now apply same_sample_exact.
  - destruct (nth_error out a) eqn:Eo; [|reflexivity]. apply nth_error_None in Ei. apply nth_error_Some_lt in Eo.
    change (@rgpt XR) with (@State.rgpt XR) in *. lia.
Qed.

(** An id survives exactly when it is a 32-bit float. *)
Lemma filter_topk_ids (rg : list (rgpt (S := XR))) pos ref k out :
  rg_real rg pos -> (k < length rg)%nat ->
  filter_topk_roadgraph_points rg (finv ref) k = Ok out ->
  forall q, In q out -> exists p, In p rg /\ rg_x q = rg_x p /\ rg_y q = rg_y p /\
    (rg_id q = rg_id p <-> f32_integer (rg_id p)) /\ (rg_type q = rg_type p <-> f32_integer (rg_type p)).
Proof.
  intros R K H q Hq. destruct (filter_topk_spec rg pos ref k out R K H) as (L & keep & Lk & ND & E & _).
  apply In_nth_error in Hq as [a Ha].
  destruct (nth_error_lt_Some keep a) as [i Hi]; [apply nth_error_Some_lt in Ha; congruence|].
  destruct (E a i Hi) as (p & q' & Hp & Hq' & E1 & E2 & E3 & E4 & E5 & E6 & E7 & (F1 & T & _) & (F2 & I & _)).
  rewrite Ha in Hq'. injection Hq' as <-. exists p. split; [eapply nth_error_In; eauto|].
  split; [exact E1|]. split; [exact E2|]. split; split.
  - intros <-. exact F2.
  - intros X. specialize (I _ X). lia.
  - intros <-. exact F1.
  - intros X. specialize (T _ X). lia.
Qed.
