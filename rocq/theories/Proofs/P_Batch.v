(** Batched operations act on each scenario of the batch alone. *)
From Coq Require Import List ZArith Bool Lia.
From Verif.Lib Require Import Base JaxIndex Scalar.
From Verif.Model Require Import Operations State Dynamics BaseEnv Dyn_State Batch.
From Verif.Spec Require Import StateSpec BatchSpec.
From Verif.Proofs Require Import Core.
Import ListNotations.

(* ---------------- lists ---------------- *)

Lemma removelast_app1 {A} (l : list A) a : removelast (l ++ [a]) = l.
Proof. rewrite removelast_app by discriminate. simpl. apply app_nil_r. Qed.

Lemma removelast_app2 {A} (l : list A) a c : removelast (l ++ [a; c]) = l ++ [a].
Proof. rewrite removelast_app by discriminate. reflexivity. Qed.

Lemma last_app1 {A} (l : list A) a d : last (l ++ [a]) d = a.
Proof. apply last_last. Qed.

Lemma app2 {A} (l : list A) a c : l ++ [a; c] = (l ++ [a]) ++ [c].
Proof. now rewrite <- app_assoc. Qed.

Lemma last_app2 {A} (l : list A) a c d : last (l ++ [a; c]) d = c.
Proof. rewrite app2. apply last_last. Qed.

Lemma firstn_pre {A} (l m : list A) k : length l = k -> firstn k (l ++ m) = l.
Proof. intros <-. rewrite firstn_app, Nat.sub_diag, firstn_all. simpl. apply app_nil_r. Qed.

Lemma skipn_pre {A} (l m : list A) k : length l = k -> skipn k (l ++ m) = m.
Proof. intros <-. rewrite skipn_app, Nat.sub_diag, skipn_all. reflexivity. Qed.

Lemma dims_eqb_refl d : dims_eqb d d = true.
Proof. induction d; simpl; auto. now rewrite Nat.eqb_refl. Qed.

Lemma dims_eqb_eq a b : dims_eqb a b = true <-> a = b.
Proof.
  revert b; induction a as [|x a IH]; intros [|y b]; simpl; split; intros H;
    auto; try discriminate.
  - apply andb_true_iff in H as [H1 H2]. apply Nat.eqb_eq in H1. apply IH in H2. congruence.
  - inversion H; subst. rewrite Nat.eqb_refl. simpl. now apply IH.
Qed.

Lemma dims_leb_refl d : dims_leb d d = true.
Proof. induction d; simpl; auto. now rewrite Nat.leb_refl. Qed.

Lemma inside_length d i : inside d i -> length i = length d.
Proof. induction 1; simpl; auto. Qed.

Lemma inside_app d e i j : inside d i -> inside e j -> inside (d ++ e) (i ++ j).
Proof. apply Forall2_app. Qed.

Lemma inside_app_inv d e i : inside (d ++ e) i ->
  exists i1 i2, i = i1 ++ i2 /\ inside d i1 /\ inside e i2.
Proof. intros H. apply Forall2_app_inv_l in H as (i1 & i2 & ? & ? & ?). eauto. Qed.

Lemma insideb_inside d i : insideb d i = true <-> inside d i.
Proof.
  revert i; induction d as [|k d IH]; intros [|j i]; simpl; split; intros H;
    try discriminate; try (now inversion H); try constructor; auto.
  - apply andb_true_iff in H as [H1 H2]. now apply Nat.ltb_lt.
  - apply andb_true_iff in H as [H1 H2]. now apply IH.
  - inversion H; subst. apply andb_true_iff. split; [now apply Nat.ltb_lt|now apply IH].
Qed.

Lemma insideb_app d e i j : length i = length d ->
  insideb (d ++ e) (i ++ j) = insideb d i && insideb e j.
Proof.
  revert i; induction d as [|k d IH]; intros [|j' i] H; simpl in *; try discriminate; auto.
  rewrite IH by lia. now rewrite andb_assoc.
Qed.

Lemma insideb_true B b : inside B b -> insideb B b = true.
Proof. apply insideb_inside. Qed.

Lemma vmappable_app B m : vmappable B (B ++ m) = true.
Proof. unfold vmappable. rewrite firstn_pre by auto. apply dims_eqb_refl. Qed.

Lemma vmappable_nil d : vmappable [] d = true.
Proof. reflexivity. Qed.

Lemma indices_inside d i : In i (indices d) <-> inside d i.
Proof.
  revert i; induction d as [|k d IH]; intros i; simpl; split; intros H.
  - destruct H as [<-|[]]. constructor.
  - inversion H; auto.
  - apply in_flat_map in H as (j & Hj & H). apply in_map_iff in H as (i' & <- & H).
    apply in_seq in Hj. constructor; [lia|]. now apply IH.
  - inversion H as [|? j ? i' Hj Hi]; subst. apply in_flat_map. exists j. split.
    + apply in_seq. lia.
    + apply in_map. now apply IH.
Qed.

(* ---------------- reading one scenario ---------------- *)

Lemma tabulate_length {A} n (f : nat -> A) : length (tabulate n f) = n.
Proof. unfold tabulate. now rewrite map_length, seq_length. Qed.

Lemma nth_error_tabulate {A} n (f : nat -> A) i :
  nth_error (tabulate n f) i = if i <? n then Some (f i) else None.
Proof.
  unfold tabulate. rewrite nth_error_map. destruct (Nat.ltb_spec i n) as [H|H].
  - rewrite (nth_error_nth' (seq 0 n) 0) by (rewrite seq_length; auto).
    rewrite seq_nth by auto. reflexivity.
  - rewrite (proj2 (nth_error_None (seq 0 n) i)) by (rewrite seq_length; auto). reflexivity.
Qed.

Lemma tabulate_ext {A} n (f g : nat -> A) :
  (forall i, i < n -> f i = g i) -> tabulate n f = tabulate n g.
Proof.
  intros H. unfold tabulate. apply map_ext_in. intros i Hi. apply in_seq in Hi. apply H. lia.
Qed.

Lemma eq_tabulate {A} n (f : nat -> A) l :
  length l = n -> (forall i, i < n -> nth_error l i = Some (f i)) -> l = tabulate n f.
Proof.
  intros L H. apply nth_error_ext_eq. intros i. rewrite nth_error_tabulate.
  destruct (Nat.ltb_spec i n) as [Hi|Hi]; auto. apply nth_error_None. lia.
Qed.

Lemma nth_dims1 B n m : nth (length B) (B ++ n :: m) 0 = n.
Proof. rewrite app_nth2, Nat.sub_diag by auto. reflexivity. Qed.

Lemma nth_dims2 B n T : nth (Datatypes.S (length B)) (B ++ [n; T]) 0 = T.
Proof. rewrite app_nth2 by lia. replace (_ - _) with 1 by lia. reflexivity. Qed.

Section Read.
  Context {A : Type}.

  Lemma vector_eq (x : arr A) B n m b : dims x = B ++ n :: m -> inside B b ->
    vector x b = tabulate n (fun i => cell x (b ++ [i])).
  Proof.
    intros D I. unfold vector. rewrite D, (inside_length _ _ I), nth_dims1. reflexivity.
  Qed.

  Lemma matrix_eq (x : arr A) B n T b : dims x = B ++ [n; T] -> inside B b ->
    matrix x b = tabulate n (fun i => tabulate T (fun t => cell x (b ++ [i; t]))).
  Proof.
    intros D I. unfold matrix.
    rewrite D, (inside_length _ _ I), nth_dims1, nth_dims2. reflexivity.
  Qed.

  Lemma matrix_rect (x : arr A) B n T b : dims x = B ++ [n; T] -> inside B b ->
    rect n T (matrix x b).
  Proof.
    intros D I. rewrite (matrix_eq _ _ _ _ _ D I). split; [apply tabulate_length|].
    intros r Hr. unfold tabulate in Hr at 1. apply in_map_iff in Hr as (i & <- & _).
    apply tabulate_length.
  Qed.

  Lemma matrix_at2 (x : arr A) B n T b i t : dims x = B ++ [n; T] -> inside B b ->
    i < n -> t < T -> at2 (matrix x b) i t = Some (cell x (b ++ [i; t])).
  Proof.
    intros D I Hi Ht. rewrite (matrix_eq _ _ _ _ _ D I). unfold at2.
    rewrite nth_error_tabulate. apply Nat.ltb_lt in Hi. rewrite Hi.
    rewrite nth_error_tabulate. apply Nat.ltb_lt in Ht. now rewrite Ht.
  Qed.

  Lemma vector_length (x : arr A) B n b : dims x = B ++ [n] -> inside B b ->
    length (vector x b) = n.
  Proof. intros D I. rewrite (vector_eq _ _ _ _ _ D I). apply tabulate_length. Qed.

  Lemma vector_nth (x : arr A) B n b i : dims x = B ++ [n] -> inside B b -> i < n ->
    nth_error (vector x b) i = Some (cell x (b ++ [i])).
  Proof.
    intros D I Hi. rewrite (vector_eq _ _ _ _ _ D I), nth_error_tabulate.
    apply Nat.ltb_lt in Hi. now rewrite Hi.
  Qed.

  (** [m] is the matrix at [b] as soon as it has its entries. *)
  Lemma is_matrix (x : arr A) B n T b m : dims x = B ++ [n; T] -> inside B b ->
    rect n T m ->
    (forall i t, i < n -> t < T -> at2 m i t = Some (cell x (b ++ [i; t]))) ->
    m = matrix x b.
  Proof.
    intros D I R H. eapply rect_ext; [exact R|eapply matrix_rect; eauto|].
    intros i t Hi Ht. rewrite H by auto. symmetry. eapply matrix_at2; eauto.
  Qed.

  (** The frame of one time index at batch index [b] of an array (..., n, 1). *)
  Definition frame (n : nat) (x : arr A) (b : list nat) : list A :=
    tabulate n (fun i => cell x (b ++ [i; 0])).
End Read.

Lemma vector_amap {A B'} (f : A -> B') (x : arr A) b :
  vector (amap f x) b = map f (vector x b).
Proof. unfold vector, tabulate. simpl. now rewrite map_map. Qed.

Lemma matrix_amap {A B'} (f : A -> B') (x : arr A) b :
  matrix (amap f x) b = map (map f) (matrix x b).
Proof.
  unfold matrix, tabulate. simpl. rewrite map_map. apply map_ext. intros i.
  now rewrite map_map.
Qed.

Lemma clock_amap f t b : clock (amap f t) b = f (clock t b).
Proof. reflexivity. Qed.

(** A start index array is a scalar or has the batch shape. *)
Definition start_of (B : list nat) (st : arr Z) : Prop := dims st = [] \/ dims st = B.

Lemma start_cell B st b m : start_of B st -> inside B b ->
  cell st (firstn (length (dims st)) (b ++ m)) = clock st b.
Proof.
  intros [D|D] I; unfold clock; rewrite D; simpl; auto.
  rewrite firstn_pre by (apply inside_length in I; auto).
  rewrite <- (inside_length _ _ I), firstn_all. reflexivity.
Qed.

Lemma start_vmappable B st m : start_of B st -> vmappable (dims st) (B ++ m) = true.
Proof. intros [-> | ->]; [reflexivity|apply vmappable_app]. Qed.

Lemma start_length B st : start_of B st -> length (dims st) <= length B.
Proof. intros [-> | ->]; simpl; lia. Qed.

(* ---------------- operations ---------------- *)

Section Ops.
  Context {A : Type}.

  Lemma b_slice_Ok (x : arr A) B n T st size :
    dims x = B ++ [n; T] -> start_of B st -> size <= T ->
    exists y, b_slice x st size = Ok y /\ dims y = B ++ [n; size] /\
      forall b i j, inside B b ->
        cell y (b ++ [i; j])
        = cell x (b ++ [i; norm_start (clock st b) T size + j]).
  Proof.
    intros D St Hs. unfold b_slice. rewrite D, (start_vmappable _ _ _ St). simpl.
    rewrite app_length. simpl. pose proof (start_length _ _ St).
    rewrite (proj2 (Nat.ltb_lt _ _)) by lia. simpl.
    rewrite last_app2. rewrite (proj2 (Nat.leb_le _ _) Hs). simpl.
    eexists. split; [reflexivity|]. simpl. split.
    - rewrite removelast_app2, <- app2. reflexivity.
    - intros b i j I. rewrite (start_cell _ _ _ _ St I), removelast_app2, last_app2, <- app2.
      reflexivity.
  Qed.

  Lemma b_slice_big (x : arr A) B n T st size :
    dims x = B ++ [n; T] -> start_of B st -> T < size -> b_slice x st size = Err TypeError.
  Proof.
    intros D St Hs. unfold b_slice. rewrite D, (start_vmappable _ _ _ St). simpl.
    rewrite app_length. simpl. pose proof (start_length _ _ St).
    rewrite (proj2 (Nat.ltb_lt _ _)) by lia. simpl.
    rewrite last_app2. rewrite (proj2 (Nat.leb_gt _ _) Hs). reflexivity.
  Qed.

  (** A batched slice of one entry reads, in each scenario, the entry at that
      scenario's own index. *)
  Lemma b_slice_frame (x : arr A) B n T st :
    dims x = B ++ [n; T] -> start_of B st -> 0 < T ->
    exists y, b_slice x st 1 = Ok y /\ dims y = B ++ [n; 1] /\
      forall b, inside B b ->
        dynamic_index (matrix x b) (clock st b) = Ok (frame n y b).
  Proof.
    intros D St HT. destruct (b_slice_Ok x B n T st 1 D St) as (y & Hy & Dy & Cy); [lia|].
    exists y. repeat split; auto. intros b I.
    pose proof (matrix_rect x B n T b D I) as R.
    destruct (dynamic_index_total n T (matrix x b) (clock st b) R HT) as [c Hc].
    rewrite Hc. f_equal.
    destruct (dynamic_index_Ok n T _ _ _ R Hc) as [L E].
    apply eq_tabulate; auto. intros i Hi. rewrite E by auto.
    rewrite (matrix_at2 x B n T b i _ D I Hi).
    - rewrite Cy by auto. now rewrite Nat.add_0_r.
    - pose proof (norm_start_fit (clock st b) T 1). lia.
  Qed.

  Lemma b_index_Ok (x : arr A) B n T st :
    dims x = B ++ [n; T] -> start_of B st -> 0 < T ->
    exists y, b_index x st = Ok y /\ dims y = B ++ [n] /\
      forall b, inside B b ->
        dynamic_index (matrix x b) (clock st b) = Ok (vector y b).
  Proof.
    intros D St HT. destruct (b_slice_frame x B n T st D St HT) as (y & Hy & Dy & Fy).
    unfold b_index. rewrite Hy. simpl. eexists. split; [reflexivity|].
    rewrite Dy, removelast_app2. split; [reflexivity|]. intros b I. rewrite Fy by auto.
    f_equal. symmetry. erewrite vector_eq; [|reflexivity|eassumption].
    apply tabulate_ext. intros i Hi. simpl. now rewrite <- app2.
  Qed.

  (** Window [size] of [u] (same shape as [x]) written at the same place. *)
  Lemma b_update_window_Ok (x u : arr A) B n T st size :
    dims x = B ++ [n; T] -> dims u = B ++ [n; T] -> start_of B st -> size <= T ->
    exists y, b_update x u st None (Some size) = Ok y /\ dims y = B ++ [n; T] /\
      forall b i t, inside B b -> i < n -> t < T ->
        cell y (b ++ [i; t])
        = let k := norm_start (clock st b) T size in
          if (k <=? t) && (t <? k + size) then cell u (b ++ [i; t]) else cell x (b ++ [i; t]).
  Proof.
    intros Dx Du St Hs. unfold b_update.
    rewrite Dx, Du, !(start_vmappable _ _ _ St).
    replace (vmappable (dims st) (dims st)) with true
      by (symmetry; unfold vmappable; rewrite firstn_all; apply dims_eqb_refl).
    simpl. rewrite !app_length. simpl. pose proof (start_length _ _ St).
    rewrite (proj2 (Nat.ltb_lt _ _)) by lia. simpl. rewrite Nat.eqb_refl. simpl.
    destruct (b_slice_Ok u B n T (mkA (dims st) (cell st)) size Du) as (w & Hw & Dw & Cw);
      auto. rewrite Hw. simpl.
    assert (G : dims_leb (skipn (length (dims st)) (dims w))
                  (skipn (length (dims st)) (B ++ [n; T])) = true).
    { rewrite Dw. clear -Hs. generalize (length (dims st)) as k.
      induction B as [|d B IH]; intros k; simpl.
      - destruct k as [|[|[|k]]]; simpl; auto; rewrite ?Nat.leb_refl; simpl;
          rewrite ?(proj2 (Nat.leb_le _ _) Hs); auto.
      - destruct k as [|k]; simpl; auto. rewrite Nat.leb_refl. simpl. apply (IH 0). }
    rewrite G. simpl. eexists. split; [reflexivity|]. simpl. split; auto.
    intros b i t I Hi Ht.
    rewrite (start_cell _ _ _ _ St I), !last_app2, removelast_app2, Dw, last_app2.
    rewrite <- app2. rewrite insideb_app by (apply inside_length; auto).
    rewrite (insideb_true _ _ I). simpl. rewrite (proj2 (Nat.ltb_lt _ _) Hi). simpl.
    rewrite andb_true_r.
    set (k := norm_start (clock st b) T size).
    destruct (Nat.leb_spec k t) as [K|K]; simpl; auto.
    replace (t <? k + size) with (t - k <? size)
      by (destruct (Nat.ltb_spec (t - k) size), (Nat.ltb_spec t (k + size)); auto; lia).
    destruct (t - k <? size) eqn:E; auto. rewrite Cw by auto.
    change (clock (mkA (dims st) (cell st)) b) with (clock st b). fold k.
    replace (k + (t - k)) with t by lia. reflexivity.
  Qed.

  Lemma b_update_window_big (x u : arr A) B n T st size :
    dims x = B ++ [n; T] -> dims u = B ++ [n; T] -> start_of B st -> T < size ->
    b_update x u st None (Some size) = Err TypeError.
  Proof.
    intros Dx Du St Hs. unfold b_update.
    rewrite Dx, Du, !(start_vmappable _ _ _ St).
    replace (vmappable (dims st) (dims st)) with true
      by (symmetry; unfold vmappable; rewrite firstn_all; apply dims_eqb_refl).
    simpl. rewrite !app_length. simpl. pose proof (start_length _ _ St).
    rewrite (proj2 (Nat.ltb_lt _ _)) by lia. simpl. rewrite Nat.eqb_refl. simpl.
    rewrite (b_slice_big u B n T (mkA (dims st) (cell st)) size Du); auto.
  Qed.

  (** Writing one frame (..., n, 1) at a common scalar index. *)
  Lemma b_update_frame_Ok (x u : arr A) B n T st :
    dims x = B ++ [n; T] -> dims u = B ++ [n; 1] -> dims st = [] -> 0 < T ->
    exists y, b_update x u st (Some (scalar 0%Z)) (Some 1%nat) = Ok y /\
      dims y = B ++ [n; T] /\
      forall b i t, inside B b -> i < n -> t < T ->
        cell y (b ++ [i; t])
        = if t =? norm_start (clock st b) T 1 then cell u (b ++ [i; 0])
          else cell x (b ++ [i; t]).
  Proof.
    intros Dx Du Dst HT. unfold b_update. rewrite Dst, Dx, Du. simpl.
    rewrite !app_length. simpl. rewrite !(proj2 (Nat.ltb_lt _ _)) by lia. simpl.
    destruct (b_slice_Ok u B n 1 (mkA [] (fun _ => 0%Z)) 1 Du) as (w & Hw & Dw & Cw);
      [now left|lia|].
    rewrite Hw. simpl. rewrite Dw.
    assert (G : dims_leb (B ++ [n; 1]) (B ++ [n; T]) = true).
    { clear -HT. induction B as [|d B IH]; simpl; rewrite ?Nat.leb_refl; simpl; auto.
      destruct T; [lia|reflexivity]. }
    rewrite G. simpl. eexists. split; [reflexivity|]. simpl. split; auto.
    intros b i t I Hi Ht. rewrite !last_app2, removelast_app2, <- app2.
    rewrite insideb_app by (apply inside_length; auto).
    rewrite (insideb_true _ _ I). simpl. rewrite (proj2 (Nat.ltb_lt _ _) Hi). simpl.
    rewrite andb_true_r. unfold clock. rewrite Dst. simpl.
    set (k := norm_start (cell st []) T 1).
    destruct (Nat.eqb_spec t k) as [->|N].
    - rewrite Nat.leb_refl, Nat.sub_diag. simpl. rewrite Cw by auto. reflexivity.
    - destruct (Nat.leb_spec k t) as [K|K]; simpl; auto.
      rewrite (proj2 (Nat.ltb_ge _ _)) by lia. reflexivity.
  Qed.

  (** With a start index per scenario the constant updates_start_idx=0 cannot be
      mapped over. *)
  Lemma b_update_frame_own_clock (x u : arr A) st size : dims st <> [] ->
    b_update x u st (Some (scalar 0%Z)) size = Err ValueError.
  Proof.
    intros H. unfold b_update. destruct (dims st) as [|d B] eqn:D; [congruence|]. simpl.
    rewrite andb_false_r. reflexivity.
  Qed.
End Ops.

(* ---------------- states ---------------- *)

Section States.
  Context {S : Scalar}.

  Lemma batch_start B n T s : batch_of B n T s -> start_of B (b_t s).
  Proof. intros (_ & _ & _ & H). exact H. Qed.

  Lemma batch_shape B n T s : batch_of B n T s -> b_shape s = B.
  Proof. intros (_ & _ & D & _). unfold b_shape. rewrite D. apply removelast_app1. Qed.

  Lemma start_amap B f st : start_of B st -> start_of B (amap f st).
  Proof. auto. Qed.

  Lemma mapM_Err {A B} (f : A -> res B) e a l :
    (forall x, f x = Err e) -> mapM f (a :: l) = Err e.
  Proof. intros H. simpl. now rewrite H. Qed.

  Lemma window_big n T (m u : traj) k size :
    rect n T m -> rect n T u -> 0 < n -> T < size ->
    update_by_slice_in_dim m u k None (Some size) = Err TypeError.
  Proof.
    intros [L1 R1] [L2 R2] Hn Hs. destruct m as [|r m]; simpl in *; [lia|].
    destruct u as [|r' u]; simpl in *; [lia|]. unfold update_by_slice_in_dim. simpl.
    unfold update_row. unfold dyn_slice. rewrite (R2 r') by now left.
    rewrite (proj2 (Nat.leb_gt _ _) Hs). reflexivity.
  Qed.

  (** update_state_by_log on a batch is update_state_by_log on each scenario. *)
  Lemma b_update_state_by_log_eq B n T s k b :
    batch_of B n T s -> 0 < n -> inside B b ->
    rmap (fun s' => scenario s' b) (b_update_state_by_log s k)
    = update_state_by_log (scenario s b) k.
  Proof.
    intros W Hn I. pose proof (batch_start _ _ _ _ W) as St.
    destruct W as (D1 & D2 & D3 & D4).
    pose proof (matrix_rect _ _ _ _ _ D1 I) as R1.
    pose proof (matrix_rect _ _ _ _ _ D2 I) as R2.
    unfold b_update_state_by_log, update_state_by_log. simpl.
    destruct (Nat.le_gt_cases k T) as [Hk|Hk].
    - destruct (b_update_window_Ok (b_sim s) (b_log s) B n T
                  (amap (fun t => t + 1)%Z (b_t s)) k D1 D2 (start_amap _ _ _ St) Hk)
        as (y & Hy & Dy & Cy).
      rewrite Hy. simpl.
      destruct (update_window_total n T _ _ (clock (b_t s) b + 1) k R1 R2 Hk) as [r Hr].
      rewrite Hr. simpl. f_equal. unfold scenario. simpl. f_equal.
      destruct (update_window_Ok _ _ _ _ _ _ _ R1 R2 Hk Hr) as [Rr Er].
      symmetry. eapply is_matrix; eauto. intros i t Hi Ht. rewrite Er, Cy by auto.
      rewrite clock_amap. cbv zeta.
      destruct (_ && _); eapply matrix_at2; eauto.
    - rewrite (b_update_window_big _ _ B n T _ _ D1 D2 (start_amap _ _ _ St) Hk).
      rewrite (window_big n T _ _ _ _ R1 R2 Hn Hk). reflexivity.
  Qed.

  Lemma b_update_state_by_log_shape B n T s k s' :
    batch_of B n T s -> b_update_state_by_log s k = Ok s' ->
    batch_of B n T s' /\ dims (b_t s') = dims (b_t s).
  Proof.
    intros W H. pose proof (batch_start _ _ _ _ W) as St. destruct W as (D1 & D2 & D3 & D4).
    unfold b_update_state_by_log in H. apply bind_Ok in H as (y & Hy & H).
    inversion H; subst; clear H. simpl. split; auto.
    destruct (Nat.le_gt_cases k T) as [Hk|Hk].
    - destruct (b_update_window_Ok (b_sim s) (b_log s) B n T
                  (amap (fun t => t + 1)%Z (b_t s)) k D1 D2 (start_amap _ _ _ St) Hk)
        as (y' & Hy' & Dy & _).
      rewrite Hy in Hy'. inversion Hy'; subst. repeat split; auto.
    - rewrite (b_update_window_big _ _ B n T _ _ D1 D2 (start_amap _ _ _ St) Hk) in Hy.
      discriminate.
  Qed.

  Lemma b_reset_eq B n T c s b :
    loaded_batch B n T s -> 0 < n -> inside B b ->
    rmap (fun s' => scenario s' b) (b_reset c s) = env_reset c (scenario s b).
  Proof.
    intros (D2 & D3) Hn I. unfold b_reset, env_reset. simpl.
    pose proof (matrix_rect _ _ _ _ _ D2 I) as [L2 _]. rewrite L2.
    unfold b_num_objects. rewrite D2, removelast_app2, last_app1.
    destruct (c_max_num_objects c =? n); simpl; auto.
    erewrite b_update_state_by_log_eq; [|repeat split; simpl; eauto| eauto | eauto].
    f_equal. unfold scenario. simpl. f_equal.
    unfold fill_invalid_trajectory. apply matrix_amap.
  Qed.

  Lemma b_reset_shape B n T c s s' :
    loaded_batch B n T s -> b_reset c s = Ok s' ->
    batch_of B n T s' /\ dims (b_t s') = [].
  Proof.
    intros (D2 & D3) H. unfold b_reset in H. apply bind_Ok in H as (u & _ & H).
    apply (b_update_state_by_log_shape B n T) in H as [H1 H2]; auto.
    repeat split; simpl; auto.
  Qed.

  Lemma b_reset_Ok B n T c s : loaded_batch B n T s ->
    c_max_num_objects c = n -> c_init_steps c <= T -> exists s', b_reset c s = Ok s'.
  Proof.
    intros (D2 & D3) Hc Hi. unfold b_reset. unfold b_num_objects.
    rewrite D2, removelast_app2, last_app1, Hc, Nat.eqb_refl. simpl.
    unfold b_update_state_by_log. simpl.
    edestruct (b_update_window_Ok (amap (fun _ => invalid_pt) (b_log s)) (b_log s) B n T
                  (amap (fun t => t + 1)%Z (scalar (-1)%Z)) (c_init_steps c))
      as (y & Hy & _); auto; [now left|].
    rewrite Hy. simpl. eauto.
  Qed.

  Lemma b_mask_eq B n T s c b :
    batch_of B n T s -> 0 < T -> inside B b ->
    rmap (fun m => vector m b) (b_env_control_mask s c) = env_control_mask (scenario s b) c.
  Proof.
    intros (D1 & D2 & D3 & D4) HT I. unfold b_env_control_mask, env_control_mask.
    assert (G : forall ty, rmap (fun m => vector m b) (b_get_control_mask (b_meta s) ty)
                           = get_control_mask (s_meta (scenario s b)) ty).
    { intros ty. destruct ty; simpl; rewrite ?vector_amap; auto. }
    destruct (c_controlled c); auto. destruct (c_allow_new_objects c); auto.
    destruct (b_index_Ok (amap p_valid (b_sim s)) B n T
                (scalar (Z.of_nat (c_init_steps c) - 1)%Z)) as (y & Hy & Dy & Fy); auto.
    { now left. }
    rewrite Hy. simpl. rewrite <- matrix_amap. rewrite <- Fy by auto. reflexivity.
  Qed.

  Lemma b_mask_shape B n T s c m :
    batch_of B n T s -> 0 < T -> b_env_control_mask s c = Ok m -> dims m = B ++ [n].
  Proof.
    intros (D1 & D2 & D3 & D4) HT H. unfold b_env_control_mask in H.
    assert (G : forall ty, b_get_control_mask (b_meta s) ty = Ok m -> dims m = B ++ [n]).
    { intros ty E. destruct ty; simpl in E; inversion E; auto. }
    destruct (c_controlled c); eauto. destruct (c_allow_new_objects c); eauto.
    destruct (b_index_Ok (amap p_valid (b_sim s)) B n T
                (scalar (Z.of_nat (c_init_steps c) - 1)%Z)) as (y & Hy & Dy & _); auto.
    { now left. }
    rewrite Hy in H. inversion H; subst; auto.
  Qed.

  (** compute_update on a batch is compute_update on each scenario. *)
  Lemma per_object_list f (l : list nat) (g : nat -> act) (h : nat -> pt) (u : nat -> upd) :
    (forall i, In i l -> f (g i) (h i) = Ok (u i)) ->
    per_object f (map g l) (map h l) = Ok (map u l).
  Proof.
    induction l as [|i l IH]; intros H; simpl; auto.
    rewrite (H i) by now left. simpl. rewrite IH by (intros; apply H; now right). reflexivity.
  Qed.

  Lemma b_elementwise_eq f B n w acts cur :
    column_checked f -> actions_of B n w acts -> dims cur = B ++ [n; 1] -> 0 < n ->
    (exists us, b_elementwise f acts cur = Ok us /\ dims us = B ++ [n; 1] /\
       forall b, inside B b ->
         per_object f (vector acts b) (frame n cur b) = Ok (frame n us b)) \/
    (exists e, (forall b, inside B b ->
         b_elementwise f acts cur = Err e /\
         per_object f (vector acts b) (frame n cur b) = Err e)).
  Proof.
    intros CC [Da Wa] Dc Hn. destruct (CC w) as [Hok|[e Herr]].
    - left. unfold b_elementwise.
      set (at_ := fun i => f (cell acts (removelast i)) (cell cur i)).
      assert (G : forall i, inside (dims cur) i -> exists u, at_ i = Ok u).
      { intros i Hi. rewrite Dc, app2 in Hi.
        apply inside_app_inv in Hi as (i1 & i2 & -> & I1 & I2).
        inversion I2 as [|? j ? ? Hj Hnil]; subst. inversion Hnil; subst.
        unfold at_. rewrite removelast_app1. apply Hok. apply Wa. auto. }
      destruct (mapM_total at_ (indices (dims cur))) as [l Hl].
      { intros i Hi. apply G. now apply indices_inside. }
      rewrite Hl. simpl. eexists. split; [reflexivity|]. simpl. split; auto.
      intros b I. rewrite (vector_eq _ _ _ _ _ Da I). unfold frame, tabulate.
      apply per_object_list. intros i Hi. apply in_seq in Hi.
      assert (Ii : inside (dims cur) (b ++ [i; 0])).
      { rewrite Dc. apply inside_app; auto. repeat constructor; lia. }
      destruct (G _ Ii) as [u Hu]. unfold at_ in Hu. rewrite removelast_app2 in Hu.
      simpl. rewrite removelast_app2, Hu. reflexivity.
    - right. exists e. intros b I. split.
      + unfold b_elementwise.
        set (at_ := fun i => f (cell acts (removelast i)) (cell cur i)).
        assert (G : forall i, inside (dims cur) i -> at_ i = Err e).
        { intros i Hi. rewrite Dc, app2 in Hi.
          apply inside_app_inv in Hi as (i1 & i2 & -> & I1 & I2).
          inversion I2 as [|? j ? ? Hj Hnil]; subst. inversion Hnil; subst.
          unfold at_. rewrite removelast_app1. apply Herr. apply Wa. auto. }
        assert (Ii : inside (dims cur) (b ++ [0; 0])).
        { rewrite Dc. apply inside_app; auto. repeat constructor; lia. }
        apply indices_inside in Ii.
        assert (H : mapM at_ (indices (dims cur)) = Err e).
        { destruct (indices (dims cur)) as [|i0 l] eqn:E; [destruct Ii|].
          simpl. rewrite G; auto. apply indices_inside. rewrite E. now left. }
        rewrite H. reflexivity.
      + rewrite (vector_eq _ _ _ _ _ Da I). unfold frame.
        destruct n as [|n]; [lia|]. unfold tabulate. simpl.
        rewrite Herr; auto. apply Wa. apply inside_app; auto.
        constructor; [lia|constructor].
  Qed.

  (** The elementwise part and the write of apply_trajectory_update_to_state. *)
  Lemma b_apply_eq B n T us sim ref ctl t inj fb :
    dims sim = B ++ [n; T] -> dims ref = B ++ [n; T] -> dims ctl = B ++ [n] ->
    dims us = B ++ [n; 1] -> dims t = [] -> 0 < T ->
    exists sim', b_apply_update us sim ref ctl t inj fb = Ok sim' /\
      dims sim' = B ++ [n; T] /\
      forall b, inside B b ->
        apply_trajectory_update_to_state (frame n us b) (matrix sim b) (matrix ref b)
          (vector ctl b) (clock t b) inj fb = Ok (matrix sim' b).
  Proof.
    intros Ds Dr Dctl Du Dt HT.
    assert (St : start_of B t) by now left.
    destruct (b_slice_frame sim B n T t Ds St HT) as (cur & Hc & Dc & Fc).
    destruct (b_slice_frame ref B n T (amap (fun t => t + 1)%Z t) Dr (start_amap _ _ _ St) HT)
      as (nxt & Hx & Dx & Fx).
    unfold b_apply_update. rewrite Hc. simpl. rewrite Hx. simpl.
    rewrite Dctl, Du, Dx, Dc, <- app2, !dims_eqb_refl. simpl.
    match goal with |- context [b_update sim ?u _ _ _] => set (upd1 := u) end.
    destruct (b_update_frame_Ok sim upd1 B n T (amap (fun t => t + 1)%Z t))
      as (sim' & Hs & Ds' & Cs); auto.
    exists sim'. repeat split; auto. intros b I.
    pose proof (matrix_rect _ _ _ _ _ Ds I) as Rs.
    pose proof (matrix_rect _ _ _ _ _ Dr I) as Rr.
    destruct (apply_total n T (frame n us b) (matrix sim b) (matrix ref b) (vector ctl b)
                (clock t b) inj fb Rs Rr HT) as [m Hm].
    { apply tabulate_length. } { eapply vector_length; eauto. }
    rewrite Hm. f_equal. unfold apply_trajectory_update_to_state in Hm.
    rewrite Fc in Hm by auto. simpl in Hm.
    pose proof (Fx b I) as Fxb. rewrite clock_amap in Fxb. rewrite Fxb in Hm. simpl in Hm.
    apply bind_Ok in Hm as (? & _ & Hm).
    assert (Lcol : length (map4 (next_pt inj fb) (frame n us b) (frame n cur b)
                             (frame n nxt b) (vector ctl b)) = n).
    { rewrite map4_length, (vector_length _ _ _ _ Dctl I). unfold frame.
      rewrite !tabulate_length. lia. }
    destruct (update_column_Ok n T _ _ _ _ Rs Lcol HT Hm) as [Rm Em].
    eapply is_matrix; eauto. intros i t' Hi Ht. rewrite Em by auto. rewrite Cs by auto.
    rewrite clock_amap. destruct (t' =? _).
    - rewrite nth_error_map4, (vector_nth _ _ _ _ _ Dctl I Hi). unfold frame.
      rewrite !nth_error_tabulate, (proj2 (Nat.ltb_lt _ _) Hi). simpl.
      rewrite removelast_app2. reflexivity.
    - eapply matrix_at2; eauto.
  Qed.

  Lemma b_step_eq f inv B n T w c s a b :
    batch_of B n T s -> dims (b_t s) = [] -> 0 < n -> 0 < T ->
    column_checked f -> actions_of B n w a -> inside B b ->
    rmap (fun s' => scenario s' b) (b_step (b_elementwise f) c s a)
    = env_step (mkdyn (per_object f) inv) c (scenario s b) (vector a b).
  Proof.
    intros W Dt Hn HT CC Wa I.
    pose proof (b_mask_eq B n T s c b W HT I) as ME.
    pose proof W as (D1 & D2 & D3 & D4).
    unfold b_step, env_step. destruct (b_env_control_mask s c) as [ctl|e] eqn:Hm.
    2:{ simpl in ME. rewrite <- ME. reflexivity. }
    simpl in ME. rewrite <- ME. simpl.
    pose proof (b_mask_shape B n T s c ctl W HT Hm) as Dctl.
    assert (Da : dims a = B ++ [n]) by apply Wa.
    unfold b_forward, forward. simpl.
    rewrite D1, removelast_app2, Da, dims_eqb_refl. simpl.
    rewrite D2, Dctl. rewrite !app2, !firstn_pre by auto. rewrite firstn_all.
    rewrite !dims_eqb_refl. simpl.
    pose proof (matrix_rect _ _ _ _ _ D1 I) as [L1 _].
    pose proof (matrix_rect _ _ _ _ _ D2 I) as [L2 _].
    rewrite L1, L2, (vector_length _ _ _ _ Da I), (vector_length _ _ _ _ Dctl I).
    rewrite Nat.eqb_refl. simpl.
    assert (St : start_of B (b_t s)) by now left.
    destruct (b_slice_frame (b_sim s) B n T (b_t s) D1 St HT) as (cur & Hc & Dc & Fc).
    rewrite Hc, Fc by auto. simpl.
    destruct (b_elementwise_eq f B n w a cur CC Wa Dc Hn) as [(us & Hu & Du & Eu)|[e He]].
    - rewrite Hu, Eu by auto. simpl.
      destruct (b_apply_eq B n T us (b_sim s) (b_log s) ctl (b_t s) (c_allow_new_objects c)
                  false D1 D2 Dctl Du Dt HT) as (sim' & Hs & Ds & Es).
      rewrite Hs, Es by auto. reflexivity.
    - destruct (He b I) as [H1 H2]. rewrite H1, H2. reflexivity.
  Qed.

  Lemma b_step_shape f B n T w c s a s' :
    batch_of B n T s -> dims (b_t s) = [] -> 0 < n -> 0 < T ->
    column_checked f -> actions_of B n w a ->
    b_step (b_elementwise f) c s a = Ok s' ->
    batch_of B n T s' /\ dims (b_t s') = [].
  Proof.
    intros W Dt Hn HT CC Wa H. pose proof W as (D1 & D2 & D3 & D4).
    unfold b_step in H. apply bind_Ok in H as (ctl & Hm & H).
    apply bind_Ok in H as (sim' & Hs & H). inversion H; subst; clear H. simpl.
    pose proof (b_mask_shape B n T s c ctl W HT Hm) as Dctl.
    split; auto. repeat split; simpl; auto.
    unfold b_forward in Hs.
    apply bind_Ok in Hs as (? & _ & Hs). apply bind_Ok in Hs as (? & _ & Hs).
    apply bind_Ok in Hs as (cur & Hc & Hs). apply bind_Ok in Hs as (us & Hu & Hs).
    assert (Du : dims us = B ++ [n; 1]).
    { unfold b_elementwise in Hu. apply bind_Ok in Hu as (? & _ & Hu).
      inversion Hu; subst. simpl.
      destruct (b_slice_frame (b_sim s) B n T (b_t s) D1 (or_introl Dt) HT)
        as (cur' & Hc' & Dc & _).
      rewrite Hc in Hc'. inversion Hc'; subst; auto. }
    destruct (b_apply_eq B n T us (b_sim s) (b_log s) ctl (b_t s) (c_allow_new_objects c)
                  false D1 D2 Dctl Du Dt HT) as (sim'' & Hs'' & Ds & _).
    rewrite Hs in Hs''. inversion Hs''; subst; auto.
  Qed.

  Lemma b_steps_eq f inv B n T w c s acts b :
    batch_of B n T s -> dims (b_t s) = [] -> 0 < n -> 0 < T ->
    column_checked f -> Forall (actions_of B n w) acts -> inside B b ->
    rmap (fun s' => scenario s' b) (b_steps (b_elementwise f) c s acts)
    = env_steps (mkdyn (per_object f) inv) c (scenario s b) (map (fun a => vector a b) acts).
  Proof.
    intros W Dt Hn HT CC Wa I. revert s W Dt. induction Wa as [|a acts Ha Wa IH];
      intros s W Dt; simpl; auto.
    pose proof (b_step_eq f inv B n T w c s a b W Dt Hn HT CC Ha I) as E. rewrite <- E.
    destruct (b_step (b_elementwise f) c s a) as [s1|e] eqn:Hs; simpl; auto.
    destruct (b_step_shape f B n T w c s a s1) as [W1 Dt1]; auto.
  Qed.

  Lemma b_steps_shape f B n T w c s acts s' :
    batch_of B n T s -> dims (b_t s) = [] -> 0 < n -> 0 < T ->
    column_checked f -> Forall (actions_of B n w) acts ->
    b_steps (b_elementwise f) c s acts = Ok s' -> batch_of B n T s' /\ dims (b_t s') = [].
  Proof.
    intros W Dt Hn HT CC Wa. revert s W Dt. induction Wa as [|a acts Ha Wa IH];
      intros s W Dt H; simpl in H.
    - inversion H; subst; auto.
    - apply bind_Ok in H as (s1 & H1 & H).
      destruct (b_step_shape f B n T w c s a s1) as [W1 Dt1]; eauto.
  Qed.

  Lemma b_episode_eq f inv B n T w c s acts b :
    loaded_batch B n T s -> 0 < n -> 0 < T ->
    column_checked f -> Forall (actions_of B n w) acts -> inside B b ->
    rmap (fun s' => scenario s' b) (b_episode (b_elementwise f) c s acts)
    = run_episode (mkdyn (per_object f) inv) c (scenario s b)
        (map (fun a => vector a b) acts).
  Proof.
    intros W Hn HT CC Wa I. unfold b_episode, run_episode.
    pose proof (b_reset_eq B n T c s b W Hn I) as E. rewrite <- E.
    destruct (b_reset c s) as [s0|e] eqn:Hr; simpl; auto.
    destruct (b_reset_shape B n T c s s0 W Hr) as [W0 Dt0].
    eapply b_steps_eq; eauto.
  Qed.

  (** Own clocks. *)
  Lemma b_apply_own_clock us sim ref ctl t inj fb sim' :
    dims t <> [] -> b_apply_update us sim ref ctl t inj fb <> Ok sim'.
  Proof.
    intros Dt H. unfold b_apply_update in H.
    do 4 (apply bind_Ok in H as (? & _ & H)).
    rewrite b_update_frame_own_clock in H; [discriminate|]. exact Dt.
  Qed.

  Lemma b_step_own_clock d c s a s' :
    dims (b_t s) <> [] -> b_step d c s a <> Ok s'.
  Proof.
    intros Dt H. unfold b_step in H. apply bind_Ok in H as (ctl & Hm & H).
    apply bind_Ok in H as (sim' & Hs & H). unfold b_forward in Hs.
    do 4 (apply bind_Ok in Hs as (? & _ & Hs)).
    eapply b_apply_own_clock; eauto.
  Qed.
End States.

(* ---------------- more about states ---------------- *)

Section More.
  Context {S : Scalar}.

  Lemma b_step_own_clock_error f B n T w c s a :
    batch_of B n T s -> B <> [] -> dims (b_t s) = B -> 0 < n -> 0 < T ->
    (forall x p, length (a_data x) = w -> exists u, f x p = Ok u) -> actions_of B n w a ->
    b_step (b_elementwise f) c s a = Err ValueError.
  Proof.
    intros W HB Dt Hn HT Hok Wa. pose proof W as (D1 & D2 & D3 & D4).
    unfold b_step. destruct (b_env_control_mask s c) as [ctl|e] eqn:Hm.
    2:{ unfold b_env_control_mask in Hm.
        assert (G : forall ty, b_get_control_mask (b_meta s) ty = Err e -> e = ValueError).
        { intros ty E; destruct ty; simpl in E; inversion E; auto. }
        assert (e = ValueError); [|subst; reflexivity].
        destruct (c_controlled c); eauto. destruct (c_allow_new_objects c); eauto.
        destruct (b_index_Ok (amap p_valid (b_sim s)) B n T
                    (scalar (Z.of_nat (c_init_steps c) - 1)%Z)) as (y & Hy & _); auto;
          [now left|].
        rewrite Hy in Hm. discriminate. }
    simpl. pose proof (b_mask_shape B n T s c ctl W HT Hm) as Dctl.
    assert (Da : dims a = B ++ [n]) by apply Wa.
    unfold b_forward.
    rewrite D1, removelast_app2, Da, dims_eqb_refl. simpl.
    rewrite D2, Dctl. rewrite !app2, !firstn_pre by auto. rewrite firstn_all.
    rewrite !dims_eqb_refl. simpl.
    assert (St : start_of B (b_t s)) by now right.
    destruct (b_slice_frame (b_sim s) B n T (b_t s) D1 St HT) as (cur & Hc & Dc & Fc).
    rewrite Hc. simpl.
    assert (U : exists us, b_elementwise f a cur = Ok us /\ dims us = B ++ [n; 1]).
    { unfold b_elementwise.
      destruct (mapM_total (fun i => f (cell a (removelast i)) (cell cur i))
                  (indices (dims cur))) as [l Hl].
      { intros i Hi. apply indices_inside in Hi. rewrite Dc, app2 in Hi.
        apply inside_app_inv in Hi as (i1 & i2 & -> & I1 & I2).
        inversion I2 as [|? j ? ? Hj Hnil]; subst. inversion Hnil; subst.
        rewrite removelast_app1. apply Hok. apply Wa. auto. }
      rewrite Hl. simpl. eauto. }
    destruct U as (us & Hu & Du). rewrite Hu. simpl.
    unfold b_apply_update. rewrite Hc. simpl.
    destruct (b_slice_frame (b_log s) B n T (amap (fun t => t + 1)%Z (b_t s)) D2
                (start_amap _ _ _ St) HT) as (nxt & Hx & Dx & Fx).
    rewrite Hx. simpl. rewrite Dctl, Du, Dx, Dc, <- app2, !dims_eqb_refl. simpl.
    rewrite b_update_frame_own_clock; [reflexivity|]. simpl. congruence.
  Qed.

  Lemma bdims_rev_nil_r a : bdims_rev a [] = Some a.
  Proof. destruct a; reflexivity. Qed.

  Lemma bdims_rev_same a : bdims_rev a a = Some a.
  Proof. induction a as [|x a IH]; simpl; auto. rewrite IH, Nat.eqb_refl. reflexivity. Qed.

  Lemma bdims_nil_r a : bdims a [] = Some a.
  Proof. unfold bdims. rewrite bdims_rev_nil_r. simpl. now rewrite rev_involutive. Qed.

  Lemma bdims_same a : bdims a a = Some a.
  Proof. unfold bdims. rewrite bdims_rev_same. simpl. now rewrite rev_involutive. Qed.

  Lemma bidx_same B b : inside B b -> bidx B b = b.
  Proof.
    intros I. unfold bidx. rewrite (inside_length _ _ I), Nat.sub_diag. simpl.
    induction I as [|d i B b Hi I IH]; simpl; auto. rewrite IH. f_equal.
    destruct (Nat.eqb_spec d 1); subst; auto. lia.
  Qed.

  Lemma b_truncation_eq B n T s : batch_of B n T s -> 0 < n ->
    exists tr, b_truncation s = Ok tr /\ dims tr = B /\
      forall b, inside B b -> cell tr b = truncation (scenario s b).
  Proof.
    intros W Hn. pose proof (batch_start _ _ _ _ W) as St.
    pose proof (batch_shape _ _ _ _ W) as Sh. destruct W as (D1 & D2 & D3 & D4).
    unfold b_truncation, amap2. simpl. rewrite Sh.
    assert (G : forall b, inside B b ->
              cell (b_t s) (bidx (dims (b_t s)) b) = clock (b_t s) b).
    { intros b I. unfold clock. destruct St as [E|E]; rewrite E.
      - reflexivity.
      - rewrite (bidx_same _ _ I), <- (inside_length _ _ I), firstn_all. reflexivity. }
    assert (E : bdims B (dims (b_t s)) = Some B).
    { destruct St as [E|E]; rewrite E; [apply bdims_nil_r|apply bdims_same]. }
    rewrite E. eexists. split; [reflexivity|]. simpl. split; auto.
    intros b I. rewrite G by auto. unfold truncation, remaining_timesteps. simpl.
    pose proof (matrix_rect _ _ _ _ _ D2 I) as R.
    rewrite (rect_num_timesteps n T _ R Hn).
    unfold b_num_timesteps. rewrite D2, last_app2. reflexivity.
  Qed.

  Lemma b_current_eq B n T s : batch_of B n T s -> 0 < T ->
    exists cs cl, b_current_sim s = Ok cs /\ b_current_log s = Ok cl /\
      dims cs = B ++ [n; 1] /\ dims cl = B ++ [n; 1] /\
      forall b, inside B b ->
        current_sim (scenario s b) = Ok (map (fun r => hd invalid_pt r) (matrix cs b)) /\
        current_log (scenario s b) = Ok (map (fun r => hd invalid_pt r) (matrix cl b)).
  Proof.
    intros W HT. pose proof (batch_start _ _ _ _ W) as St. destruct W as (D1 & D2 & D3 & D4).
    destruct (b_slice_frame (b_sim s) B n T (b_t s) D1 St HT) as (cs & Hs & Ds & Fs).
    destruct (b_slice_frame (b_log s) B n T (b_t s) D2 St HT) as (cl & Hl & Dl & Fl).
    exists cs, cl. repeat split; auto.
    - unfold current_sim. simpl. rewrite Fs by auto. f_equal.
      rewrite (matrix_eq _ _ _ _ _ Ds H). unfold frame, tabulate at 1 2. rewrite map_map.
      reflexivity.
    - unfold current_log. simpl. rewrite Fl by auto. f_equal.
      rewrite (matrix_eq _ _ _ _ _ Dl H). unfold frame, tabulate at 1 2. rewrite map_map.
      reflexivity.
  Qed.

  Lemma forallb_map_firstn k d l :
    (forall x, In x l -> firstn k x = d) -> forallb (dims_eqb d) (map (firstn k) l) = true.
  Proof.
    intros H. apply forallb_forall. intros x Hx. apply in_map_iff in Hx as (y & <- & Hy).
    rewrite H by auto. apply dims_eqb_refl.
  Qed.
End More.
