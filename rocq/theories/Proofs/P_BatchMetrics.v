(** Batched metrics and rewards, scenario by scenario (C60). *)
From Coq Require Import String.
From Coq Require Import List ZArith Bool Lia.
From Verif.Lib Require Import Base JaxIndex Scalar.
From Verif.Model Require Import Operations State Dynamics BaseEnv Geometry Discretizer Dyn_Delta
  Dyn_Bicycle Comfort Metrics Batch BatchMetrics.
From Verif.Spec Require Import StateSpec BatchSpec.
From Verif.Proofs Require Import Core P_Batch.
Import ListNotations.
Local Open Scope nat_scope.

(* ---------------- broadcasting behind a common prefix ---------------- *)

Lemma bdims_rev_app e f g B : length e = length f ->
  bdims_rev e f = Some g -> bdims_rev (e ++ B) (f ++ B) = Some (g ++ B).
Proof.
  revert f g; induction e as [|x e IH]; intros [|y f] g L H; try discriminate.
  - injection H as <-. apply bdims_rev_same.
  - simpl in *. destruct (bdims_rev e f) as [r|] eqn:E; [|discriminate].
    rewrite (IH f r) by (auto; lia).
    destruct (x =? y); [injection H as <-; reflexivity|].
    destruct (x =? 1); [injection H as <-; reflexivity|].
    destruct (y =? 1); [injection H as <-; reflexivity|discriminate].
Qed.

Lemma bdims_app B e f g : length e = length f -> bdims e f = Some g ->
  bdims (B ++ e) (B ++ f) = Some (B ++ g).
Proof.
  intros L H. unfold bdims in *. rewrite !rev_app_distr.
  destruct (bdims_rev (rev e) (rev f)) as [r|] eqn:E; [|discriminate].
  injection H as <-. rewrite (bdims_rev_app _ _ r) by (rewrite ?rev_length; auto). simpl.
  now rewrite rev_app_distr, rev_involutive.
Qed.

Lemma map2_app {A B C} (f : A -> B -> C) l l' m m' : length l = length m ->
  map2 f (l ++ l') (m ++ m') = map2 f l m ++ map2 f l' m'.
Proof.
  revert m; induction l as [|a l IH]; intros [|b m] H; try discriminate; auto.
  simpl. f_equal. apply IH. simpl in H. lia.
Qed.

Lemma bidx_app B e b i : inside B b -> length i = length e ->
  bidx (B ++ e) (b ++ i) = b ++ bidx e i.
Proof.
  intros I L. pose proof (inside_length _ _ I) as Lb. unfold bidx.
  rewrite !app_length, Lb, L, !Nat.sub_diag. simpl.
  rewrite map2_app by auto. f_equal.
  pose proof (bidx_same B b I) as E. unfold bidx in E. rewrite Lb, Nat.sub_diag in E. exact E.
Qed.

(** Elementwise operations on arrays with a common prefix. *)
Lemma amap2_pre {A A' C} (op : A -> A' -> C) x y B e f g :
  dims x = B ++ e -> dims y = B ++ f -> length e = length f -> bdims e f = Some g ->
  length g = length e ->
  exists z, amap2 op x y = Ok z /\ dims z = B ++ g /\
    forall b i, inside B b -> length i = length e ->
      cell z (b ++ i) = op (cell x (b ++ bidx e i)) (cell y (b ++ bidx f i)).
Proof.
  intros Dx Dy L H Lg. unfold amap2. rewrite Dx, Dy, (bdims_app B e f g) by auto.
  eexists. split; [reflexivity|]. split; [reflexivity|]. intros b i I Li. simpl.
  rewrite !bidx_app by (auto; congruence). reflexivity.
Qed.

Lemma bidx_self m i : inside m i -> bidx m i = i.
Proof. apply bidx_same. Qed.

Lemma amap2_same {A A' C} (op : A -> A' -> C) x y B m :
  dims x = B ++ m -> dims y = B ++ m ->
  exists z, amap2 op x y = Ok z /\ dims z = B ++ m /\
    forall b i, inside B b -> inside m i -> cell z (b ++ i) = op (cell x (b ++ i)) (cell y (b ++ i)).
Proof.
  intros Dx Dy. destruct (amap2_pre op x y B m m m Dx Dy eq_refl (bdims_same m) eq_refl) as (z & H1 & H2 & H3).
  exists z. split; auto. split; auto. intros b i I Im. rewrite H3 by (auto; now apply inside_length).
  now rewrite bidx_self.
Qed.

Lemma bdims_1 k : bdims [1] [k] = Some [k].
Proof. unfold bdims. simpl. destruct k as [|[|k]]; reflexivity. Qed.
Lemma bdims_11 p k : bdims [1; 1] [p; k] = Some [p; k].
Proof. unfold bdims. simpl. destruct p as [|[|p]], k as [|[|k]]; reflexivity. Qed.
Lemma bdims_11r p k : bdims [p; k] [1; 1] = Some [p; k].
Proof. unfold bdims. simpl. destruct p as [|[|p]], k as [|[|k]]; reflexivity. Qed.
Lemma bdims_p1 p k : bdims [p; 1] [p; k] = Some [p; k].
Proof. unfold bdims. simpl. rewrite Nat.eqb_refl. destruct k as [|[|k]]; reflexivity. Qed.
Lemma bdims_p1r p k : bdims [p; k] [p; 1] = Some [p; k].
Proof. unfold bdims. simpl. rewrite Nat.eqb_refl. destruct k as [|[|k]]; reflexivity. Qed.

Lemma inside1 n i : inside [n] [i] <-> i < n.
Proof. split; [intros H; inversion H; auto|intros; constructor; [assumption|constructor]]. Qed.
Lemma inside2 n m i j : inside [n; m] [i; j] <-> i < n /\ j < m.
Proof.
  split; [intros H; inversion H as [|? ? ? ? ? H']; subst; split; auto; now apply inside1|].
  intros [H1 H2]. constructor; [exact H1|]. constructor; [exact H2|constructor].
Qed.

Section Shapes.
  Context {A : Type}.

  Lemma row_vector (x : arr A) B n b : dims x = B ++ [n] -> inside B b -> row x b = vector x b.
  Proof.
    intros D I. rewrite (vector_eq x B n [] b D I). unfold row, tabulate. rewrite D, last_app1. reflexivity.
  Qed.

  Lemma row_matrix (x : arr A) B n k b i : dims x = B ++ [n; k] -> inside B b -> i < n ->
    nth_error (matrix x b) i = Some (row x (b ++ [i])).
  Proof.
    intros D I Hi. rewrite (matrix_eq x B n k b D I), nth_error_tabulate.
    rewrite (proj2 (Nat.ltb_lt _ _) Hi). unfold row, tabulate. rewrite D, last_app2. f_equal.
    apply map_ext. intros j. now rewrite <- app_assoc.
  Qed.

  Lemma rows_matrix (x : arr A) B n k b : dims x = B ++ [n; k] -> inside B b ->
    map (fun i => row x (b ++ [i])) (seq 0 n) = matrix x b.
  Proof.
    intros D I. rewrite (matrix_eq x B n k b D I). unfold tabulate at 1. apply map_ext. intros i.
    unfold row, tabulate. rewrite D, last_app2. apply map_ext. intros j. now rewrite <- app_assoc.
  Qed.

  Lemma drop_last_dims (x : arr A) B n k : dims x = B ++ [n; k] -> dims (drop_last x) = B ++ [n].
  Proof. intros D. unfold drop_last. cbn [dims]. rewrite D. apply removelast_app2. Qed.

  Lemma drop_last_vector (x : arr A) B n k b : dims x = B ++ [n; k] -> inside B b ->
    vector (drop_last x) b = frame n x b.
  Proof.
    intros D I. rewrite (vector_eq (drop_last x) B n [] b (drop_last_dims _ _ _ _ D) I).
    unfold frame. apply tabulate_ext. intros i Hi. unfold drop_last. cbn [cell]. now rewrite <- app2.
  Qed.
End Shapes.

Lemma vector_amap2 {A A' C} (op : A -> A' -> C) x y z B n b :
  dims x = B ++ [n] -> dims y = B ++ [n] -> amap2 op x y = Ok z -> inside B b ->
  vector z b = map2 op (vector x b) (vector y b).
Proof.
  intros Dx Dy H I. destruct (amap2_same op x y B [n] Dx Dy) as (z' & H1 & H2 & H3).
  rewrite H in H1. injection H1 as <-.
  apply nth_error_ext_eq. intros i. rewrite nth_error_map2.
  rewrite (vector_eq z B n [] b H2 I), (vector_eq x B n [] b Dx I), (vector_eq y B n [] b Dy I), !nth_error_tabulate.
  destruct (Nat.ltb_spec i n); auto. rewrite H3 by (auto; now apply inside1). reflexivity.
Qed.

Section Metrics.
  Context {S : Scalar}.

  (** The current frames. *)
  Lemma b_cur B n T s : batch_of B n T s -> 0 < T ->
    exists cur, b_slice (b_sim s) (b_t s) 1 = Ok cur /\ dims cur = B ++ [n; 1] /\
      forall b, inside B b ->
        dynamic_index (s_sim (scenario s b)) (s_t (scenario s b)) = Ok (vector (drop_last cur) b).
  Proof.
    intros W HT. pose proof (batch_start _ _ _ _ W) as St. destruct W as (D1 & _).
    destruct (b_slice_frame (b_sim s) B n T (b_t s) D1 St HT) as (y & H1 & H2 & H3).
    exists y. split; auto. split; auto. intros b I. rewrite (drop_last_vector y B n 1 b H2 I). now apply H3.
  Qed.
  Lemma b_curlog B n T s : batch_of B n T s -> 0 < T ->
    exists cur, b_slice (b_log s) (b_t s) 1 = Ok cur /\ dims cur = B ++ [n; 1] /\
      forall b, inside B b ->
        dynamic_index (s_log (scenario s b)) (s_t (scenario s b)) = Ok (vector (drop_last cur) b).
  Proof.
    intros W HT. pose proof (batch_start _ _ _ _ W) as St. destruct W as (_ & D1 & _).
    destruct (b_slice_frame (b_log s) B n T (b_t s) D1 St HT) as (y & H1 & H2 & H3).
    exists y. split; auto. split; auto. intros b I. rewrite (drop_last_vector y B n 1 b H2 I). now apply H3.
  Qed.

  Lemma b_log_divergence_eq B n T s : batch_of B n T s -> 0 < T ->
    exists m, b_log_divergence s = Ok m /\ dims m = B ++ [n] /\
      forall b, inside B b -> log_divergence_compute (scenario s b) = Ok (vector m b).
  Proof.
    intros W HT. destruct (b_cur B n T s W HT) as (cur & H1 & D1 & F1).
    destruct (b_curlog B n T s W HT) as (log & H2 & D2 & F2).
    unfold b_log_divergence. rewrite H1, H2. cbn [bind].
    destruct (amap2_same (fun p l => mkmres (log_divergence p l) (p_valid p && p_valid l)) cur log B [n; 1] D1 D2)
      as (z & H3 & D3 & C3).
    rewrite H3. cbn [bind]. eexists. split; [reflexivity|].
    split; [exact (drop_last_dims z B n 1 D3)|]. intros b I.
    unfold log_divergence_compute. rewrite F1, F2 by auto. cbn [bind]. f_equal.
    rewrite !(drop_last_vector _ B n 1 b) by auto. unfold frame.
    apply nth_error_ext_eq. intros i. rewrite nth_error_map2, !nth_error_tabulate.
    destruct (Nat.ltb_spec i n); auto. now rewrite C3 by (auto; apply inside2; lia).
  Qed.

  Lemma count_map2 {A C} (g : A -> C -> bool) l m :
    length (filter (fun b => b) (map2 g l m)) = length (filter (fun p => g (fst p) (snd p)) (combine l m)).
  Proof.
    revert m; induction l as [|a l IH]; intros [|c m]; simpl; auto. destruct (g a c); simpl; auto.
  Qed.

  Lemma pairwise_nth bs i j : i < length bs -> j < length bs ->
    exists r, nth_error (compute_pairwise_overlaps bs) i = Some r /\
      length r = length bs /\
      nth j (nth i (compute_pairwise_overlaps bs) []) false = nth j r false.
  Proof.
    intros Hi Hj. unfold compute_pairwise_overlaps.
    destruct (nth_error bs i) as [bi|] eqn:E; [|apply nth_error_None in E; lia].
    eexists. split; [|split; [|]].
    - rewrite nth_error_mapi, E. reflexivity.
    - apply mapi_from_length.
    - f_equal. apply nth_error_nth. rewrite nth_error_mapi, E. reflexivity.
  Qed.

  Lemma b_overlap_eq B n T s : batch_of B n T s -> 0 < T ->
    exists m, b_overlap s = Ok m /\ dims m = B ++ [n] /\
      forall b, inside B b -> overlap_compute (scenario s b) = Ok (vector m b).
  Proof.
    intros W HT. destruct (b_cur B n T s W HT) as (cur & H1 & D1 & F1).
    unfold b_overlap. rewrite H1. cbn [bind].
    set (fr := drop_last cur) in *.
    assert (Df : dims fr = B ++ [n]) by exact (drop_last_dims cur B n 1 D1).
    set (po := b_pairwise_overlaps (amap pt_box fr)).
    assert (Dp : dims po = B ++ [n; n]).
    { unfold po, b_pairwise_overlaps. cbn [dims amap]. rewrite Df, last_app1. now rewrite <- app2. }
    assert (Dv : dims (amap p_valid cur) = B ++ [n; 1]) by exact D1.
    destruct (amap2_pre andb po (amap p_valid cur) B [n; n] [n; 1] [n; n] Dp Dv eq_refl (bdims_p1r n n) eq_refl)
      as (z & H2 & D2 & C2).
    rewrite H2. cbn [bind].
    set (num := reduce_2nd (fun l => length (filter (fun b => b) l)) z).
    assert (Dn : dims num = B ++ [n]).
    { unfold num, reduce_2nd. cbn [dims]. rewrite D2, removelast_app2, removelast_app1, last_app2. reflexivity. }
    assert (Dw : dims (drop_last (amap p_valid cur)) = B ++ [n]) by exact (drop_last_dims _ B n 1 Dv).
    rewrite Dn, Dw, dims_eqb_refl. cbn [guard bind].
    destruct (amap2_same (fun k b => mkmres (fbool (0 <? k)) b) num (drop_last (amap p_valid cur)) B [n] Dn Dw)
      as (r & H3 & D3 & C3).
    exists r. split; auto. split; auto. intros b I.
    unfold overlap_compute. rewrite F1 by auto. cbn [bind]. f_equal.
    unfold compute_overlap.
    pose proof (vector_length fr B n b Df I) as Lv.
    apply nth_error_ext_eq. intros j. rewrite nth_error_mapi.
    rewrite (vector_eq r B n [] b D3 I), nth_error_tabulate.
    destruct (Nat.ltb_spec j n) as [Hj|Hj].
    2:{ rewrite (proj2 (nth_error_None _ _)) by lia. reflexivity. }
    rewrite (vector_nth fr B n b j Df I Hj). cbn [option_map]. f_equal.
    rewrite C3 by (auto; now apply inside1). f_equal.
    f_equal. f_equal. unfold num, reduce_2nd. cbn [cell].
    rewrite D2, removelast_app2, !last_app1, !removelast_app1.
    (* the entries of column j *)
    f_equal. f_equal.
    apply nth_error_ext_eq. intros i. rewrite nth_error_map2, !nth_error_map.
    destruct (Nat.ltb_spec i n) as [Hi|Hi].
    2:{ rewrite (proj2 (nth_error_None (seq 0 n) i)) by (rewrite seq_length; lia). cbn [option_map].
        rewrite (proj2 (nth_error_None (compute_pairwise_overlaps _) i)); [reflexivity|].
        unfold compute_pairwise_overlaps. unfold mapi. rewrite mapi_from_length, map_length. lia. }
    rewrite (vector_nth fr B n b i Df I Hi). cbn [option_map].
    destruct (pairwise_nth (map pt_box (vector fr b)) i j) as (row_i & E1 & L1 & E2);
      [rewrite map_length; lia..|].
    rewrite E1.
    rewrite (nth_error_nth' (seq 0 n) 0) by (rewrite seq_length; auto). rewrite seq_nth by auto. cbn [option_map Nat.add].
    f_equal. rewrite C2 by auto.
    rewrite (bidx_self [n; n]) by (apply inside2; auto).
    replace (bidx [n; 1] [i; j]) with [i; 0].
    2:{ unfold bidx. simpl. destruct (Nat.eqb_spec n 1); auto. repeat f_equal. lia. }
    cbn [amap cell]. unfold po, b_pairwise_overlaps. cbn [cell].
    rewrite removelast_app2, removelast_app1, last_app2, last_app1.
    rewrite (row_vector (amap pt_box fr) B n b Df I), vector_amap, E2.
    f_equal. unfold fr, drop_last. cbn [cell]. now rewrite <- app2.
  Qed.

  Lemma is_offroad1_Ok rg p : rg <> [] -> exists b, is_offroad1 rg p = Ok b.
  Proof.
    intros H. unfold is_offroad1.
    assert (G : forall q, exists d, signed_distance rg q = Ok d).
    { intros [[x y] z]. unfold signed_distance. destruct rg; [congruence|]. simpl. eauto. }
    assert (M : forall l, exists ds, mapM (fun c => signed_distance rg (fst c, snd c, fmul f1 (p_z p))) l = Ok ds).
    { induction l as [|c l [ds IH]]; simpl; eauto. destruct (G (fst c, snd c, fmul f1 (p_z p))) as [d ->].
      simpl. rewrite IH. simpl. eauto. }
    destruct (M (bbox_corners p)) as [ds E]. rewrite E. simpl. eauto.
  Qed.

  Lemma b_offroad_eq B n T m s rg : batch_of B n T s -> 0 < T ->
    b_rg s = Some rg -> dims rg = B ++ [m] -> 0 < m ->
    exists r, b_offroad s = Ok r /\ dims r = B ++ [n] /\
      forall b, inside B b -> offroad_compute (scenario s b) = Ok (vector r b).
  Proof.
    intros W HT Hr Dr Hm. destruct (b_cur B n T s W HT) as (cur & H1 & D1 & F1).
    unfold b_offroad. rewrite H1, Hr. cbn [bind]. unfold b_is_offroad.
    rewrite D1, removelast_app2, removelast_app1, Dr, vmappable_app, last_app1, app_length. simpl length.
    rewrite Nat.eqb_refl. replace (m =? 0) with false by (symmetry; apply Nat.eqb_neq; lia). cbn [guard bind negb].
    eexists. split; [reflexivity|]. split; [reflexivity|]. intros b I.
    unfold offroad_compute. rewrite F1 by auto. cbn [bind].
    cbn [scenario s_rg]. rewrite Hr. cbn [option_map].
    pose proof (vector_length rg B m b Dr I) as Lr.
    rewrite vector_amap.
    set (x := mkA (B ++ [n]) _). assert (Dx : dims x = B ++ [n]) by reflexivity.
    assert (Df : dims (drop_last cur) = B ++ [n]) by exact (drop_last_dims cur B n 1 D1).
    rewrite (vector_eq x B n [] b Dx I), (vector_eq (drop_last cur) B n [] b Df I).
    unfold tabulate. rewrite map_map. clear - I Lr Hm Dr D1.
    induction (seq 0 n) as [|i l IH]; [reflexivity|]. cbn [map mapM].
    destruct (is_offroad1_Ok (vector rg b) (cell (drop_last cur) (b ++ [i]))) as [v Hv].
    { intros E. rewrite E in Lr. simpl in Lr. lia. }
    rewrite Hv. cbn [bind]. rewrite IH. cbn [bind]. f_equal. f_equal.
    unfold x at 1. cbn [cell]. rewrite removelast_app1, (row_vector rg B m b Dr I).
    unfold drop_last in Hv. cbn [cell] in Hv. rewrite Hv. reflexivity.
  Qed.

  Lemma two_frames_eq B n T (x : arr pt) t b :
    dims x = B ++ [n; T] -> start_of B t -> 2 <= T -> inside B b ->
    forall y, b_slice x t 2 = Ok y ->
    two_frames (matrix x b) (clock t b)
    = Ok (tabulate n (fun i => (cell y (b ++ [i; 0]), cell y (b ++ [i; 1])))).
  Proof.
    intros D St HT I y Hy. destruct (b_slice_Ok x B n T t 2 D St HT) as (y' & Hy' & Dy & Cy).
    rewrite Hy in Hy'. injection Hy' as <-. unfold two_frames.
    pose proof (matrix_rect x B n T b D I) as R.
    destruct (dynamic_slice_total n T (matrix x b) (clock t b) 2 R HT) as [sl Hs]. rewrite Hs. cbn [bind].
    destruct (dynamic_slice_Ok n T (matrix x b) (clock t b) 2 sl R Hs) as (Rs & Cs).
    assert (E : sl = tabulate n (fun i => [cell y (b ++ [i; 0]); cell y (b ++ [i; 1])])).
    { apply (rect_ext n 2); auto.
      - split; [apply tabulate_length|]. intros r Hr. unfold tabulate in Hr. apply in_map_iff in Hr as (i & <- & _). reflexivity.
      - intros i k Hi Hk.
        assert (at2 sl i k = at2 (matrix x b) i (norm_start (clock t b) T 2 + k)) as -> by (apply Cs; auto).
        rewrite (matrix_at2 x B n T b) by (auto; pose proof (norm_start_fit (clock t b) T 2); lia).
        unfold at2. rewrite nth_error_tabulate, (proj2 (Nat.ltb_lt _ _) Hi).
        destruct k as [|[|k]]; simpl; [now rewrite Cy|now rewrite Cy|lia]. }
    rewrite E. unfold tabulate. clear. induction (seq 0 n) as [|i l IH]; [reflexivity|].
    cbn [map mapM bind]. rewrite IH. reflexivity.
  Qed.

  Lemma b_kim_eq B n T k s : batch_of B n T s -> dims (b_t s) = [] -> 2 <= T ->
    exists r, b_kim k s = Ok r /\ dims r = B ++ [n] /\
      forall b, inside B b -> kim_compute k (scenario s b) = Ok (vector r b).
  Proof.
    intros W Dt HT. destruct W as (D1 & _). unfold b_kim, b_compute_inverse.
    set (t1 := amap (fun t => (t - 1)%Z) (b_t s)).
    assert (St : start_of B t1) by now left.
    replace (length (dims t1)) with 0 by (unfold t1; cbn [amap dims]; now rewrite Dt). cbn [Nat.eqb guard bind].
    destruct (b_slice_Ok (b_sim s) B n T t1 2 D1 St HT) as (y & Hy & Dy & _).
    rewrite Hy. cbn [bind]. eexists. split; [reflexivity|].
    split; [cbn [amap dims]; rewrite Dy; apply removelast_app2|]. intros b I.
    unfold kim_compute, compute_kinematics_infeasibility, compute_inverse.
    cbn [scenario s_sim s_t].
    change (clock (b_t s) b - 1)%Z with (clock t1 b).
    rewrite (two_frames_eq B n T (b_sim s) t1 b D1 St HT I y Hy). cbn [bind]. f_equal.
    rewrite vector_amap.
    match goal with |- _ = map _ (vector ?x b) => set (z := x) end.
    assert (Dz : dims z = B ++ [n]) by (unfold z; cbn [dims]; rewrite Dy; apply removelast_app2).
    f_equal. rewrite (vector_eq z B n [] b Dz I). unfold tabulate. rewrite map_map. apply map_ext. intros i.
    unfold z. cbn [cell fst snd]. now rewrite <- !app2.
  Qed.

  Lemma b_kim_own_clock k s : dims (b_t s) <> [] -> b_kim k s = Err TypeError.
  Proof.
    intros H. unfold b_kim, b_compute_inverse. cbn [amap dims]. destruct (dims (b_t s)); [congruence|]. reflexivity.
  Qed.
End Metrics.
