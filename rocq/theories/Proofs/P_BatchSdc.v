(** Batched SDC metrics, scenario by scenario (C60). *)
From Coq Require Import String.
From Coq Require Import List ZArith Bool Lia.
From Verif.Lib Require Import Base JaxIndex Scalar.
From Verif.Model Require Import Operations State Dynamics BaseEnv Geometry Discretizer
  Comfort Metrics Batch BatchMetrics.
From Verif.Spec Require Import StateSpec BatchSpec.
From Verif.Proofs Require Import Core P_Batch P_BatchMetrics.
Import ListNotations.
Local Open Scope nat_scope.

Lemma amap2_B {A A' C} (op : A -> A' -> C) x y B : dims x = B -> dims y = B ->
  exists z, amap2 op x y = Ok z /\ dims z = B /\
    forall b, inside B b -> cell z b = op (cell x b) (cell y b).
Proof.
  intros Dx Dy. rewrite <- (app_nil_r B) in Dx, Dy.
  destruct (amap2_same op x y B [] Dx Dy) as (z & H1 & H2 & H3). exists z.
  rewrite app_nil_r in H2. split; auto. split; auto. intros b I. specialize (H3 b [] I).
  rewrite !app_nil_r in H3. apply H3. constructor.
Qed.

Lemma newaxis_dims {A} (x : arr A) B : dims x = B -> dims (newaxis x) = B ++ [1].
Proof. intros <-. reflexivity. Qed.
Lemma newaxis2_dims {A} (x : arr A) B : dims x = B -> dims (newaxis2 x) = B ++ [1; 1].
Proof. intros <-. unfold newaxis2, newaxis. simpl. now rewrite <- app2. Qed.
Lemma newaxis2_cell {A} (x : arr A) b i j : cell (newaxis2 x) (b ++ [i; j]) = cell x b.
Proof. unfold newaxis2, newaxis. simpl. now rewrite removelast_app2, removelast_app1. Qed.
Lemma newaxis_cell {A} (x : arr A) b i : cell (newaxis x) (b ++ [i]) = cell x b.
Proof. unfold newaxis. simpl. now rewrite removelast_app1. Qed.
Lemma newaxis_cell2 {A} (x : arr A) b i j : cell (newaxis x) (b ++ [i; j]) = cell x (b ++ [i]).
Proof. rewrite app2. apply newaxis_cell. Qed.

Lemma len2 {A} (i : list A) : length i = 2 -> exists a c, i = [a; c].
Proof. destruct i as [|a [|c [|d i]]]; try discriminate. eauto. Qed.

Lemma bidx_p1 p i j : i < p -> bidx [p; 1] [i; j] = [i; 0].
Proof. intros H. unfold bidx. simpl. destruct (Nat.eqb_spec p 1); auto. repeat f_equal. lia. Qed.

Lemma bidx_11 i j : bidx [1; 1] [i; j] = [0; 0].
Proof. reflexivity. Qed.
Lemma bidx_1 i : bidx [1] [i] = [0].
Proof. reflexivity. Qed.

Section Bcast.
  Context {A A' C : Type} (op : A -> A' -> C).

  Lemma amap2_11 (x : arr A) (y : arr A') B p k : dims x = B -> dims y = B ++ [p; k] ->
    exists z, amap2 op (newaxis2 x) y = Ok z /\ dims z = B ++ [p; k] /\
      forall b i j, inside B b -> i < p -> j < k ->
        cell z (b ++ [i; j]) = op (cell x b) (cell y (b ++ [i; j])).
  Proof.
    intros Dx Dy.
    destruct (amap2_pre op (newaxis2 x) y B [1; 1] [p; k] [p; k] (newaxis2_dims x B Dx) Dy eq_refl (bdims_11 p k) eq_refl)
      as (z & H1 & H2 & H3).
    exists z. split; auto. split; auto. intros b i j I Hi Hj. rewrite H3 by auto.
    rewrite (bidx_self [p; k]) by now apply inside2. rewrite bidx_11. now rewrite newaxis2_cell.
  Qed.

  Lemma amap2_11r (x : arr A') (y : arr A) B p k : dims x = B -> dims y = B ++ [p; k] ->
    exists z, amap2 op y (newaxis2 x) = Ok z /\ dims z = B ++ [p; k] /\
      forall b i j, inside B b -> i < p -> j < k ->
        cell z (b ++ [i; j]) = op (cell y (b ++ [i; j])) (cell x b).
  Proof.
    intros Dx Dy.
    destruct (amap2_pre op y (newaxis2 x) B [p; k] [1; 1] [p; k] Dy (newaxis2_dims x B Dx) eq_refl (bdims_11r p k) eq_refl)
      as (z & H1 & H2 & H3).
    exists z. split; auto. split; auto. intros b i j I Hi Hj. rewrite H3 by auto.
    rewrite (bidx_self [p; k]) by now apply inside2. rewrite bidx_11. now rewrite newaxis2_cell.
  Qed.

  Lemma amap2_p1 (x : arr A) (y : arr A') B p k : dims x = B ++ [p] -> dims y = B ++ [p; k] ->
    exists z, amap2 op (newaxis x) y = Ok z /\ dims z = B ++ [p; k] /\
      forall b i j, inside B b -> i < p -> j < k ->
        cell z (b ++ [i; j]) = op (cell x (b ++ [i])) (cell y (b ++ [i; j])).
  Proof.
    intros Dx Dy. pose proof (newaxis_dims x _ Dx) as Dn. rewrite <- app2 in Dn.
    destruct (amap2_pre op (newaxis x) y B [p; 1] [p; k] [p; k] Dn Dy eq_refl (bdims_p1 p k) eq_refl)
      as (z & H1 & H2 & H3).
    exists z. split; auto. split; auto. intros b i j I Hi Hj. rewrite H3 by auto.
    rewrite (bidx_self [p; k]) by now apply inside2. rewrite bidx_p1 by auto. now rewrite newaxis_cell2.
  Qed.

  Lemma amap2_p1r (x : arr A') (y : arr A) B p k : dims x = B ++ [p] -> dims y = B ++ [p; k] ->
    exists z, amap2 op y (newaxis x) = Ok z /\ dims z = B ++ [p; k] /\
      forall b i j, inside B b -> i < p -> j < k ->
        cell z (b ++ [i; j]) = op (cell y (b ++ [i; j])) (cell x (b ++ [i])).
  Proof.
    intros Dx Dy. pose proof (newaxis_dims x _ Dx) as Dn. rewrite <- app2 in Dn.
    destruct (amap2_pre op y (newaxis x) B [p; k] [p; 1] [p; k] Dy Dn eq_refl (bdims_p1r p k) eq_refl)
      as (z & H1 & H2 & H3).
    exists z. split; auto. split; auto. intros b i j I Hi Hj. rewrite H3 by auto.
    rewrite (bidx_self [p; k]) by now apply inside2. rewrite bidx_p1 by auto. now rewrite newaxis_cell2.
  Qed.

  Lemma amap2_1 (x : arr A) (y : arr A') B k : dims x = B -> dims y = B ++ [k] ->
    exists z, amap2 op (newaxis x) y = Ok z /\ dims z = B ++ [k] /\
      forall b j, inside B b -> j < k -> cell z (b ++ [j]) = op (cell x b) (cell y (b ++ [j])).
  Proof.
    intros Dx Dy.
    destruct (amap2_pre op (newaxis x) y B [1] [k] [k] (newaxis_dims x B Dx) Dy eq_refl (bdims_1 k) eq_refl)
      as (z & H1 & H2 & H3).
    exists z. split; auto. split; auto. intros b j I Hj. rewrite H3 by auto.
    rewrite (bidx_self [k]) by now apply inside1. rewrite bidx_1. now rewrite newaxis_cell.
  Qed.
End Bcast.

Section Sdc.
  Context {S : Scalar}.

  Lemma b_onehot_eq (x : arr F) (sel : arr bool) B n : dims x = B ++ [n] -> dims sel = B ++ [n] ->
    exists r, b_onehot x sel = Ok r /\ dims r = B /\
      forall b, inside B b -> select_by_onehot (vector x b) (vector sel b) = Ok (cell r b).
  Proof.
    intros Dx Ds. unfold b_onehot. rewrite Dx, Ds, dims_eqb_refl. cbn [guard bind].
    destruct (amap2_same (fun x (b : bool) => fmul x (fbool b)) x sel B [n] Dx Ds) as (z & H1 & H2 & _).
    rewrite H1. cbn [bind]. eexists. split; [reflexivity|]. unfold reduce_last. cbn [dims cell].
    split; [rewrite H2; apply removelast_app1|]. intros b I. unfold select_by_onehot.
    rewrite (vector_length x B n b Dx I), (vector_length sel B n b Ds I), Nat.eqb_refl. cbn [guard bind].
    now rewrite (row_vector z B n b H2 I), (vector_amap2 _ x sel z B n b Dx Ds H1 I).
  Qed.

  Lemma b_onehot_b_eq (x sel : arr bool) B n : dims x = B ++ [n] -> dims sel = B ++ [n] ->
    exists r, b_onehot_b x sel = Ok r /\ dims r = B /\
      forall b, inside B b -> select_by_onehot_b (vector x b) (vector sel b) = Ok (cell r b).
  Proof.
    intros Dx Ds. unfold b_onehot_b. rewrite Dx, Ds, dims_eqb_refl. cbn [guard bind].
    destruct (amap2_same andb x sel B [n] Dx Ds) as (z & H1 & H2 & _).
    rewrite H1. cbn [bind]. eexists. split; [reflexivity|]. unfold reduce_last. cbn [dims cell].
    split; [rewrite H2; apply removelast_app1|]. intros b I. unfold select_by_onehot_b.
    rewrite (vector_length x B n b Dx I), (vector_length sel B n b Ds I), Nat.eqb_refl. cbn [guard bind].
    now rewrite (row_vector z B n b H2 I), (vector_amap2 _ x sel z B n b Dx Ds H1 I).
  Qed.

  Lemma b_sdc_xy_eq (fr : arr pt) (ms : arr meta) B n : dims fr = B ++ [n] -> dims ms = B ++ [n] ->
    exists r, b_sdc_xy fr ms = Ok r /\ dims r = B /\
      forall b, inside B b -> sdc_xy (vector fr b) (vector ms b) = Ok (cell r b).
  Proof.
    intros Df Dm. unfold b_sdc_xy.
    destruct (b_onehot_eq (amap p_x fr) (amap m_is_sdc ms) B n Df Dm) as (x & H1 & D1 & C1).
    destruct (b_onehot_eq (amap p_y fr) (amap m_is_sdc ms) B n Df Dm) as (y & H2 & D2 & C2).
    rewrite H1, H2. cbn [bind]. destruct (amap2_B pair x y B D1 D2) as (z & H3 & D3 & C3).
    exists z. split; auto. split; auto. intros b I. unfold sdc_xy.
    rewrite <- !vector_amap, C1, C2 by auto. cbn [bind]. now rewrite C3.
  Qed.

  Lemma b_sdc_valid_eq (fr : arr pt) (ms : arr meta) B n : dims fr = B ++ [n] -> dims ms = B ++ [n] ->
    exists r, b_sdc_valid fr ms = Ok r /\ dims r = B /\
      forall b, inside B b -> sdc_valid (vector fr b) (vector ms b) = Ok (cell r b).
  Proof.
    intros Df Dm. unfold b_sdc_valid, sdc_valid.
    destruct (b_onehot_b_eq (amap p_valid fr) (amap m_is_sdc ms) B n Df Dm) as (x & H1 & D1 & C1).
    exists x. split; auto. split; auto. intros b I. rewrite <- !vector_amap. auto.
  Qed.

  (** Minima. *)
  Lemma concat_nonempty {A} (l : list (list A)) p k : 0 < p -> 0 < k -> rect p k l -> concat l <> [].
  Proof.
    intros Hp Hk [L R]. destruct l as [|r l]; [simpl in L; lia|]. specialize (R r (or_introl eq_refl)).
    destruct r; [simpl in R; lia|]. discriminate.
  Qed.

  Lemma jmin_Ok l : l <> [] -> jmin l = Ok (fmin_list l).
  Proof. destruct l; [congruence|reflexivity]. Qed.

  Lemma b_min2_eq (x : arr F) B p k : dims x = B ++ [p; k] -> 0 < p -> 0 < k ->
    exists m, b_min2 x = Ok m /\ dims m = B /\
      forall b, inside B b -> jmin (concat (matrix x b)) = Ok (cell m b).
  Proof.
    intros D Hp Hk. unfold b_min2. rewrite D, last_app2, removelast_app2, last_app1.
    replace (k =? 0) with false by (symmetry; apply Nat.eqb_neq; lia).
    replace (p =? 0) with false by (symmetry; apply Nat.eqb_neq; lia). cbn [negb andb guard bind].
    eexists. split; [reflexivity|]. unfold reduce_last2. cbn [dims cell].
    rewrite D, removelast_app2, removelast_app1, last_app1. split; [reflexivity|]. intros b I.
    rewrite flat_map_concat_map, (rows_matrix x B p k b D I).
    apply jmin_Ok. apply (concat_nonempty _ p k); auto. exact (matrix_rect x B p k b D I).
  Qed.

  (** The paths of a scenario. *)
  Definition path_batch (B : list nat) (p k : nat) (s : bstate) (pts : arr pathpt) (on : arr bool) : Prop :=
    b_paths s = Some (pts, on) /\ dims pts = B ++ [p; k] /\ dims on = B ++ [p].

  Lemma combine_tabulate {A C} n (f : nat -> A) (g : nat -> C) :
    combine (tabulate n f) (tabulate n g) = tabulate n (fun i => (f i, g i)).
  Proof. unfold tabulate. induction (seq 0 n); simpl; congruence. Qed.

  Lemma map_tabulate {A C} (h : A -> C) n f : map h (tabulate n f) = tabulate n (fun i => h (f i)).
  Proof. unfold tabulate. now rewrite map_map. Qed.

  Lemma paths_eq B p k s pts on b : path_batch B p k s pts on -> inside B b ->
    s_paths (scenario s b)
    = Some (tabulate p (fun i => mkpath (tabulate k (fun j => cell pts (b ++ [i; j]))) (cell on (b ++ [i])))).
  Proof.
    intros (E & D1 & D2) I. cbn [scenario s_paths]. rewrite E. cbn [option_map]. f_equal. unfold paths_at.
    cbn [fst snd]. rewrite (matrix_eq pts B p k b D1 I), (vector_eq on B p [] b D2 I), combine_tabulate.
    now rewrite map_tabulate.
  Qed.

  Lemma flat_tabulate {A C} (g : A -> list C) p f :
    flat_map g (tabulate p f) = concat (tabulate p (fun i => g (f i))).
  Proof. now rewrite flat_map_concat_map, map_tabulate. Qed.

  Lemma b_wrongway_eq B n T p k s pts on : batch_of B n T s -> 0 < T ->
    path_batch B p k s pts on -> 0 < p -> 0 < k ->
    exists m, b_wrongway s = Ok m /\ dims m = B /\
      forall b, inside B b -> wrongway_compute (scenario s b) = Ok (cell m b).
  Proof.
    intros W HT PB Hp Hk. destruct (b_cur B n T s W HT) as (cur & H1 & D1 & F1).
    destruct W as (_ & _ & Dm & _).
    destruct (b_sdc_xy_eq (drop_last cur) (b_meta s) B n (drop_last_dims cur B n 1 D1) Dm) as (xy & H2 & D2 & C2).
    unfold b_wrongway. rewrite H1. cbn [bind]. rewrite H2. cbn [bind].
    pose proof PB as (E & Dp & Do). rewrite E.
    destruct (amap2_11 (fun xy p => if pp_valid p then path_dist xy p else finf) xy pts B p k D2 Dp) as (d & H3 & D3 & C3).
    rewrite H3. cbn [bind].
    destruct (b_min2_eq d B p k D3 Hp Hk) as (m & H4 & D4 & C4). rewrite H4. cbn [bind].
    eexists. split; [reflexivity|]. split; [exact D4|]. intros b I.
    unfold wrongway_compute. rewrite F1 by auto. cbn [bind].
    change (s_meta (scenario s b)) with (vector (b_meta s) b). rewrite C2 by auto. cbn [bind].
    rewrite (paths_eq B p k s pts on b PB I), flat_tabulate.
    replace (concat _) with (concat (matrix d b)).
    2:{ f_equal. rewrite (matrix_eq d B p k b D3 I). apply tabulate_ext. intros i Hi. cbn [path_pts].
        rewrite map_tabulate. apply tabulate_ext. intros j Hj. now rewrite C3. }
    rewrite C4 by auto. reflexivity.
  Qed.

  Lemma b_off_route_eq B n T p k s pts on : batch_of B n T s -> 0 < T ->
    path_batch B p k s pts on -> 0 < p -> 0 < k ->
    exists m, b_off_route s = Ok m /\ dims m = B /\
      forall b, inside B b -> off_route_compute (scenario s b) = Ok (cell m b).
  Proof.
    intros W HT PB Hp Hk. destruct (b_cur B n T s W HT) as (cur & H1 & D1 & F1).
    destruct W as (_ & _ & Dm & _). pose proof (drop_last_dims cur B n 1 D1) as Df.
    destruct (b_sdc_xy_eq (drop_last cur) (b_meta s) B n Df Dm) as (xy & H2 & D2 & C2).
    destruct (b_sdc_valid_eq (drop_last cur) (b_meta s) B n Df Dm) as (va & H2' & D2' & C2').
    unfold b_off_route. pose proof PB as (E & Dp & Do). rewrite E, H1. cbn [bind]. rewrite H2, H2'. cbn [bind].
    destruct (amap2_11 path_dist xy pts B p k D2 Dp) as (d1 & G1 & E1 & K1). rewrite G1. cbn [bind].
    destruct (amap2_same (fun p d => if pp_valid p then d else finf) pts d1 B [p; k] Dp E1) as (d2 & G2 & E2 & K2).
    rewrite G2. cbn [bind].
    destruct (amap2_11 (fun (v : bool) d => if v then d else finf) va d2 B p k D2' E2) as (d3 & G3 & E3 & K3).
    rewrite G3. cbn [bind].
    destruct (amap2_p1 (fun (r : bool) d => if r then d else finf) on d3 B p k Do E3) as (d4 & G4 & E4 & K4).
    rewrite G4. cbn [bind].
    destruct (amap2_p1 (fun (r : bool) d => if negb r then d else finf) on d3 B p k Do E3) as (d5 & G5 & E5 & K5).
    rewrite G5. cbn [bind].
    destruct (b_min2_eq d4 B p k E4 Hp Hk) as (m1 & G6 & E6 & K6). rewrite G6. cbn [bind].
    destruct (b_min2_eq d5 B p k E5 Hp Hk) as (m2 & G7 & E7 & K7). rewrite G7. cbn [bind].
    match goal with |- exists m, amap2 ?op m1 m2 = _ /\ _ => destruct (amap2_B op m1 m2 B E6 E7) as (m & G8 & E8 & K8) end.
    exists m. split; auto. split; auto. intros b I.
    unfold off_route_compute. rewrite (paths_eq B p k s pts on b PB I), F1 by auto. cbn [bind].
    change (s_meta (scenario s b)) with (vector (b_meta s) b). rewrite C2, C2' by auto. cbn [bind].
    assert (K : forall i j, i < p -> j < k -> cell d3 (b ++ [i; j])
                = if cell va b then (if pp_valid (cell pts (b ++ [i; j])) then path_dist (cell xy b) (cell pts (b ++ [i; j])) else finf) else finf).
    { intros i j Hi Hj. rewrite K3, K2, K1 by (auto; now apply inside2). reflexivity. }
    rewrite !flat_tabulate.
    rewrite (tabulate_ext p _ (fun i => tabulate k (fun j => cell d4 (b ++ [i; j])))).
    2:{ intros i Hi. cbn [path_pts path_on_route]. rewrite map_tabulate. apply tabulate_ext. intros j Hj.
        now rewrite K4, K. }
    rewrite <- (matrix_eq d4 B p k b E4 I), K6 by auto. cbn [bind].
    rewrite (tabulate_ext p _ (fun i => tabulate k (fun j => cell d5 (b ++ [i; j])))).
    2:{ intros i Hi. cbn [path_pts path_on_route]. rewrite map_tabulate. apply tabulate_ext. intros j Hj.
        now rewrite K5, K. }
    rewrite <- (matrix_eq d5 B p k b E5 I), K7 by auto. cbn [bind].
    now rewrite K8.
  Qed.

  Lemma argmin_from_lt l best bi i : bi < i -> argmin_from best bi i l < i + length l.
  Proof.
    revert best bi i; induction l as [|x l IH]; intros best bi i H; simpl; [lia|].
    destruct (min_before x best).
    - specialize (IH x i (Datatypes.S i)). lia.
    - specialize (IH best bi (Datatypes.S i)). lia.
  Qed.
  Lemma argmin_lt l : l <> [] -> argmin l < length l.
  Proof. destruct l as [|x l]; [congruence|]. intros _. simpl. apply (argmin_from_lt l x 0 1). lia. Qed.

  Lemma b_arclength_eq (xy : arr vec) (path : arr pathpt) B k : dims xy = B -> dims path = B ++ [k] ->
    exists r, b_arclength_for xy path = Ok r /\ dims r = B /\
      forall b, inside B b -> cell r b = arclength_for (cell xy b) (vector path b).
  Proof.
    intros Dx Dp. unfold b_arclength_for.
    destruct (amap2_1 (fun xy p => if pp_valid p then path_dist xy p else finf) xy path B k Dx Dp) as (d & H1 & D1 & C1).
    rewrite H1. cbn [bind]. eexists. split; [reflexivity|]. unfold reduce_last. cbn [dims cell].
    split; [rewrite D1; apply removelast_app1|]. intros b I. unfold arclength_for.
    rewrite (row_vector d B k b D1 I), (row_vector path B k b Dp I). f_equal. f_equal. f_equal.
    rewrite (vector_eq d B k [] b D1 I), (vector_eq path B k [] b Dp I), map_tabulate.
    apply tabulate_ext. intros j Hj. now rewrite C1.
  Qed.

  Lemma log_frame_eq B n T (x : arr pt) b k : dims x = B ++ [n; T] -> inside B b -> k < T ->
    log_frame (matrix x b) k
    = Ok (vector (mkA (removelast (dims x)) (fun i => cell x (i ++ [k]))) b).
  Proof.
    intros D I Hk. set (y := mkA (removelast (dims x)) (fun i => cell x (i ++ [k]))).
    assert (Dy : dims y = B ++ [n]) by (unfold y; cbn [dims]; rewrite D; apply removelast_app2).
    rewrite (vector_eq y B n [] b Dy I), (matrix_eq x B n T b D I). unfold log_frame.
    unfold tabulate at 1 3. induction (seq 0 n) as [|i l IH]; [reflexivity|]. cbn [map mapM].
    rewrite nth_error_tabulate, (proj2 (Nat.ltb_lt _ _) Hk). cbn [bind]. rewrite IH. cbn [bind].
    unfold y at 2. cbn [cell]. now rewrite <- app2.
  Qed.

  Lemma b_progression_eq B n T p k s pts on : batch_of B n T s -> 0 < n -> 0 < T ->
    path_batch B p k s pts on -> 0 < p -> 0 < k ->
    exists m, b_progression s = Ok m /\ dims m = B /\
      forall b, inside B b -> progression_compute (scenario s b) = Ok (cell m b).
  Proof.
    intros W Hn HT PB Hp Hk. destruct (b_cur B n T s W HT) as (cur & H1 & D1 & F1).
    destruct W as (_ & Dl & Dm & _). pose proof (drop_last_dims cur B n 1 D1) as Df.
    destruct (b_sdc_xy_eq (drop_last cur) (b_meta s) B n Df Dm) as (xy & H2 & D2 & C2).
    destruct (b_sdc_valid_eq (drop_last cur) (b_meta s) B n Df Dm) as (va & H2' & D2' & C2').
    unfold b_progression. pose proof PB as (E & Dp & Do). rewrite E, H1. cbn [bind]. rewrite H2. cbn [bind].
    assert (ET : b_num_timesteps (b_log s) = T) by (unfold b_num_timesteps; rewrite Dl; apply last_app2).
    rewrite ET. replace (T =? 0) with false by (symmetry; apply Nat.eqb_neq; lia). cbn [negb guard bind].
    set (at_end := fun k => mkA (removelast (dims (b_log s))) (fun i => cell (b_log s) (i ++ [k]))).
    assert (De : forall t, dims (at_end t) = B ++ [n]) by (intros; unfold at_end; cbn [dims]; rewrite Dl; apply removelast_app2).
    destruct (b_sdc_xy_eq (at_end 0) (b_meta s) B n (De 0) Dm) as (xs & H3 & D3 & C3).
    destruct (b_sdc_xy_eq (at_end (T - 1)) (b_meta s) B n (De (T - 1)) Dm) as (xe & H4 & D4 & C4).
    cbv zeta. unfold at_end in H3, H4, C3, C4. rewrite H3, H4, H2'. cbn [bind].
    match goal with |- context [@amap2 ?a ?b ?c ?op pts (newaxis2 xy)] =>
      destruct (@amap2_11r a b c op xy pts B p k D2 Dp) as (d1 & G1 & E1 & K1) end.
    match goal with |- context [@amap2 ?a ?b ?c ?op pts ?z] =>
      change (@amap2 a b c op pts z = Ok d1) in G1 end.
    rewrite G1. cbn [bind].
    destruct (amap2_p1r andb on (amap pp_valid pts) B p k Do Dp) as (ok & G2 & E2 & K2). rewrite G2. cbn [bind].
    destruct (amap2_same (fun (v : bool) d => if v then d else finf) ok d1 B [p; k] E2 E1) as (d2 & G3 & E3 & K3).
    rewrite G3. cbn [bind].
    destruct (amap2_11 (fun (v : bool) d => if v then d else finf) va d2 B p k D2' E3) as (d & G4 & E4 & K4).
    rewrite G4. cbn [bind].
    destruct (b_min2_eq d B p k E4 Hp Hk) as (m0 & G5 & _). rewrite G5. cbn [bind].
    set (dp := reduce_last fmin_list d).
    assert (Edp : dims dp = B ++ [p]) by (unfold dp, reduce_last; cbn [dims]; rewrite E4; apply removelast_app2).
    set (md := reduce_last fmin_list dp).
    assert (Emd : dims md = B) by (unfold md, reduce_last; cbn [dims]; rewrite Edp; apply removelast_app1).
    set (idx := reduce_last argmin dp).
    assert (Eidx : dims idx = B) by (unfold idx, reduce_last; cbn [dims]; rewrite Edp; apply removelast_app1).
    set (ref := mkA (dims idx ++ [last (dims pts) 0]) _).
    assert (Eref : dims ref = B ++ [k]) by (unfold ref; cbn [dims]; rewrite Eidx, Dp, last_app2; reflexivity).
    destruct (b_arclength_eq xs ref B k D3 Eref) as (ls & G6 & E6 & K6). rewrite G6. cbn [bind].
    destruct (b_arclength_eq xe ref B k D4 Eref) as (le & G7 & E7 & K7). rewrite G7. cbn [bind].
    destruct (b_arclength_eq xy ref B k D2 Eref) as (lc & G8 & E8 & K8). rewrite G8. cbn [bind].
    destruct (amap2_B fsub lc ls B E8 E6) as (nu & G9 & E9 & K9). rewrite G9. cbn [bind].
    destruct (amap2_B pair ls le B E6 E7) as (en & G10 & E10 & K10). rewrite G10. cbn [bind].
    match goal with |- context [amap2 ?op en nu] => destruct (amap2_B op en nu B E10 E9) as (pr & G11 & E11 & K11) end.
    rewrite G11. cbn [bind].
    match goal with |- exists m, amap2 ?op md pr = _ /\ _ => destruct (amap2_B op md pr B Emd E11) as (m & G12 & E12 & K12) end.
    exists m. split; auto. split; auto. intros b I.
    unfold progression_compute. rewrite (paths_eq B p k s pts on b PB I), F1 by auto. cbn [bind].
    change (s_meta (scenario s b)) with (vector (b_meta s) b). rewrite C2 by auto. cbn [bind].
    change (s_log (scenario s b)) with (matrix (b_log s) b).
    rewrite (log_frame_eq B n T (b_log s) b 0 Dl I HT). cbn [bind].  rewrite C3 by auto. cbn [bind].
    rewrite (rect_num_timesteps n T _ (matrix_rect _ B n T b Dl I) Hn).
    rewrite (log_frame_eq B n T (b_log s) b (T - 1) Dl I) by lia. cbn [bind].
    rewrite C4 by auto. cbn [bind]. rewrite C2' by auto. cbn [bind].
    (* the row minima *)
    assert (K : forall i j, i < p -> j < k -> cell d (b ++ [i; j])
      = if cell va b then (if pp_valid (cell pts (b ++ [i; j])) && cell on (b ++ [i])
           then norm2 (fsub (pp_x (cell pts (b ++ [i; j]))) (fst (cell xy b)))
                  (fsub (pp_y (cell pts (b ++ [i; j]))) (snd (cell xy b))) else finf) else finf).
    { intros i j Hi Hj. rewrite K4, K3, K2, K1 by (auto; now apply inside2). reflexivity. }
    assert (Vdp : vector dp b = tabulate p (fun i => cell dp (b ++ [i]))) by exact (vector_eq dp B p [] b Edp I).
    match goal with |- context [mapM ?f (tabulate p ?g)] =>
      assert (M : mapM f (tabulate p g) = Ok (vector dp b)) end.
    { rewrite Vdp.
      assert (M : forall l, (forall i, In i l -> i < p) ->
        mapM (fun pa => jmin (map (fun p0 => if cell va b then
            (if pp_valid p0 && path_on_route pa then norm2 (fsub (pp_x p0) (fst (cell xy b))) (fsub (pp_y p0) (snd (cell xy b))) else finf)
            else finf) (path_pts pa)))
          (map (fun i => mkpath (tabulate k (fun j => cell pts (b ++ [i; j]))) (cell on (b ++ [i]))) l)
        = Ok (map (fun i => cell dp (b ++ [i])) l)).
      { induction l as [|i l IH]; intros Hl; [reflexivity|]. cbn [map mapM path_pts path_on_route].
        rewrite map_tabulate.
        rewrite (tabulate_ext k _ (fun j => cell d (b ++ [i; j]))).
        2:{ intros j Hj. rewrite K by (auto; apply Hl; now left). reflexivity. }
        assert (Er : row d (b ++ [i]) = tabulate k (fun j => cell d (b ++ [i; j]))).
        { unfold row, tabulate. rewrite E4, last_app2. apply map_ext. intros j. now rewrite <- app_assoc. }
        rewrite jmin_Ok by (intros X; apply (f_equal (@length _)) in X; rewrite tabulate_length in X; simpl in X; lia).
        cbn [bind]. rewrite IH by (intros; apply Hl; now right). cbn [bind]. f_equal. f_equal.
        unfold dp, reduce_last. cbn [cell]. now rewrite Er. }
      apply M. intros i Hi. apply in_seq in Hi. lia. }
    rewrite M. cbn [bind].
    assert (NE : vector dp b <> []) by (intros X; apply (f_equal (@length _)) in X; rewrite (vector_length dp B p b Edp I) in X; simpl in X; lia).
    rewrite jmin_Ok by auto. cbn [bind].
    assert (Emc : fmin_list (vector dp b) = cell md b) by (unfold md, reduce_last; cbn [cell]; now rewrite (row_vector dp B p b Edp I)).
    assert (Eic : argmin (vector dp b) = cell idx b) by (unfold idx, reduce_last; cbn [cell]; now rewrite (row_vector dp B p b Edp I)).
    assert (Li : cell idx b < p).
    { rewrite <- Eic. rewrite <- (vector_length dp B p b Edp I). now apply argmin_lt. }
    assert (Ref : forall dft, path_pts (nth (argmin (vector dp b))
        (tabulate p (fun i => mkpath (tabulate k (fun j => cell pts (b ++ [i; j]))) (cell on (b ++ [i])))) dft) = vector ref b).
    { intros dft. rewrite Eic.
      erewrite nth_error_nth by (rewrite nth_error_tabulate, (proj2 (Nat.ltb_lt _ _) Li); reflexivity). cbn [path_pts].
      rewrite (vector_eq ref B k [] b Eref I). apply tabulate_ext. intros j Hj. unfold ref. cbn [cell].
      now rewrite removelast_app1, last_app1. }
    rewrite Ref, Emc. f_equal. rewrite K12, K11, K10, K9, K6, K7, K8 by auto. reflexivity.
  Qed.
End Sdc.
