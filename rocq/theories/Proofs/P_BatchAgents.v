(** The batched sim agents act in every scenario like the agent on that scenario alone. *)
From Coq Require Import List ZArith Bool Lia Arith.
From Verif.Lib Require Import Base JaxIndex Scalar.
From Verif.Model Require Import Operations State Dynamics Dyn_State Dyn_Delta Dyn_Bicycle
  Geometry Discretizer Comfort Metrics Expert Actor Waypoint Batch BatchMetrics BatchAgents.
From Verif.Spec Require Import StateSpec BatchSpec BatchPlanSpec.
From Verif.Proofs Require Import Core P_Batch P_BatchMetrics P_BatchSdc P_Waypoint.
Import ListNotations.
Local Open Scope nat_scope.

Lemma removelast_app3 {A} (l : list A) a c d : removelast (l ++ [a; c; d]) = l ++ [a; c].
Proof. rewrite removelast_app by discriminate. reflexivity. Qed.
Lemma last_app3 {A} (l : list A) a c d x : last (l ++ [a; c; d]) x = d.
Proof. change [a; c; d] with ([a; c] ++ [d]). rewrite app_assoc. apply last_app1. Qed.
Lemma app3 {A} (l : list A) a c d : (l ++ [a]) ++ [c; d] = l ++ [a; c; d].
Proof. now rewrite <- app_assoc. Qed.
Lemma app21 {A} (l : list A) a c : (l ++ [a]) ++ [c] = l ++ [a; c].
Proof. now rewrite <- app_assoc. Qed.

Lemma inside3 n m k i j t : i < n -> j < m -> t < k -> inside [n; m; k] [i; j; t].
Proof. intros. repeat (constructor; [assumption|]). constructor. Qed.

(* ---------------- tables ---------------- *)

Lemma row_tab {A} (x : arr A) B n k b i : dims x = B ++ [n; k] ->
  row x (b ++ [i]) = tabulate k (fun t => cell x (b ++ [i; t])).
Proof.
  intros D. unfold row, tabulate. rewrite D, last_app2. apply map_ext. intros t. now rewrite app21.
Qed.

Lemma mapM_tab {A C} (f : A -> res C) n (g : nat -> A) (h : nat -> C) :
  (forall i, i < n -> f (g i) = Ok (h i)) -> mapM f (tabulate n g) = Ok (tabulate n h).
Proof.
  unfold tabulate. intros H.
  assert (G : forall l, (forall i, In i l -> i < n) -> mapM f (map g l) = Ok (map h l)).
  { induction l as [|i l IH]; intros Hl; [reflexivity|]. cbn [map mapM].
    rewrite H by (apply Hl; now left). cbn [bind]. rewrite IH by (intros; apply Hl; now right). reflexivity. }
  apply G. intros i Hi. apply in_seq in Hi. lia.
Qed.

Lemma mapi_tab {A C} (f : nat -> A -> C) n g : mapi f (tabulate n g) = tabulate n (fun i => f i (g i)).
Proof.
  apply nth_error_ext_eq. intros i. rewrite nth_error_mapi, !nth_error_tabulate.
  destruct (i <? n); reflexivity.
Qed.

Lemma map2_tab {A A' C} (f : A -> A' -> C) n g h :
  map2 f (tabulate n g) (tabulate n h) = tabulate n (fun i => f (g i) (h i)).
Proof.
  apply nth_error_ext_eq. intros i. rewrite nth_error_map2, !nth_error_tabulate.
  destruct (i <? n); reflexivity.
Qed.

Lemma map3_tab {A A' A'' C} (f : A -> A' -> A'' -> C) n g h k :
  map3 f (tabulate n g) (tabulate n h) (tabulate n k) = tabulate n (fun i => f (g i) (h i) (k i)).
Proof.
  unfold tabulate. generalize (seq 0 n) as l. induction l as [|i l IH]; [reflexivity|].
  cbn [map map3]. now rewrite IH.
Qed.

Lemma nth_tab {A} n (f : nat -> A) i d : i < n -> nth i (tabulate n f) d = f i.
Proof.
  intros H. apply nth_error_nth. rewrite nth_error_tabulate. now rewrite (proj2 (Nat.ltb_lt _ _) H).
Qed.

Lemma existsb_tab {A} (f : A -> bool) n g : existsb f (tabulate n g) = existsb (fun i => f (g i)) (seq 0 n).
Proof. unfold tabulate. generalize (seq 0 n) as l. induction l as [|i l IH]; [reflexivity|]. cbn. now rewrite IH. Qed.

Lemma list_tab {A} (l : list A) n d : length l = n -> l = tabulate n (fun i => nth i l d).
Proof.
  intros L. apply eq_tabulate; [exact L|]. intros i Hi. apply nth_error_nth'. lia.
Qed.

Lemma combine_tab {A C} n (f : nat -> A) (g : nat -> C) :
  combine (tabulate n f) (tabulate n g) = tabulate n (fun i => (f i, g i)).
Proof. unfold tabulate. generalize (seq 0 n) as l. induction l as [|i l IH]; [reflexivity|]. cbn. now rewrite IH. Qed.

(* ---------------- broadcasting ---------------- *)

Lemma bdims_n1L n L : bdims [n; 1; L] [1; n; 1] = Some [n; n; L].
Proof. unfold bdims. simpl. destruct n as [|[|n]], L as [|[|L]]; reflexivity. Qed.
Lemma bdims_nnL n L : bdims [n; n; L] [n; n; 1] = Some [n; n; L].
Proof. unfold bdims. simpl. rewrite !Nat.eqb_refl. destruct L as [|[|L]]; reflexivity. Qed.
Lemma bdims_1n1 n L : bdims [n; n; L] [1; n; 1] = Some [n; n; L].
Proof. unfold bdims. simpl. rewrite !Nat.eqb_refl. destruct n as [|[|n]], L as [|[|L]]; reflexivity. Qed.
Lemma bdims_1n1r n L : bdims [1; n; 1] [n; n; L] = Some [n; n; L].
Proof. unfold bdims. simpl. rewrite !Nat.eqb_refl. destruct n as [|[|n]], L as [|[|L]]; reflexivity. Qed.

Lemma bidx_n1L n L i j t : i < n -> t < L -> bidx [n; 1; L] [i; j; t] = [i; 0; t].
Proof.
  intros Hi Ht. unfold bidx. simpl.
  destruct (Nat.eqb_spec n 1), (Nat.eqb_spec L 1); repeat f_equal; lia.
Qed.
Lemma bidx_1n1 n i j t : j < n -> bidx [1; n; 1] [i; j; t] = [0; j; 0].
Proof. intros Hj. unfold bidx. simpl. destruct (Nat.eqb_spec n 1); repeat f_equal; lia. Qed.
Lemma bidx_nn1 n i j t : i < n -> j < n -> bidx [n; n; 1] [i; j; t] = [i; j; 0].
Proof. intros Hi Hj. unfold bidx. simpl. destruct (Nat.eqb_spec n 1); repeat f_equal; lia. Qed.

Lemma bdims_rev_ones (e f g B : list nat) : length e = length f -> bdims_rev e f = Some g ->
  bdims_rev (e ++ B) (f ++ repeat 1 (length B)) = Some (g ++ B).
Proof.
  revert f g. induction e as [|x e IH]; intros [|y f] g L H; try discriminate.
  - injection H as <-. cbn [app]. clear L. induction B as [|d B IHB]; [reflexivity|]. cbn [length repeat bdims_rev].
    rewrite IHB. destruct (Nat.eqb_spec d 1) as [->|]; reflexivity.
  - cbn [app bdims_rev] in *. destruct (bdims_rev e f) as [r|] eqn:E; [|discriminate].
    rewrite (IH f r) by (auto; cbn in L; lia).
    destruct (x =? y); [injection H as <-; reflexivity|].
    destruct (x =? 1); [injection H as <-; reflexivity|].
    destruct (y =? 1); [injection H as <-; reflexivity|discriminate].
Qed.

Lemma rev_repeat {A} (a : A) n : rev (repeat a n) = repeat a n.
Proof.
  induction n as [|n IH]; [reflexivity|]. cbn. rewrite IH. clear. induction n as [|n IH]; [reflexivity|]. cbn. now rewrite IH.
Qed.

Lemma bdims_ones (B e f g : list nat) : length e = length f -> bdims e f = Some g ->
  bdims (B ++ e) (repeat 1 (length B) ++ f) = Some (B ++ g).
Proof.
  intros L H. unfold bdims in *. rewrite !rev_app_distr, rev_repeat.
  destruct (bdims_rev (rev e) (rev f)) as [r|] eqn:E; [|discriminate]. injection H as <-.
  pose proof (bdims_rev_ones (rev e) (rev f) r (rev B)) as G. rewrite (rev_length B) in G.
  rewrite G by (rewrite ?rev_length; auto). cbn. now rewrite rev_app_distr, rev_involutive.
Qed.

Lemma bidx_ones (B b f i : list nat) : length b = length B -> length i = length f ->
  bidx (repeat 1 (length B) ++ f) (b ++ i) = repeat 0 (length B) ++ bidx f i.
Proof.
  intros Lb L. unfold bidx. rewrite !app_length, repeat_length, Lb, L, !Nat.sub_diag. cbn [skipn].
  rewrite map2_app by (rewrite repeat_length; auto). f_equal.
  revert b Lb. induction B as [|d B IH]; intros [|x b] Lb; try discriminate; [reflexivity|].
  cbn. f_equal. apply IH. now injection Lb.
Qed.

Lemma amap2_ones {A A' C} (op : A -> A' -> C) x y B e f g :
  dims x = B ++ e -> dims y = repeat 1 (length B) ++ f -> length e = length f -> bdims e f = Some g ->
  exists z, amap2 op x y = Ok z /\ dims z = B ++ g /\
    forall b i, inside B b -> length i = length e ->
      cell z (b ++ i) = op (cell x (b ++ bidx e i)) (cell y (repeat 0 (length B) ++ bidx f i)).
Proof.
  intros Dx Dy L H. unfold amap2. rewrite Dx, Dy, (bdims_ones B e f g) by auto.
  eexists. split; [reflexivity|]. split; [reflexivity|]. intros b i I Li. cbn [cell].
  rewrite bidx_app by (auto; congruence).
  rewrite bidx_ones by (try congruence; now apply inside_length). reflexivity.
Qed.

(* ---------------- indexing ---------------- *)

Section Index.
  Context {A : Type}.

  Lemma newaxis_2nd_dims (x : arr A) B n L : dims x = B ++ [n; L] -> dims (newaxis_2nd x) = B ++ [n; 1; L].
  Proof. intros D. unfold newaxis_2nd. cbn [dims]. rewrite D, removelast_app2, last_app2. now rewrite app3. Qed.
  Lemma newaxis_2nd_cell (x : arr A) b i j t : cell (newaxis_2nd x) (b ++ [i; j; t]) = cell x (b ++ [i; t]).
  Proof. unfold newaxis_2nd. cbn [cell]. rewrite removelast_app3, removelast_app2, last_app3. now rewrite app21. Qed.

  Lemma newaxis_3rd_dims (x : arr A) B n L : dims x = B ++ [n; L] -> dims (newaxis_3rd x) = B ++ [1; n; L].
  Proof. intros D. unfold newaxis_3rd. cbn [dims]. now rewrite D, removelast_app2, removelast_app1, last_app2, last_app1. Qed.
  Lemma newaxis_3rd_cell (x : arr A) b i j t : cell (newaxis_3rd x) (b ++ [i; j; t]) = cell x (b ++ [j; t]).
  Proof.
    unfold newaxis_3rd. cbn [cell].
    now rewrite removelast_app3, removelast_app2, removelast_app1, last_app3, last_app2.
  Qed.

  Lemma b_concat_eq (x y : arr A) B n k l : dims x = B ++ [n; k] -> dims y = B ++ [n; l] ->
    exists z, b_concat x y = Ok z /\ dims z = B ++ [n; k + l] /\
      forall b, inside B b -> matrix z b = map2 (@app A) (matrix x b) (matrix y b).
  Proof.
    intros Dx Dy. unfold b_concat. rewrite Dx, Dy, !removelast_app2, dims_eqb_refl, !last_app2. cbn [guard bind].
    eexists. split; [reflexivity|]. cbn [dims]. rewrite app21. split; [reflexivity|]. intros b I.
    rewrite (matrix_eq _ B n (k + l) b) by (auto; cbn [dims]; now rewrite app21).
    rewrite (matrix_eq x B n k b Dx I), (matrix_eq y B n l b Dy I), map2_tab.
    apply tabulate_ext. intros i Hi. cbn [cell].
    apply nth_error_ext_eq. intros t. rewrite nth_error_tabulate.
    destruct (Nat.lt_ge_cases t k) as [Ht|Ht].
    - rewrite nth_error_app1 by now rewrite tabulate_length. rewrite nth_error_tabulate.
      rewrite last_app2, !(proj2 (Nat.ltb_lt _ _)) by lia. reflexivity.
    - rewrite nth_error_app2 by now rewrite tabulate_length. rewrite tabulate_length, nth_error_tabulate.
      rewrite last_app2, removelast_app2, app21, (proj2 (Nat.ltb_ge t k)) by lia.
      destruct (Nat.ltb_spec t (k + l)), (Nat.ltb_spec (t - k) l); auto; lia.
  Qed.

  Lemma reduce_2nd_eq {C} (f : list A -> C) (x : arr A) B n m L : dims x = B ++ [n; m; L] ->
    dims (reduce_2nd f x) = B ++ [n; L] /\
    forall b i t, cell (reduce_2nd f x) (b ++ [i; t]) = f (tabulate m (fun j => cell x (b ++ [i; j; t]))).
  Proof.
    intros D. unfold reduce_2nd. cbn [dims cell]. rewrite D, removelast_app3, removelast_app2, last_app2, last_app3.
    split; [now rewrite app21|]. intros b i t. rewrite removelast_app2, last_app2. f_equal.
    unfold tabulate. apply map_ext. intros j. now rewrite app3.
  Qed.

  Lemma reduce_last_eq {C} (f : list A -> C) (x : arr A) B n L : dims x = B ++ [n; L] ->
    dims (reduce_last f x) = B ++ [n] /\
    forall b i, cell (reduce_last f x) (b ++ [i]) = f (tabulate L (fun t => cell x (b ++ [i; t]))).
  Proof.
    intros D. unfold reduce_last. cbn [dims cell]. rewrite D, removelast_app2. split; [reflexivity|].
    intros b i. now rewrite (row_tab x B n L b i D).
  Qed.

  Lemma vmap_rows_eq {C} (f : list A -> list C) k d (x : arr A) B n L : dims x = B ++ [n; L] ->
    dims (vmap_rows f k d x) = B ++ [n; k] /\
    forall b i t, cell (vmap_rows f k d x) (b ++ [i; t])
      = nth t (f (tabulate L (fun t => cell x (b ++ [i; t])))) d.
  Proof.
    intros D. unfold vmap_rows. cbn [dims cell]. rewrite D, removelast_app2. split; [now rewrite app21|].
    intros b i t. rewrite removelast_app2, last_app2. now rewrite (row_tab x B n L b i D).
  Qed.
End Index.

Lemma existsb_ext_in {A} (f g : A -> bool) l : (forall x, In x l -> f x = g x) -> existsb f l = existsb g l.
Proof.
  induction l as [|x l IH]; intros H; cbn; auto.
  rewrite H by (left; reflexivity). rewrite IH; auto. intros y Hy. apply H. now right.
Qed.

Section Agents.
  Context {S : Scalar}.

  Lemma b_current_eq1 B n T s : batch_of B n T s -> 0 < T ->
    exists cur, b_current_sim s = Ok cur /\ dims cur = B ++ [n; 1] /\
      forall b, inside B b -> current_sim (scenario s b) = Ok (tabulate n (fun j => cell cur (b ++ [j; 0]))).
  Proof.
    intros W HT. pose proof (batch_start _ _ _ _ W) as St. destruct W as (D1 & _).
    exact (b_slice_frame (b_sim s) B n T (b_t s) D1 St HT).
  Qed.

  (* ---------------- the IDM speed ---------------- *)

  Lemma b_collision_eq (tr cur : arr pt) B n L : dims tr = B ++ [n; L] -> dims cur = B ++ [n; 1] ->
    exists c, b_collision tr cur = Ok c /\ dims c = B ++ [n; n; L] /\
      forall b i j t, inside B b -> i < n -> j < n -> t < L ->
        cell c (b ++ [i; j; t]) = collision i (cell tr (b ++ [i; t])) j (cell cur (b ++ [j; 0])).
  Proof.
    intros Dt Dc. pose proof (newaxis_2nd_dims tr B n L Dt) as Da. pose proof (newaxis_3rd_dims cur B n 1 Dc) as Db.
    unfold b_collision.
    destruct (amap2_pre (fun w c => has_overlap (pt_box w) (pt_box c)) (newaxis_2nd tr) (newaxis_3rd cur)
                B [n; 1; L] [1; n; 1] [n; n; L] Da Db eq_refl (bdims_n1L n L) eq_refl) as (over & H1 & D1 & C1).
    destruct (amap2_pre andb (amap p_valid (newaxis_2nd tr)) (amap p_valid (newaxis_3rd cur))
                B [n; 1; L] [1; n; 1] [n; n; L] Da Db eq_refl (bdims_n1L n L) eq_refl) as (va & H2 & D2 & C2).
    rewrite H1, H2. cbn [bind].
    assert (En : b_num_objects cur = n) by (unfold b_num_objects; now rewrite Dc, removelast_app2, last_app1).
    assert (Er : length (dims cur) - 2 = length B) by (rewrite Dc, app_length; cbn; lia).
    rewrite En, Er.
    destruct (amap2_ones (fun v e : bool => v && negb e) va (eye_mask (length B) n) B [n; n; L] [n; n; 1] [n; n; L]
                D2 eq_refl eq_refl (bdims_nnL n L)) as (vb & H3 & D3 & C3).
    rewrite H3. cbn [bind].
    destruct (amap2_same (fun v c : bool => if v then c else false) vb over B [n; n; L] D3 D1) as (c & H4 & D4 & C4).
    exists c. split; [exact H4|]. split; [exact D4|]. intros b i j t I Hi Hj Ht.
    rewrite C4 by (auto using inside3). rewrite C1, C3 by auto.
    rewrite (bidx_self [n; n; L]) by (auto using inside3). rewrite C2 by auto.
    rewrite bidx_n1L, bidx_1n1, bidx_nn1 by auto. cbn [amap cell].
    rewrite newaxis_2nd_cell, newaxis_3rd_cell. unfold eye_mask. cbn [cell].
    rewrite removelast_app3, removelast_app2, last_app2, last_app1. reflexivity.
  Qed.

  Lemma cumsum_from_length a l : length (cumsum_from a l) = length l.
  Proof. revert a; induction l as [|x l IH]; intros a; cbn; auto. Qed.
  Lemma cumsum_length l : length (cumsum l) = length l.
  Proof. destruct l; cbn; auto. now rewrite cumsum_from_length. Qed.

  Lemma b_lead_velocity_eq (cur : arr pt) (coll : arr bool) B n L :
    dims cur = B ++ [n; 1] -> dims coll = B ++ [n; n; L] ->
    exists v, b_lead_velocity cur coll = Ok v /\ dims v = B ++ [n] /\
      forall b i, inside B b -> i < n ->
        cell v (b ++ [i]) = compute_lead_velocity
          (tabulate n (fun j => tabulate L (fun _ => obj_speed (cell cur (b ++ [j; 0])))))
          (tabulate n (fun j => tabulate L (fun t => cell coll (b ++ [i; j; t]))))
          (tabulate n (fun j => tabulate L (fun _ => p_valid (cell cur (b ++ [j; 0]))))) L.
  Proof.
    intros Dc Dk. unfold b_lead_velocity.
    assert (Ds : dims (newaxis_3rd (amap obj_speed cur)) = B ++ [1; n; 1]) by exact (newaxis_3rd_dims (amap obj_speed cur) B n 1 Dc).
    assert (Dv : dims (newaxis_3rd (amap p_valid cur)) = B ++ [1; n; 1]) by exact (newaxis_3rd_dims (amap p_valid cur) B n 1 Dc).
    destruct (amap2_pre (fun (c : bool) v => if c then v else finf) coll _ B [n; n; L] [1; n; 1] [n; n; L]
                Dk Ds eq_refl (bdims_1n1 n L) eq_refl) as (v1 & H1 & D1 & C1).
    rewrite H1. cbn [bind].
    destruct (amap2_pre (fun (ok : bool) v => if ok then v else finf) _ v1 B [1; n; 1] [n; n; L] [n; n; L]
                Dv D1 eq_refl (bdims_1n1r n L) eq_refl) as (v2 & H2 & D2 & C2).
    rewrite H2. cbn [bind].
    destruct (reduce_2nd_eq list_min v2 B n n L D2) as (D3 & C3). set (per_t := reduce_2nd list_min v2) in *.
    set (fin := amap (fun v => if fisfinite v then v else f0) per_t).
    assert (Df : dims fin = B ++ [n; L]) by exact D3.
    assert (D4 : dims (b_cumsum fin) = B ++ [n; L]).
    { unfold b_cumsum. rewrite Df, last_app2. exact (proj1 (vmap_rows_eq cumsum L f0 fin B n L Df)). }
    destruct (amap2_same (fun v c => if fisfinite v then c else finf) per_t (b_cumsum fin) B [n; L] D3 D4) as (v5 & H5 & D5 & C5).
    rewrite H5. cbn [bind]. eexists. split; [reflexivity|].
    destruct (reduce_last_eq list_min v5 B n L D5) as (D6 & C6). split; [exact D6|].
    intros b i I Hi. cbn [amap cell]. rewrite C6. unfold compute_lead_velocity.
    rewrite map3_tab.
    assert (P : map (fun t => list_min (map (fun r => nth t r finf)
                  (tabulate n (fun j => map3 collision_vels_at
                     (tabulate L (fun _ => obj_speed (cell cur (b ++ [j; 0]))))
                     (tabulate L (fun t => cell coll (b ++ [i; j; t])))
                     (tabulate L (fun _ => p_valid (cell cur (b ++ [j; 0])))))))) (seq 0 L)
                = tabulate L (fun t => cell per_t (b ++ [i; t]))).
    { change (map ?f (seq 0 L)) with (tabulate L f). apply tabulate_ext. intros t Ht. rewrite C3. f_equal.
      rewrite map_tabulate. apply tabulate_ext. intros j Hj. rewrite map3_tab, nth_tab by auto.
      rewrite C2 by auto. rewrite (bidx_self [n; n; L]) by auto using inside3. rewrite C1 by auto.
      rewrite (bidx_self [n; n; L]) by auto using inside3. rewrite bidx_1n1, !newaxis_3rd_cell by auto. reflexivity. }
    rewrite P, !map_tabulate, !map2_tab.
    assert (Q : list_min (tabulate L (fun t => cell v5 (b ++ [i; t])))
      = list_min (map2 (fun (m : bool) v => if m then v else finf) (tabulate L (fun i0 => fisfinite (cell per_t (b ++ [i; i0]))))
          (cumsum (tabulate L (fun i0 => if fisfinite (cell per_t (b ++ [i; i0])) then cell per_t (b ++ [i; i0]) else f0))))).
    { f_equal. set (l := cumsum _).
      assert (Ll : length l = L) by (unfold l; now rewrite cumsum_length, tabulate_length).
      rewrite (list_tab l L f0 Ll), map2_tab. apply tabulate_ext. intros t Ht.
      rewrite C5 by (auto; apply inside2; auto). unfold b_cumsum. rewrite Df, last_app2.
      rewrite (proj2 (vmap_rows_eq cumsum L f0 fin B n L Df)). reflexivity. }
    rewrite Q. reflexivity.
  Qed.

  Lemma b_lead_distance_eq (tr cur : arr pt) (coll : arr bool) B n L :
    dims tr = B ++ [n; L] -> dims cur = B ++ [n; 1] -> dims coll = B ++ [n; n; L] ->
    exists v, b_lead_distance tr cur coll = Ok v /\ dims v = B ++ [n] /\
      forall b i, inside B b -> i < n ->
        cell v (b ++ [i]) = compute_lead_distance (tabulate L (fun t => cell tr (b ++ [i; t])))
          (tabulate L (fun t => existsb (fun j => cell coll (b ++ [i; j; t])) (seq 0 n))) (cell cur (b ++ [i; 0])).
  Proof.
    intros Dt Dc Dk. unfold b_lead_distance.
    destruct (reduce_2nd_eq (existsb (fun b : bool => b)) coll B n n L Dk) as (D1 & C1).
    set (any := reduce_2nd (existsb (fun b : bool => b)) coll) in *.
    destruct (amap2_pre pt_dist3 cur tr B [n; 1] [n; L] [n; L] Dc Dt eq_refl (bdims_p1 n L) eq_refl) as (d & H2 & D2 & C2).
    rewrite H2. cbn [bind].
    destruct (amap2_same (fun (c : bool) d => if c then d else finf) any d B [n; L] D1 D2) as (v & H3 & D3 & C3).
    rewrite H3. cbn [bind]. eexists. split; [reflexivity|].
    destruct (reduce_last_eq list_min v B n L D3) as (D4 & C4). split; [exact D4|].
    intros b i I Hi. cbn [amap cell]. rewrite C4. unfold compute_lead_distance. rewrite map2_tab.
    match goal with |- (if fisfinite (list_min ?a) then _ else _) = (if fisfinite (list_min ?b) then _ else _) =>
      replace a with b; [reflexivity|] end.
    apply tabulate_ext. intros t Ht. rewrite C3 by (auto; apply inside2; auto).
    rewrite C1, existsb_tab, C2 by auto. rewrite bidx_p1, (bidx_self [n; L]) by (auto; apply inside2; auto). reflexivity.
  Qed.

  Lemma reference_traj_Ok at_ tr k : k <= length tr ->
    exists l, reference_traj at_ tr k = Ok l /\ length l = k.
  Proof.
    intros H. unfold reference_traj, dyn_slice. rewrite (proj2 (Nat.leb_le _ _) H). eexists. split; [reflexivity|].
    rewrite firstn_length, skipn_length.
    pose proof (norm_start_fit (Z.of_nat (argmin (map (fun w => if p_valid w then pt_dist3 at_ w else finf) tr))) (length tr) k). lia.
  Qed.

  Lemma b_reference_eq (at_ tr : arr pt) B n k m : dims at_ = B ++ [n; 1] -> dims tr = B ++ [n; k] -> m <= k ->
    exists r, b_reference_traj at_ tr m = Ok r /\ dims r = B ++ [n; m] /\
      forall b i, inside B b -> i < n ->
        reference_traj (cell at_ (b ++ [i; 0])) (tabulate k (fun t => cell tr (b ++ [i; t]))) m
        = Ok (tabulate m (fun t => cell r (b ++ [i; t]))).
  Proof.
    intros Da Dt Hm. unfold b_reference_traj. rewrite Da, Dt, !removelast_app2, dims_eqb_refl, last_app2.
    rewrite (proj2 (Nat.leb_le _ _) Hm). cbn [guard bind].
    eexists. split; [reflexivity|]. cbn [dims cell]. split; [now rewrite app21|]. intros b i I Hi.
    destruct (reference_traj_Ok (cell at_ (b ++ [i; 0])) (tabulate k (fun t => cell tr (b ++ [i; t]))) m) as (l & E & Ll);
      [now rewrite tabulate_length|].
    rewrite E. f_equal. rewrite (list_tab l m invalid_pt Ll) at 1. apply tabulate_ext. intros t Ht.
    rewrite removelast_app2, last_app2, app21, (row_tab tr B n k b i Dt), E. reflexivity.
  Qed.

  Lemma headway_length d k tr : tr <> [] -> length (add_headway_waypoints d k tr) = length tr + k.
  Proof.
    intros H. unfold add_headway_waypoints. destruct (rev tr) eqn:E.
    - apply (f_equal (@rev pt)) in E. rewrite rev_involutive in E. now destruct H.
    - now rewrite app_length, map_length, seq_length.
  Qed.

  (** The waypoints checked for collisions. *)
  Definition look_length (p : idm_params) : nat :=
    (if lookahead_from_current_position p then 1 else max_lookahead p) + additional_headway_points p.

  Lemma b_lookahead_eq p (log cur : arr pt) B n T : dims log = B ++ [n; T] -> dims cur = B ++ [n; 1] ->
    (lookahead_from_current_position p = false -> 1 <= max_lookahead p <= T) ->
    exists tr, b_lookahead_traj p log cur = Ok tr /\ dims tr = B ++ [n; look_length p] /\
      forall b i, inside B b -> i < n ->
        lookahead_traj p (tabulate T (fun t => cell log (b ++ [i; t]))) (cell cur (b ++ [i; 0]))
        = Ok (tabulate (look_length p) (fun t => cell tr (b ++ [i; t]))).
  Proof.
    intros Dl Dc Hp. unfold b_lookahead_traj, look_length.
    assert (G : exists m r, 1 <= m /\ m = (if lookahead_from_current_position p then 1 else max_lookahead p) /\
      (if lookahead_from_current_position p then b_reference_traj cur cur 1
               else b_reference_traj cur log (max_lookahead p)) = Ok r /\ dims r = B ++ [n; m] /\
      forall b i, inside B b -> i < n ->
        (if lookahead_from_current_position p then reference_traj (cell cur (b ++ [i; 0])) [cell cur (b ++ [i; 0])] 1
         else reference_traj (cell cur (b ++ [i; 0])) (tabulate T (fun t => cell log (b ++ [i; t]))) (max_lookahead p))
        = Ok (tabulate m (fun t => cell r (b ++ [i; t])))).
    { destruct (lookahead_from_current_position p).
      - destruct (b_reference_eq cur cur B n 1 1 Dc Dc) as (r & E1 & E2 & E3); [lia|].
        exists 1, r. repeat split; auto.
      - destruct (b_reference_eq cur log B n T (max_lookahead p) Dc Dl) as (r & E1 & E2 & E3); [now apply Hp|].
        exists (max_lookahead p), r. split; [now apply Hp|]. repeat split; auto. }
    destruct G as (m & r & Hm & Em & E1 & Dr & Er). rewrite E1, <- Em. cbn [bind].
    eexists. split; [reflexivity|].
    destruct (Nat.ltb_spec 0 (additional_headway_points p)) as [H|H].
    - rewrite Dr, last_app2.
      pose proof (vmap_rows_eq (add_headway_waypoints (additional_lookahead_distance p) (additional_headway_points p))
        (m + additional_headway_points p) invalid_pt r B n m Dr) as (D2 & C2).
      split; [exact D2|]. intros b i I Hi. unfold lookahead_traj. rewrite Er by auto. cbn [bind].
      rewrite (proj2 (Nat.ltb_lt _ _) H). f_equal.
      rewrite (list_tab (add_headway_waypoints _ _ (tabulate m _)) (m + additional_headway_points p) invalid_pt) at 1.
      + apply tabulate_ext. intros t Ht. now rewrite C2.
      + rewrite headway_length; rewrite ?tabulate_length; auto. intros E. apply (f_equal (@length pt)) in E.
        rewrite tabulate_length in E. cbn in E. lia.
    - replace (m + additional_headway_points p) with m by lia. split; [exact Dr|]. intros b i I Hi.
      unfold lookahead_traj. rewrite Er by auto. cbn [bind]. rewrite (proj2 (Nat.ltb_ge _ _)) by lia. reflexivity.
  Qed.

  Lemma idm_update_eq p B n T s : batch_of B n T s -> 0 < T ->
    (lookahead_from_current_position p = false -> 1 <= max_lookahead p <= T) ->
    exists v, b_idm_update_speed p s = Ok v /\ dims v = B ++ [n] /\
      forall b, inside B b -> idm_update_speed p (scenario s b) = Ok (vector v b).
  Proof.
    intros W HT Hp. destruct (b_current_eq1 B n T s W HT) as (cur & H1 & D1 & F1).
    destruct W as (_ & Dl & _). unfold b_idm_update_speed. rewrite H1. cbn [bind].
    rewrite Dl, D1, !removelast_app2, dims_eqb_refl. cbn [guard bind].
    destruct (b_lookahead_eq p (b_log s) cur B n T Dl D1 Hp) as (tr & H2 & D2 & F2). rewrite H2. cbn [bind].
    set (L := look_length p) in *.
    destruct (b_collision_eq tr cur B n L D2 D1) as (coll & H3 & D3 & C3). rewrite H3. cbn [bind].
    destruct (b_lead_velocity_eq cur coll B n L D1 D3) as (lv & H4 & D4 & C4). rewrite H4. cbn [bind].
    destruct (b_lead_distance_eq tr cur coll B n L D2 D1 D3) as (ld & H5 & D5 & C5). rewrite H5. cbn [bind].
    assert (Dsp : dims (drop_last (amap obj_speed cur)) = B ++ [n]) by exact (drop_last_dims (amap obj_speed cur) B n 1 D1).
    destruct (amap2_same pair lv ld B [n] D4 D5) as (le & H6 & D6 & C6). rewrite H6. cbn [bind].
    destruct (amap2_same (fun v l => idm_accel p v (fst l) (snd l)) _ le B [n] Dsp D6) as (ac & H7 & D7 & C7). rewrite H7. cbn [bind].
    destruct (amap2_same (fun v a => (next_speed default_time_delta v a, true)) _ ac B [n] Dsp D7) as (v & H8 & D8 & C8).
    exists v. split; [exact H8|]. split; [exact D8|]. intros b I.
    unfold idm_update_speed. rewrite F1 by exact I. cbn [bind].
    unfold scenario. cbn [s_log]. rewrite (matrix_eq (b_log s) B n T b Dl I), !tabulate_length, Nat.eqb_refl. cbn [guard bind].
    rewrite combine_tab.
    rewrite (mapM_tab (fun q => lookahead_traj p (fst q) (snd q)) n _ (fun i => tabulate L (fun t => cell tr (b ++ [i; t]))))
      by (intros i Hi; apply F2; auto).
    cbn [bind]. rewrite combine_tab, mapi_tab. f_equal. rewrite (vector_eq v B n [] b D8 I). apply tabulate_ext.
    intros i Hi. cbn [fst snd]. rewrite C8, C7, C6 by (auto; now apply inside1).
    unfold drop_last. cbn [amap cell]. rewrite app21. do 2 f_equal.
    unfold object_accel, object_lead. cbn [fst snd].
    rewrite C4, C5 by auto. rewrite mapi_tab, !map_tabulate, tabulate_length. f_equal.
    - f_equal.
      + apply tabulate_ext. intros j Hj. now rewrite map_tabulate.
      + apply tabulate_ext. intros j Hj. rewrite map_tabulate. apply tabulate_ext. intros t Ht. now rewrite C3.
      + apply tabulate_ext. intros j Hj. now rewrite map_tabulate.
    - f_equal. change (map ?f (seq 0 L)) with (tabulate L f). apply tabulate_ext. intros t Ht.
      rewrite existsb_tab. apply existsb_ext_in. intros j Hj. apply in_seq in Hj.
      rewrite map_tabulate, nth_tab by auto. now rewrite C3 by (auto; lia).
  Qed.
End Agents.

Lemma b_slice_matrix {A} (x : arr A) B n T st size :
  dims x = B ++ [n; T] -> start_of B st -> size <= T ->
  exists y, b_slice x st size = Ok y /\ dims y = B ++ [n; size] /\
    forall b, inside B b -> dynamic_slice (matrix x b) (clock st b) size = Ok (matrix y b).
Proof.
  intros D St HT. destruct (b_slice_Ok x B n T st size D St HT) as (y & H1 & H2 & H3).
  exists y. split; [exact H1|]. split; [exact H2|]. intros b I.
  pose proof (matrix_rect x B n T b D I) as R.
  destruct (dynamic_slice_total n T (matrix x b) (clock st b) size R HT) as [sl Hs]. rewrite Hs. f_equal.
  destruct (dynamic_slice_Ok n T (matrix x b) (clock st b) size sl R Hs) as (Rs & Cs).
  apply (is_matrix y B n size b); auto. intros i t Hi Ht.
  assert (at2 sl i t = at2 (matrix x b) i (norm_start (clock st b) T size + t)) as -> by (apply Cs; auto).
  rewrite (matrix_at2 x B n T b) by (auto; pose proof (norm_start_fit (clock st b) T size); lia).
  now rewrite H3.
Qed.

Section Inverses.
  Context {S : Scalar}.

  Lemma scalar_start B (k : Z) : start_of B (scalar k).
  Proof. now left. Qed.

  Lemma state_inverse_of B n : inverse_of B n 5 b_state_inverse state_inverse.
  Proof.
    intros tr ms D _. unfold b_state_inverse. cbn [scalar dims length Nat.eqb guard bind].
    destruct (b_slice_frame tr B n 2 (amap (fun t => (t + 1)%Z) (scalar 0%Z)) D (or_introl eq_refl)) as (y & H1 & D1 & F1); [lia|].
    rewrite H1. cbn [bind]. eexists. split; [reflexivity|]. split.
    - split; [exact (drop_last_dims y B n 1 D1)|]. reflexivity.
    - intros b I. unfold state_inverse. pose proof (F1 b I) as F. rewrite clock_amap in F. cbn [clock scalar cell] in F.
      change (clock (scalar 0%Z) b) with 0%Z in F. rewrite F. cbn [bind].
      now rewrite vector_amap, (drop_last_vector y B n 1 b D1 I).
  Qed.

  Lemma pair_frames (tr : arr pt) B n : dims tr = B ++ [n; 2] ->
    exists y, b_slice tr (scalar 0%Z) 2 = Ok y /\ dims y = B ++ [n; 2] /\
      forall b, inside B b ->
        two_frames (matrix tr b) 0 = Ok (tabulate n (fun i => (cell y (b ++ [i; 0]), cell y (b ++ [i; 1])))).
  Proof.
    intros D. destruct (b_slice_Ok tr B n 2 (scalar 0%Z) 2 D (scalar_start B 0)) as (y & H1 & D1 & _); [lia|].
    exists y. split; [exact H1|]. split; [exact D1|]. intros b I.
    exact (two_frames_eq B n 2 tr (scalar 0%Z) b D (scalar_start B 0) (le_n 2) I y H1).
  Qed.

  Lemma pair_inverse_of B n w f inv :
    (forall p0 p1, length (a_data (f p0 p1)) = w) ->
    (forall tr ms t, inv tr ms t = let* ps := two_frames tr t in Ok (map (fun pq => f (fst pq) (snd pq)) ps)) ->
    inverse_of B n w (b_pair_inverse f) inv.
  Proof.
    intros Hw Hi tr ms D _. unfold b_pair_inverse. cbn [scalar dims length Nat.eqb guard bind].
    destruct (pair_frames tr B n D) as (y & H1 & D1 & F1). rewrite H1. cbn [bind].
    eexists. split; [reflexivity|]. rewrite D1, removelast_app2. split; [split; [reflexivity|]; intros; apply Hw|].
    intros b I. rewrite Hi, F1 by exact I. cbn [bind]. f_equal. rewrite map_tabulate.
    match goal with |- _ = vector ?x b => rewrite (vector_eq x B n [] b eq_refl I) end.
    apply tabulate_ext. intros i _. cbn [cell fst snd]. now rewrite !app21.
  Qed.

  Lemma global_inverse_of B n q : inverse_of B n 3 (b_pair_inverse (delta_global_inverse1 q)) (delta_global_inverse q).
  Proof. apply pair_inverse_of; reflexivity. Qed.

  Lemma bicycle_inverse_of B n q : inverse_of B n 2 (b_pair_inverse (bicycle_inverse_action q)) (bicycle_inverse q).
  Proof.
    apply pair_inverse_of; [|reflexivity]. intros p0 p1. unfold bicycle_inverse_action.
    destruct (bicycle_inverse1 _ _ _ _) as [[a s] v]. destruct (if bc_normalize q then _ else _). reflexivity.
  Qed.

  Lemma local_inverse_of B n q : inverse_of B n 3 (b_local_inverse q) (delta_local_inverse q).
  Proof.
    intros tr ms D _. unfold b_local_inverse. cbn [scalar dims length Nat.eqb guard bind].
    destruct (pair_frames tr B n D) as (y & H1 & D1 & F1). rewrite H1. cbn [bind].
    destruct (b_slice_frame tr B n 2 (scalar 0%Z) D (or_introl eq_refl)) as (c & H2 & D2 & F2); [lia|].
    rewrite H2. cbn [bind].
    eexists. split; [reflexivity|]. rewrite D1, removelast_app2. split; [split; [reflexivity|]; intros; reflexivity|].
    intros b I. unfold delta_local_inverse. rewrite F1 by exact I. cbn [bind].
    pose proof (F2 b I) as F. change (clock (scalar 0%Z) b) with 0%Z in F. rewrite F. cbn [bind]. f_equal.
    unfold frame. rewrite map2_tab.
    match goal with |- _ = vector ?x b => rewrite (vector_eq x B n [] b eq_refl I) end.
    apply tabulate_ext. intros i _. cbn [cell fst snd]. now rewrite !app21.
  Qed.

  (** Current simulated frame and next logged frame. *)
  Lemma b_expert_eq B n T w bi i s : inverse_of B n w bi i -> running B n T s -> 0 < T ->
    exists acts, b_infer_expert_action bi s = Ok acts /\ actions_of B n w acts /\
      forall b u, inside B b -> infer_expert_action (mkdyn u i) (scenario s b) = Ok (vector acts b).
  Proof.
    intros Hi [W Dt] HT. destruct W as (Ds & Dl & Dm & _). unfold b_infer_expert_action.
    destruct (b_slice_matrix (b_sim s) B n T (b_t s) 1 Ds (or_introl Dt)) as (p & H1 & D1 & F1); [lia|].
    destruct (b_slice_matrix (b_log s) B n T (amap (fun t => (t + 1)%Z) (b_t s)) 1 Dl (or_introl Dt)) as (q & H2 & D2 & F2); [lia|].
    rewrite H1, H2. cbn [bind]. destruct (b_concat_eq p q B n 1 1 D1 D2) as (z & H3 & D3 & F3). rewrite H3. cbn [bind].
    destruct (Hi z (b_meta s) D3 Dm) as (acts & H4 & D4 & F4). exists acts. split; [exact H4|]. split; [exact D4|].
    intros b u I. unfold infer_expert_action. cbn [scenario s_sim s_log s_t s_meta].
    rewrite F1 by exact I. cbn [bind]. pose proof (F2 b I) as F. rewrite clock_amap in F. rewrite F. cbn [bind d_inverse].
    rewrite <- F3 by exact I. now apply F4.
  Qed.
End Inverses.

Section Actors.
  Context {S : Scalar}.

  (** A batched trajectory update that is, in every scenario, that of the scenario alone. *)
  Definition updates_of (B : list nat) (n T : nat) (bu : bstate -> res (arr upd)) (u : state -> res (list upd)) : Prop :=
    forall s, running B n T s -> exists us, bu s = Ok us /\ dims us = B ++ [n; 1] /\
      forall b, inside B b -> u (scenario s b) = Ok (frame n us b).

  Lemma frozen_updates B n T : 0 < T -> updates_of B n T b_frozen_update frozen_update.
  Proof.
    intros HT s [W Dt]. destruct (b_current_eq1 B n T s W HT) as (cur & H1 & D1 & F1).
    unfold b_frozen_update. rewrite H1. cbn [bind]. eexists. split; [reflexivity|]. split; [exact D1|].
    intros b I. unfold frozen_update. rewrite F1 by exact I. cbn [bind]. rewrite map_tabulate. reflexivity.
  Qed.

  Lemma next_total inv dt log c v ok : log <> [] -> exists p, next_by_projection inv dt log c v ok = Ok p.
  Proof.
    intros N. unfold next_by_projection.
    match goal with |- context [project_point ?e ?xy log] => destruct (project_total e xy log N) as [[[xy' yaw] r] E] end.
    rewrite E. cbn [bind]. match goal with |- context [if ?c then Ok _ else _] => destruct c end; eauto.
  Qed.

  Lemma waypoint_updates B n T inv bsp sp : 0 < T ->
    (forall s, running B n T s -> exists v, bsp s = Ok v /\ dims v = B ++ [n] /\
       forall b, inside B b -> sp (scenario s b) = Ok (vector v b)) ->
    updates_of B n T (b_waypoint_update inv bsp) (waypoint_update inv sp).
  Proof.
    intros HT H s R. pose proof R as [W Dt]. destruct (H s R) as (v & H0 & D0 & F0).
    destruct (b_current_eq1 B n T s W HT) as (cur & H1 & D1 & F1).
    destruct W as (_ & Dl & _). unfold b_waypoint_update. rewrite H0, H1. cbn [bind].
    destruct (amap2_p1r pair v cur B n 1 D0 D1) as (x & H2 & D2 & C2). rewrite H2. cbn [bind].
    rewrite D2, removelast_app2, Dl, last_app2.
    replace (vmappable (B ++ [n]) (B ++ [n; T])) with true
      by (symmetry; rewrite <- (app21 B n T); apply vmappable_app).
    replace (T =? 0) with false by (symmetry; apply Nat.eqb_neq; lia). cbn [negb guard bind].
    eexists. split; [reflexivity|]. split; [reflexivity|]. intros b I.
    unfold waypoint_update. rewrite F0, F1 by exact I. cbn [bind scenario s_log].
    rewrite (matrix_eq (b_log s) B n T b Dl I), (vector_eq v B n [] b D0 I), !tabulate_length, Nat.eqb_refl. cbn [andb guard bind].
    rewrite map3_tab. apply mapM_tab. intros i Hi. cbn [cell].
    rewrite C2 by (auto; lia). rewrite removelast_app2, (row_tab (b_log s) B n T b i Dl).
    destruct (cell v (b ++ [i])) as [sv ok]. cbn [fst snd].
    destruct (next_total inv default_time_delta (tabulate T (fun t => cell (b_log s) (b ++ [i; t])))
                (cell cur (b ++ [i; 0])) sv ok) as [p E].
    { intros E. apply (f_equal (@length pt)) in E. rewrite tabulate_length in E. cbn in E. lia. }
    rewrite E. reflexivity.
  Qed.

  Lemma idm_updates B n T p : 0 < T ->
    (lookahead_from_current_position p = false -> 1 <= max_lookahead p <= T) ->
    updates_of B n T (b_idm_policy p) (idm_policy p).
  Proof.
    intros HT Hp. apply waypoint_updates; auto. intros s [W _]. now apply (idm_update_eq p B n T).
  Qed.

  Lemma constant_updates B n T v : 0 < T -> updates_of B n T (b_constant_speed_policy v) (constant_speed_policy v).
  Proof.
    intros HT. apply waypoint_updates; auto. intros s [W _]. destruct W as (_ & Dl & Dm & _).
    unfold b_constant_update_speed, b_shape. rewrite Dm, removelast_app1, last_app1.
    eexists. split; [reflexivity|]. split; [reflexivity|]. intros b I. unfold constant_update_speed.
    cbn [scenario s_log]. rewrite (matrix_eq (b_log s) B n T b Dl I), map_tabulate.
    match goal with |- _ = Ok (vector ?x b) => rewrite (vector_eq x B n [] b eq_refl I) end. reflexivity.
  Qed.

  Lemma non_sdc_choice B n T : choice_of B n T b_control_non_sdc control_non_sdc.
  Proof.
    intros s (_ & _ & Dm & _). split; [exact Dm|]. intros b I. unfold b_control_non_sdc. now rewrite vector_amap.
  Qed.
  Lemma sdc_choice B n T : choice_of B n T b_control_sdc control_sdc.
  Proof.
    intros s (_ & _ & Dm & _). split; [exact Dm|]. intros b I. unfold b_control_sdc. now rewrite vector_amap.
  Qed.

  Context {P X XB K : Type}.
  Variable part : XB -> list nat -> X.

  Lemma sim_agent_of B n T (none : XB) none' bc c bu u :
    (forall b, inside B b -> part none b = none') -> choice_of B n T bc c -> updates_of B n T bu u ->
    agent_of (P := P) (K := K) part B n T (b_sim_agent none bc bu) (sim_agent none' c u).
  Proof.
    intros Hn Hc Hu. split.
    - intros k s R. exists none. split; [reflexivity|]. intros b I. cbn [sim_agent ac_init]. now rewrite Hn.
    - intros p s x k R. pose proof R as [W _]. destruct (Hu s R) as (us & H1 & D1 & F1).
      destruct (Hc s W) as (D2 & F2). cbn [b_sim_agent ba_select]. rewrite H1. cbn [bind].
      eexists. split; [reflexivity|]. cbn [bo_action bo_controlled bo_state].
      split; [split; [exact (drop_last_dims us B n 1 D1)|]; reflexivity|]. split; [exact D2|].
      intros b I. cbn [sim_agent ac_select]. rewrite F1 by exact I. cbn [bind].
      rewrite Hn, F2, vector_amap, (drop_last_vector us B n 1 b D1 I) by exact I. reflexivity.
  Qed.

  Lemma expert_agent_of B n T (none : XB) none' bc c bi i u : 0 < T ->
    (forall b, inside B b -> part none b = none') -> choice_of B n T bc c -> inverse_of B n 5 bi i ->
    agent_of (P := P) (K := K) part B n T (b_expert_actor none bi bc) (expert_actor none' (mkdyn u i) c).
  Proof.
    intros HT Hn Hc Hi. split.
    - intros k s R. exists none. split; [reflexivity|]. intros b I. cbn [expert_actor ac_init]. now rewrite Hn.
    - intros p s x k R. pose proof R as [W _]. destruct (b_expert_eq B n T 5 bi i s Hi R HT) as (acts & H1 & D1 & F1).
      destruct (Hc s W) as (D2 & F2). cbn [b_expert_actor ba_select]. rewrite H1. cbn [bind].
      eexists. split; [reflexivity|]. cbn [bo_action bo_controlled bo_state].
      split; [exact D1|]. split; [exact D2|].
      intros b I. cbn [expert_actor ac_select]. rewrite F1 by exact I. cbn [bind]. now rewrite Hn, F2.
  Qed.

  Lemma constant_agent_of B n T (none : XB) none' bc c bi i u speed : 0 < T ->
    (forall b, inside B b -> part none b = none') -> choice_of B n T bc c -> inverse_of B n 5 bi i ->
    agent_of (P := P) (K := K) part B n T (b_constant_speed_actor none bi bc speed)
      (constant_speed_actor none' (mkdyn u i) c speed).
  Proof.
    intros HT Hn Hc Hi. split.
    - intros k s R. exists none. split; [reflexivity|]. intros b I. cbn [constant_speed_actor ac_init]. now rewrite Hn.
    - intros p s x k R. pose proof R as [W Dt]. destruct (Hc s W) as (D2 & F2).
      destruct (b_current_eq1 B n T s W HT) as (cur & H1 & D1 & F1). destruct W as (_ & _ & Dm & _).
      cbn [b_constant_speed_actor ba_select]. unfold b_current_sim in H1. rewrite H1. cbn [bind].
      destruct (amap2_p1 (constant_speed_next speed) (bc s) cur B n 1 D2 D1) as (nx & H3 & D3 & C3). rewrite H3. cbn [bind].
      destruct (b_concat_eq cur nx B n 1 1 D1 D3) as (z & H4 & D4 & F4). rewrite H4. cbn [bind].
      destruct (Hi z (b_meta s) D4 Dm) as (acts & H5 & D5 & F5). rewrite H5. cbn [bind].
      eexists. split; [reflexivity|]. cbn [bo_action bo_controlled bo_state].
      split; [exact D5|]. split; [exact D2|]. intros b I. cbn [constant_speed_actor ac_select].
      pose proof (F1 b I) as F. unfold current_sim in F. rewrite F. cbn [bind].
      rewrite tabulate_length, <- F2, (vector_length (bc s) B n b D2 I), Nat.eqb_refl by exact I. cbn [guard bind d_inverse].
      match goal with |- context [i ?a _ _] => replace a with (matrix z b) end.
      + change (s_meta (scenario s b)) with (vector (b_meta s) b). rewrite F5 by exact I. cbn [bind]. now rewrite Hn.
      + rewrite F4 by exact I. rewrite (matrix_eq cur B n 1 b D1 I), (matrix_eq nx B n 1 b D3 I), map2_tab.
        rewrite (vector_eq (bc s) B n [] b D2 I), map2_tab. apply tabulate_ext. intros j Hj.
        unfold tabulate. cbn [seq map app]. now rewrite C3 by (auto; lia).
  Qed.
End Actors.
