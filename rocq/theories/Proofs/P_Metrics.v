(** Proofs for C25-C27 and the reductions used by the metrics. *)
From Coq Require Import Reals ZArith List Lia Lra Bool.
From Verif.Lib Require Import Base JaxIndex Scalar XR.
From Verif.Model Require Import Operations State Dynamics BaseEnv Geometry Discretizer Comfort Metrics.
From Verif.Spec Require Import StateSpec GeomSpec DynSpec DiscSpec MetricSpec.
From Verif.Proofs Require Import Core P_Delta P_Pose P_Overlap P_Discretizer P_DiscWrap.
Import ListNotations.

(* ---------------- overlap ---------------- *)
Section Overlap.
  Context {S : Scalar}.
  Local Open Scope nat_scope.

  Lemma dynamic_index_at n T (tr : traj) t cur :
    rect n T tr -> t < T -> dynamic_index tr (Z.of_nat t) = Ok cur ->
    length cur = n /\ forall i, i < n -> nth_error cur i = at2 tr i t.
  Proof.
    intros R HT H. destruct (dynamic_index_Ok n T tr _ _ R H) as [L A].
    rewrite norm_start_of_nat in A by lia. auto.
  Qed.

  Lemma existsb_filter {A} (f : A -> bool) l : (0 <? length (filter f l)) = existsb f l.
  Proof.
    induction l as [|a l IH]; [reflexivity|]. simpl. destruct (f a); simpl; auto.
  Qed.

  Lemma pairwise_nth (bs : list box) i j bi bj : nth_error bs i = Some bi -> nth_error bs j = Some bj ->
    exists row, nth_error (compute_pairwise_overlaps bs) i = Some row /\
      nth j row false = (if i =? j then false else has_overlap bi bj).
  Proof.
    intros Hi Hj. unfold compute_pairwise_overlaps. rewrite nth_error_mapi, Hi. simpl.
    eexists. split; [reflexivity|].
    apply nth_error_nth. rewrite nth_error_mapi, Hj. reflexivity.
  Qed.

  Lemma compute_overlap_spec (cur : list pt) j p : nth_error cur j = Some p ->
    exists b, nth_error (compute_overlap cur) j = Some (mkmres (fbool b) (p_valid p)) /\
      (b = true <-> exists i q, i <> j /\ nth_error cur i = Some q /\ p_valid q = true /\
         has_overlap (pt_box q) (pt_box p) = true).
  Proof.
    intros Hj. unfold compute_overlap. rewrite nth_error_mapi, Hj. simpl option_map.
    eexists. split; [reflexivity|].
    rewrite existsb_filter, existsb_exists. split.
    - intros (x & Hx & ->). apply In_nth_error in Hx as (i & Hi).
      rewrite nth_error_map2, nth_error_map in Hi.
      destruct (nth_error (compute_pairwise_overlaps (map pt_box cur)) i) as [row|] eqn:Er; [|discriminate].
      destruct (nth_error cur i) as [q|] eqn:Eq; [|discriminate]. simpl in Hi. injection Hi as Hi.
      apply andb_true_iff in Hi as [H1 H2].
      destruct (pairwise_nth (map pt_box cur) i j (pt_box q) (pt_box p)) as (row' & E1 & E2);
        [rewrite nth_error_map, Eq; reflexivity|rewrite nth_error_map, Hj; reflexivity|].
      rewrite Er in E1. injection E1 as <-. rewrite E2 in H1.
      destruct (Nat.eqb_spec i j); [discriminate|]. eauto 6.
    - intros (i & q & Hij & Eq & Hv & Ho).
      exists true. split; [|reflexivity].
      destruct (pairwise_nth (map pt_box cur) i j (pt_box q) (pt_box p)) as (row & E1 & E2);
        [rewrite nth_error_map, Eq; reflexivity|rewrite nth_error_map, Hj; reflexivity|].
      apply nth_error_In with i. rewrite nth_error_map2, nth_error_map, E1, Eq. simpl.
      rewrite E2, (proj2 (Nat.eqb_neq i j) Hij), Ho, Hv. reflexivity.
  Qed.

  Lemma overlap_metric n T s t ms j p :
    wf_state n T s -> s_t s = Z.of_nat t -> t < T -> overlap_compute s = Ok ms ->
    at2 (s_sim s) j t = Some p ->
    length ms = n /\
    exists b, nth_error ms j = Some (mkmres (fbool b) (p_valid p)) /\
      (b = true <-> exists i q, i <> j /\ at2 (s_sim s) i t = Some q /\ p_valid q = true /\
         has_overlap (pt_box q) (pt_box p) = true).
  Proof.
    intros (R & _ & _ & Hn & _) Ht HT H Hp. unfold overlap_compute in H. rewrite Ht in H.
    apply bind_Ok in H as (cur & Hc & H). injection H as <-.
    destruct (dynamic_index_at n T _ _ _ R HT Hc) as [L A].
    destruct (at2_Some_lt _ _ _ _ _ _ R Hp) as [Hj _].
    split; [unfold compute_overlap; rewrite mapi_length; auto|].
    destruct (compute_overlap_spec cur j p) as (b & E1 & E2); [rewrite A; auto|].
    exists b. split; [exact E1|]. rewrite E2. split.
    - intros (i & q & Hij & Hq & Hv & Ho). exists i, q. rewrite <- A; auto.
      rewrite <- L. eapply nth_error_Some_lt; eauto.
    - intros (i & q & Hij & Hq & Hv & Ho). exists i, q. rewrite A; auto.
      destruct (at2_Some_lt _ _ _ _ _ _ R Hq); auto.
  Qed.

  Lemma overlap_total n T s : wf_state n T s -> exists ms, overlap_compute s = Ok ms.
  Proof.
    intros (R & _ & _ & Hn & HT). unfold overlap_compute.
    destruct (dynamic_index_total n T (s_sim s) (s_t s) R HT) as [c ->]. simpl. eauto.
  Qed.
End Overlap.

Lemma pt_box_has (p : pt (S := XR)) b : has_box p b -> pt_box p = fbox b.
Proof. intros (E1 & E2 & E3 & E4 & E5). unfold pt_box, fbox. rewrite E1, E2, E3, E4, E5. reflexivity. Qed.

Open Scope R_scope.

(** Over the reals, with geometry. *)
Lemma overlap_metric_real n T (s : state (S := XR)) t ms j p (bx : nat -> rbox) :
  wf_state n T s -> s_t s = Z.of_nat t -> (t < T)%nat -> overlap_compute s = Ok ms ->
  (forall i q, at2 (s_sim s) i t = Some q -> has_box q (bx i)) ->
  at2 (s_sim s) j t = Some p ->
  let hit := exists i, i <> j /\ sim_valid s i t /\ exists c, interior (bx i) c /\ interior (bx j) c in
  exists v, nth_error ms j = Some (mkmres (Fin v) (p_valid p)) /\
    (hit -> v = 1) /\ (~ hit -> v = 0).
Proof.
  intros W Ht HT H HB Hp hit.
  destruct (overlap_metric n T s t ms j p W Ht HT H Hp) as (_ & b & E1 & E2).
  exists (if b then 1 else 0). split.
  { rewrite E1. destruct b; unfold fbool; rewrite ?f0_Fin, ?f1_Fin; reflexivity. }
  assert (EQ : b = true <-> hit).
  { rewrite E2. split.
    - intros (i & q & Hij & Hq & Hv & Ho). exists i. split; auto. split; [exists q; auto|].
      rewrite (pt_box_has _ _ (HB i q Hq)), (pt_box_has _ _ (HB j p Hp)) in Ho. now apply overlap_exact.
    - intros (i & Hij & (q & Hq & Hv) & Ho). exists i, q. repeat split; auto.
      rewrite (pt_box_has _ _ (HB i q Hq)), (pt_box_has _ _ (HB j p Hp)). now apply overlap_exact. }
  split; intros HH; destruct b; auto; [|exfalso; apply HH; now apply EQ].
  apply EQ in HH. discriminate.
Qed.

(** Two valid objects are reported together. *)
Lemma overlap_mutual n T (s : state (S := XR)) t ms i j p q :
  wf_state n T s -> s_t s = Z.of_nat t -> (t < T)%nat -> overlap_compute s = Ok ms -> i <> j ->
  at2 (s_sim s) i t = Some p -> at2 (s_sim s) j t = Some q ->
  p_valid p = true -> p_valid q = true -> has_overlap (pt_box p) (pt_box q) = true ->
  nth_error ms i = Some (mkmres (Fin 1) true) /\ nth_error ms j = Some (mkmres (Fin 1) true).
Proof.
  intros W Ht HT H Hij Hp Hq Vp Vq Ho.
  destruct (overlap_metric n T s t ms i p W Ht HT H Hp) as (_ & b & E1 & E2).
  destruct (overlap_metric n T s t ms j q W Ht HT H Hq) as (_ & b' & E1' & E2').
  assert (b = true) as ->. { apply E2. exists j, q. repeat split; auto. now rewrite overlap_sym. }
  assert (b' = true) as ->. { apply E2'. exists i, p. auto. }
  rewrite E1, E1', Vp, Vq. unfold fbool. rewrite f1_Fin. auto.
Qed.

(* ---------------- log divergence ---------------- *)

Lemma norm2_Fin a b : norm2 (S := XR) (Fin a) (Fin b) = Fin (sqrt (a * a + b * b)).
Proof. unfold norm2. xr. rewrite fsqrt_Fin; [reflexivity|nra]. Qed.

Lemma dist_zero c d : dist c d = 0 <-> c = d.
Proof.
  destruct c as [a b], d as [a' b']. unfold dist; cbn [fst snd]. split.
  - intros H. apply sqrt_eq_0 in H;
      [|apply Rplus_le_le_0_compat; apply Rle_0_sqr].
    destruct (Rplus_sqr_eq_0 (a - a') (b - b') H). f_equal; lra.
  - intros H. injection H as -> ->. replace (_ + _) with 0 by ring. apply sqrt_0.
Qed.

Lemma log_divergence_metric n T (s : state (S := XR)) t ms j p l c d :
  wf_state n T s -> s_t s = Z.of_nat t -> (t < T)%nat -> log_divergence_compute s = Ok ms ->
  at2 (s_sim s) j t = Some p -> at2 (s_log s) j t = Some l -> has_xy p c -> has_xy l d ->
  length ms = n /\
  nth_error ms j = Some (mkmres (Fin (dist c d)) (p_valid p && p_valid l)).
Proof.
  intros (R & RL & _ & Hn & _) Ht HT H Hp Hl [X1 X2] [Y1 Y2].
  unfold log_divergence_compute in H. rewrite Ht in H.
  apply bind_Ok in H as (cur & Hc & H). apply bind_Ok in H as (log & Hlg & H). injection H as <-.
  destruct (dynamic_index_at n T _ _ _ R HT Hc) as [L A].
  destruct (dynamic_index_at n T _ _ _ RL HT Hlg) as [L' A'].
  destruct (at2_Some_lt _ _ _ _ _ _ R Hp) as [Hj _].
  split; [rewrite map2_length, L, L'; apply Nat.min_id|].
  rewrite nth_error_map2, A, A', Hp, Hl by auto.
  assert (E : log_divergence (S := XR) p l = Fin (dist c d)).
  { unfold log_divergence. rewrite X1, X2, Y1, Y2. rewrite (fsub_Fin (fst c)), (fsub_Fin (snd c)).
    rewrite norm2_Fin. reflexivity. }
  cbv beta iota. rewrite <- E. reflexivity.
Qed.

(** For every number type: validity and which frames are read. *)
Lemma log_divergence_frames {S : Scalar} n T s t ms j p l :
  wf_state n T s -> s_t s = Z.of_nat t -> (t < T)%nat -> log_divergence_compute s = Ok ms ->
  at2 (s_sim s) j t = Some p -> at2 (s_log s) j t = Some l ->
  exists v, nth_error ms j = Some (mkmres v (p_valid p && p_valid l)).
Proof.
  intros (R & RL & _ & Hn & _) Ht HT H Hp Hl.
  unfold log_divergence_compute in H. rewrite Ht in H.
  apply bind_Ok in H as (cur & Hc & H). apply bind_Ok in H as (log & Hlg & H). injection H as <-.
  destruct (dynamic_index_at n T _ _ _ R HT Hc) as [L A].
  destruct (dynamic_index_at n T _ _ _ RL HT Hlg) as [L' A'].
  destruct (at2_Some_lt _ _ _ _ _ _ R Hp) as [Hj _].
  rewrite nth_error_map2, A, A', Hp, Hl by auto. eauto.
Qed.

Lemma log_divergence_total {S : Scalar} n T s : wf_state n T s ->
  exists ms, log_divergence_compute s = Ok ms.
Proof.
  intros (R & RL & _ & Hn & HT). unfold log_divergence_compute.
  destruct (dynamic_index_total n T (s_sim s) (s_t s) R HT) as [c ->]. simpl.
  destruct (dynamic_index_total n T (s_log s) (s_t s) RL HT) as [d ->]. simpl. eauto.
Qed.

(* ---------------- argmin and min over extended reals ---------------- *)

(** Distances: finite or +inf. *)
Definition okd (x : xr) : Prop := match x with Fin _ | PInf => True | _ => False end.

Lemma min_before_okd x y : okd x -> okd y -> min_before (S := XR) x y = xltb x y.
Proof.
  intros Hx Hy. unfold min_before. change (fltb (Scalar := XR) x y) with (xltb x y).
  assert (N : fisnan (S := XR) x = false).
  { destruct x; try contradiction; unfold fisnan; [|reflexivity].
    rewrite feqb_Fin. assert (Reqb r r = true) as -> by now apply Reqb_true. reflexivity. }
  rewrite N. simpl. now rewrite orb_false_r.
Qed.

Lemma xlt_le_trans x y z : okd x -> okd y -> okd z -> xltb x y = true -> xltb z y = false -> xltb x z = true.
Proof.
  destruct x, y, z; simpl; try contradiction; try discriminate; auto; intros _ _ _ H1 H2.
  apply Rltb_true in H1. apply Rltb_false in H2. apply Rltb_true. lra.
Qed.
Lemma xlt_asym x y : okd x -> okd y -> xltb x y = true -> xltb y x = false.
Proof.
  destruct x, y; simpl; try contradiction; try discriminate; auto; intros _ _ H1.
  apply Rltb_true in H1. apply Rltb_false. lra.
Qed.
Lemma xle_trans x y z : okd x -> okd y -> okd z -> xltb y x = false -> xltb z y = false -> xltb z x = false.
Proof.
  destruct x, y, z; simpl; try contradiction; try discriminate; auto; intros _ _ _ H1 H2.
  apply Rltb_false in H1, H2. apply Rltb_false. lra.
Qed.
Lemma xlt_irrefl x : xltb x x = false.
Proof. destruct x; simpl; auto. apply Rltb_false. lra. Qed.

Lemma argmin_from_okd (l : list xr) best bi i pre :
  (okd best -> Forall okd l -> Forall okd pre -> i = length pre -> bi < i -> nth_error pre bi = Some best ->
   (forall j r, nth_error pre j = Some r -> xltb r best = false /\ (j < bi -> xltb best r = true)) ->
   exists r, nth_error (pre ++ l) (argmin_from (S := XR) best bi i l) = Some r /\
     forall j r', nth_error (pre ++ l) j = Some r' ->
       xltb r' r = false /\ (j < argmin_from (S := XR) best bi i l -> xltb r r' = true))%nat.
Proof.
  revert best bi i pre. induction l as [|x l IH]; intros best bi i pre Ob Ol Op Li Lb Nb M.
  - rewrite app_nil_r. simpl. eauto.
  - inversion Ol as [|? ? Ox Ol']; subst x0 l0.
    assert (Eapp : pre ++ x :: l = (pre ++ [x]) ++ l) by (rewrite <- app_assoc; reflexivity).
    assert (Enew : nth_error (pre ++ [x]) i = Some x).
    { rewrite nth_error_app2 by lia. replace (i - length pre)%nat with 0%nat by lia. reflexivity. }
    assert (Op' : Forall okd (pre ++ [x])) by (apply Forall_app; auto).
    simpl argmin_from. rewrite (min_before_okd x best) by auto. destruct (xltb x best) eqn:E.
    + rewrite Eapp. apply IH; auto.
      * rewrite app_length; simpl; lia.
      * intros j r Hj. destruct (Nat.lt_ge_cases j (length pre)) as [J|J].
        -- rewrite nth_error_app1 in Hj by auto. destruct (M j r Hj) as [M1 M2].
           assert (Or : okd r) by (rewrite Forall_forall in Op; apply Op; eapply nth_error_In; eauto).
           assert (xltb x r = true) by (apply (xlt_le_trans x best r); auto).
           split; auto. apply xlt_asym; auto.
        -- rewrite nth_error_app2 in Hj by auto. destruct (j - length pre)%nat as [|q] eqn:Q;
             [|destruct q; discriminate]. injection Hj as <-. split; [apply xlt_irrefl|intros; lia].
    + rewrite Eapp. apply IH; auto.
      * rewrite app_length; simpl; lia.
      * rewrite nth_error_app1 by lia. exact Nb.
      * intros j r Hj. destruct (Nat.lt_ge_cases j (length pre)) as [J|J].
        -- rewrite nth_error_app1 in Hj by auto. auto.
        -- rewrite nth_error_app2 in Hj by auto. destruct (j - length pre)%nat as [|q] eqn:Q;
             [|destruct q; discriminate]. injection Hj as <-. split; [auto|intros; lia].
Qed.

Lemma argmin_okd (l : list xr) : l <> [] -> Forall okd l ->
  exists r, nth_error l (argmin (S := XR) l) = Some r /\
    forall j r', nth_error l j = Some r' ->
      xltb r' r = false /\ ((j < argmin (S := XR) l)%nat -> xltb r r' = true).
Proof.
  destruct l as [|x l]; [congruence|]. intros _ O. inversion O; subst.
  apply (argmin_from_okd l x 0 1 [x]); auto.
  intros [|j] r Hj; [|destruct j; discriminate]. injection Hj as <-. split; [apply xlt_irrefl|lia].
Qed.

Lemma fminl_okd (l : list xr) x : okd x -> Forall okd l ->
  okd (fminl (S := XR) x l) /\ In (fminl (S := XR) x l) (x :: l) /\
  forall y, In y (x :: l) -> xltb y (fminl (S := XR) x l) = false.
Proof.
  revert x. induction l as [|z l IH]; intros x Ox Ol.
  - simpl. split; auto. split; auto. intros y [<-|[]]. apply xlt_irrefl.
  - inversion Ol as [|? ? Oz Ol']; subst.
    assert (K : (xmin x z = x \/ xmin x z = z) /\ xltb x (xmin x z) = false /\ xltb z (xmin x z) = false /\ okd (xmin x z)).
    { destruct x, z; simpl in *; try contradiction; rewrite ?Rltb_false;
        try (unfold Rmin; destruct (Rle_dec r r0)); repeat split; auto; lra. }
    destruct K as (K1 & K2 & K3 & K4).
    change (fminl (S := XR) x (z :: l)) with (fminl (S := XR) (xmin x z) l).
    destruct (IH (xmin x z) K4 Ol') as (I1 & I2 & I3).
    set (m := fminl (S := XR) (xmin x z) l) in *.
    assert (Lm : xltb (xmin x z) m = false) by (apply I3; now left).
    split; auto. split.
    + destruct I2 as [I2|I2]; [|right; now right]. rewrite <- I2. destruct K1 as [-> | ->]; [now left|right; now left].
    + intros y [<- | [<- | Hy]].
      * eapply (xle_trans m (xmin x z) x); auto.
      * eapply (xle_trans m (xmin x z) z); auto.
      * apply I3. now right.
Qed.

Lemma jmin_okd (l : list xr) : l <> [] -> Forall okd l ->
  exists m, jmin (S := XR) l = Ok m /\ okd m /\ In m l /\ forall y, In y l -> xltb y m = false.
Proof.
  destruct l as [|x l]; [congruence|]. intros _ O. inversion O; subst.
  destruct (fminl_okd l x) as (A & B & C); auto. eexists. split; [reflexivity|]. auto.
Qed.

(* ---------------- off-road ---------------- *)

Lemma offroad_always_valid {S : Scalar} s ms : offroad_compute s = Ok ms ->
  Forall (fun m => mr_valid m = true /\ (mr_value m = f0 \/ mr_value m = f1)) ms.
Proof.
  intros H. unfold offroad_compute in H. apply bind_Ok in H as (cur & _ & H).
  destruct (s_rg s) as [rg|]; [|discriminate].
  eapply mapM_Forall; [exact H|]. intros p m _ Hm. apply bind_Ok in Hm as (b & _ & Hm). injection Hm as <-.
  simpl. split; auto. destruct b; auto.
Qed.

Lemma is_road_edge_iff ty : is_road_edge ty = true <-> ty = 15%Z \/ ty = 16%Z.
Proof. unfold is_road_edge. rewrite orb_true_iff, !Z.eqb_eq. tauto. Qed.

Lemma classic_edge e : is_edge e \/ ~ is_edge e.
Proof.
  unfold is_edge. destruct (re_valid e), (is_road_edge (re_type e)) eqn:E.
  - left. split; auto. now apply is_road_edge_iff.
  - right. intros [_ H]. apply is_road_edge_iff in H. congruence.
  - right. intros [H _]. discriminate.
  - right. intros [H _]. discriminate.
Qed.

Lemma edge_sq_dist_Fin qx qy qz e :
  (is_edge e -> edge_sq_dist (S := XR) (Fin qx, Fin qy, Fin qz) (fedge e) = Fin (stretched (qx, qy, qz) (re_p e))) /\
  (~ is_edge e -> edge_sq_dist (S := XR) (Fin qx, Fin qy, Fin qz) (fedge e) = PInf).
Proof.
  destruct e as [[[px py] pz] [[dx dy] dz] ty id v].
  unfold is_edge, edge_sq_dist, fedge; cbn [re_p re_d re_type re_id re_valid rg_valid rg_type rg_x rg_y rg_z].
  rewrite <- is_road_edge_iff. split.
  - intros [-> ->]. simpl andb. cbv iota. xr. f_equal. unfold stretched. ring.
  - intros H. destruct v, (is_road_edge ty); simpl andb; cbv iota; try reflexivity. exfalso; auto.
Qed.

Lemma fsign_pos n x : 0 <= n -> (x <> 0 -> 0 < n) ->
  fltb (Scalar := XR) f0 (fmul (Fin n) (fsign (Fin x))) = true <-> 0 < x.
Proof.
  intros Hn Hx. unfold fsign. xr.
  destruct (Rltb 0 x) eqn:E1.
  - apply Rltb_true in E1. xr. rewrite Rltb_true. specialize (Hx ltac:(lra)). split; auto. intros. nra.
  - apply Rltb_false in E1. destruct (Rltb x 0) eqn:E2.
    + apply Rltb_true in E2. xr. rewrite Rltb_true. split; [nra|lra].
    + apply Rltb_false in E2. assert (x = 0) as -> by lra.
      assert (Reqb 0 0 = true) as -> by now apply Reqb_true. xr. rewrite Rltb_true. split; [nra|lra].
Qed.

Lemma Some_inj {A} (x y : A) : Some x = Some y -> x = y.
Proof. congruence. Qed.
Lemma Ok_inj {A} (x y : A) : Ok x = Ok y -> x = y.
Proof. congruence. Qed.

Lemma signed_distance_pos (es : list redge) qx qy qz d :
  (exists e, In e es /\ is_edge e) ->
  signed_distance (S := XR) (map fedge es) (Fin qx, Fin qy, Fin qz) = Ok d ->
  (fltb (Scalar := XR) f0 d = true <-> off_road es (qx, qy, qz)).
Proof.
  set (q := (qx, qy, qz)).
  intros (e0 & He0 & Ee0) H. unfold signed_distance in H.
  apply bind_Ok in H as (u & _ & H). clear u.
  set (fq := (Fin qx, Fin qy, Fin qz) : xr * xr * xr) in *.
  set (ds := map (edge_sq_dist (S := XR) fq) (map fedge es)) in *.
  assert (Ods : Forall okd ds).
  { apply Forall_forall. intros x Hx. unfold ds in Hx. rewrite map_map in Hx.
    apply in_map_iff in Hx as (e & <- & _). destruct (edge_sq_dist_Fin qx qy qz e) as [A B]. fold q fq in A, B.
    destruct (classic_edge e) as [E|E]; [rewrite A by auto|rewrite B by auto]; exact I. }
  assert (Nds : ds <> []).
  { unfold ds. destruct es; [destruct He0|discriminate]. }
  destruct (argmin_okd ds Nds Ods) as (r & Hr & HM). set (k := argmin (S := XR) ds) in *.
  unfold ds in Hr. rewrite !nth_error_map in Hr.
  destruct (nth_error es k) as [e|] eqn:Ek; [|discriminate]. cbn [option_map] in Hr. apply Some_inj in Hr.
  (* the minimiser is a road edge *)
  assert (Ee : is_edge e).
  { destruct (classic_edge e) as [E|E]; auto. exfalso.
    destruct (edge_sq_dist_Fin qx qy qz e) as [_ B]. fold q fq in B. rewrite B in Hr by auto. subst r.
    apply In_nth_error in He0 as (j & Hj).
    destruct (edge_sq_dist_Fin qx qy qz e0) as [A _]. fold q fq in A.
    specialize (HM j (Fin (stretched q (re_p e0)))). unfold ds in HM.
    rewrite !nth_error_map, Hj in HM. cbn [option_map] in HM. rewrite A in HM by auto.
    destruct (HM eq_refl) as [HM1 _]. discriminate. }
  destruct (edge_sq_dist_Fin qx qy qz e) as [A _]. fold q fq in A. rewrite A in Hr by auto. subst r.
  assert (Lk : (k < length es)%nat) by (eapply nth_error_Some_lt; eauto).
  destruct (nth_error_lt_Some es (k - 1)) as [ep Ep]; [lia|].
  assert (N1 : nth k (map fedge es) zero_rg = fedge e).
  { apply nth_error_nth. now rewrite nth_error_map, Ek. }
  assert (N2 : nth (k - 1) (map fedge es) zero_rg = fedge ep).
  { apply nth_error_nth. now rewrite nth_error_map, Ep. }
  rewrite N1, N2 in H.
  (* characterisation of off_road *)
  assert (OR : off_road es q <-> right_of q (re_p e) (re_d e) /\ (re_id e = re_id ep -> right_of q (re_p e) (re_d ep))).
  { split.
    - intros (k' & e' & ep' & Ek' & Ep' & Ee' & HM' & R1 & R2).
      assert (k' = k).
      { assert (M1 := HM' k e Ek Ee).
        assert (D' : nth_error ds k' = Some (Fin (stretched q (re_p e')))).
        { unfold ds. rewrite !nth_error_map, Ek'. cbn [option_map]. destruct (edge_sq_dist_Fin qx qy qz e') as [A' _]. fold q fq in A'.
          now rewrite A' by auto. }
        destruct (HM k' _ D') as [M2 M3]. cbn [xltb] in M2, M3. apply Rltb_false in M2.
        destruct (Nat.lt_trichotomy k' k) as [L|[L|L]]; auto.
        - specialize (M3 L). apply Rltb_true in M3. lra.
        - destruct M1 as [_ M1]. specialize (M1 L). lra. }
      subst k'. rewrite Ek in Ek'. injection Ek' as <-. rewrite Ep in Ep'. injection Ep' as <-. auto.
    - intros [R1 R2]. exists k, e, ep. repeat split; auto; try apply Ee.
      + intros. destruct (edge_sq_dist_Fin qx qy qz e') as [A' _]. fold q fq in A'.
        assert (D' : nth_error ds j = Some (Fin (stretched q (re_p e')))).
        { unfold ds. rewrite !nth_error_map, H0. cbn [option_map]. now rewrite A' by auto. }
        destruct (HM j _ D') as [M2 M3]. cbn [xltb] in M2. now apply Rltb_false in M2.
      + intros. destruct (edge_sq_dist_Fin qx qy qz e') as [A' _]. fold q fq in A'.
        assert (D' : nth_error ds j = Some (Fin (stretched q (re_p e')))).
        { unfold ds. rewrite !nth_error_map, H0. cbn [option_map]. now rewrite A' by auto. }
        destruct (HM j _ D') as [M2 M3]. cbn [xltb] in M3. apply Rltb_true. auto. }
  rewrite OR. clear OR HM A Ods Nds.
  subst fq q.
  destruct e as [[[px py] pz] [[dx dy] dz] ty id v]. destruct ep as [[[px' py'] pz'] [[dx' dy'] dz'] ty' id' v'].
  unfold fedge in H; cbn [re_p re_d re_type re_id re_valid rg_x rg_y rg_dx rg_dy rg_id] in H.
  unfold cross2 in H. cbn [fst snd] in H. autorewrite with xr in H. rewrite norm2_Fin in H.
  injection H as <-. unfold right_of; cbn [re_p re_d re_id].
  set (c := (qx - px) * dy - (qy - py) * dx). set (cp := (qx - px) * dy' - (qy - py) * dx').
  set (nn := sqrt ((px - qx) * (px - qx) + (py - qy) * (py - qy))).
  assert (Hnn : 0 <= nn) by apply sqrt_pos.
  assert (Pos : px <> qx \/ py <> qy -> 0 < nn).
  { intros HH. apply sqrt_lt_R0. destruct HH.
    - apply Rplus_lt_le_0_compat; [apply Rsqr_pos_lt; lra|apply Rle_0_sqr].
    - apply Rplus_le_lt_0_compat; [apply Rle_0_sqr|apply Rsqr_pos_lt; lra]. }
  assert (Pc : c <> 0 -> 0 < nn).
  { intros HH. apply Pos. destruct (Req_EM_T px qx); auto. destruct (Req_EM_T py qy); auto.
    exfalso. apply HH. unfold c. subst. ring. }
  assert (Pcp : cp <> 0 -> 0 < nn).
  { intros HH. apply Pos. destruct (Req_EM_T px qx); auto. destruct (Req_EM_T py qy); auto.
    exfalso. apply HH. unfold cp. subst. ring. }
  destruct (Z.eqb_spec id id') as [Eid|Eid]; simpl andb.
  - destruct (Rltb cp c) eqn:Ec; cbv iota.
    + apply Rltb_true in Ec. rewrite (fsign_pos nn cp) by auto. split; intros; [|tauto].
      split; [lra|auto].
    + apply Rltb_false in Ec. rewrite (fsign_pos nn c) by auto. split; intros; [|tauto].
      split; [auto|intros; lra].
  - rewrite (fsign_pos nn c) by auto. split; intros; [|tauto]. split; [auto|contradiction].
Qed.

Lemma signed_distance_total {S : Scalar} rg q : rg <> [] -> exists d, signed_distance rg q = Ok d.
Proof.
  intros H. unfold signed_distance. destruct rg; [congruence|]. simpl. destruct q as [[? ?] ?]. eauto.
Qed.

Lemma corner_of_list b c :
  In c [ rpoint b (rlen b / 2) (- (rwid b / 2)); rpoint b (rlen b / 2) (rwid b / 2);
         rpoint b (- (rlen b / 2)) (rwid b / 2); rpoint b (- (rlen b / 2)) (- (rwid b / 2)) ]
  <-> corner_of b c.
Proof.
  split.
  - intros [<-|[<-|[<-|[<-|[]]]]]; eexists; eexists; repeat split; auto.
  - intros (u & v & [-> | ->] & [-> | ->] & ->); simpl; auto.
Qed.

Lemma offroad_metric n T (s : state (S := XR)) t es ms j p b z :
  wf_state n T s -> s_t s = Z.of_nat t -> (t < T)%nat -> s_rg s = Some (map fedge es) ->
  (exists e, In e es /\ is_edge e) ->
  offroad_compute s = Ok ms -> at2 (s_sim s) j t = Some p -> has_box p b -> p_z p = Fin z ->
  let off := exists c, corner_of b c /\ off_road es (c, z) in
  exists v, nth_error ms j = Some (mkmres (Fin v) true) /\ (off -> v = 1) /\ (~ off -> v = 0).
Proof.
  intros (R & RL & _ & Hn & _) Ht HT Hrg HE H Hp Hb Hz off.
  unfold offroad_compute in H. rewrite Ht, Hrg in H.
  apply bind_Ok in H as (cur & Hc & H).
  destruct (dynamic_index_at n T _ _ _ R HT Hc) as [L A].
  destruct (at2_Some_lt _ _ _ _ _ _ R Hp) as [Hj _].
  rewrite <- A in Hp by auto.
  destruct (mapM_nth _ _ _ _ _ H Hp) as (m & Hm & Hn'). rewrite Hn'. clear H Hn'.
  apply bind_Ok in Hm as (o & Ho & Hm). apply Ok_inj in Hm. subst m.
  unfold is_offroad1 in Ho. apply bind_Ok in Ho as (ds & Hds & Ho). apply Ok_inj in Ho. symmetry in Ho.
  exists (if o then 1 else 0). split.
  { unfold fbool. destruct o; rewrite ?f0_Fin, ?f1_Fin; reflexivity. }
  unfold bbox_corners in Hds. rewrite (pt_box_has _ _ Hb), corners_Fin, Hz in Hds.
  set (cs := [ rpoint b (rlen b / 2) (- (rwid b / 2)); rpoint b (rlen b / 2) (rwid b / 2);
         rpoint b (- (rlen b / 2)) (rwid b / 2); rpoint b (- (rlen b / 2)) (- (rwid b / 2)) ]) in *.
  assert (E1 : fmul (Scalar := XR) f1 (Fin z) = Fin z) by (xr; f_equal; ring).
  rewrite E1 in Hds.
  assert (EQ : o = true <-> off).
  { rewrite Ho, existsb_exists. split.
    - intros (d & Hd & Hpos). apply In_nth_error in Hd as (k & Hk).
      pose proof (nth_error_Some_lt _ _ _ Hk) as Lk. rewrite (mapM_length _ _ _ Hds), map_length in Lk.
      destruct (nth_error_lt_Some cs k Lk) as [c Hc'].
      assert (Hf : nth_error (map finv cs) k = Some (finv c)) by (rewrite nth_error_map, Hc'; reflexivity).
      destruct (mapM_nth _ _ _ _ _ Hds Hf) as (d' & Hd' & Hk'). rewrite Hk in Hk'. injection Hk' as <-.
      exists c. split; [apply corner_of_list; eapply nth_error_In; eauto|].
      destruct c as [cx cy]. apply (signed_distance_pos es cx cy z d HE); auto.
    - intros (c & Hc' & Hoff). apply corner_of_list in Hc'. fold cs in Hc'.
      apply In_nth_error in Hc' as (k & Hk).
      assert (Hf : nth_error (map finv cs) k = Some (finv c)) by (rewrite nth_error_map, Hk; reflexivity).
      destruct (mapM_nth _ _ _ _ _ Hds Hf) as (d & Hd & Hk').
      exists d. split; [eapply nth_error_In; eauto|].
      destruct c as [cx cy]. apply (signed_distance_pos es cx cy z d HE); auto. }
  split; intros HH; destruct o; auto; [|exfalso; apply HH; now apply EQ].
  apply EQ in HH. discriminate.
Qed.
