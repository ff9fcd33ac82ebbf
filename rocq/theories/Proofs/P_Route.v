(** Proofs for C28: metrics about the SDC and its route. *)
From Coq Require Import Reals ZArith List Lia Lra Bool.
From Verif.Lib Require Import Base JaxIndex Scalar XR.
From Verif.Model Require Import Operations State Dynamics BaseEnv Geometry Discretizer Comfort Metrics.
From Verif.Spec Require Import StateSpec GeomSpec DynSpec DiscSpec MetricSpec.
From Verif.Proofs Require Import Core P_Metrics P_DiscWrap.
Import ListNotations.
Open Scope R_scope.

(* ---------------- one-hot selection ---------------- *)

Lemma onehot_none (data : list R) (sel : list bool) a :
  (forall j, nth_error sel j = Some true -> False) ->
  fold_left (fadd (Scalar := XR)) (map2 (fun x (b : bool) => fmul (Scalar := XR) x (fbool b)) (map Fin data) sel) (Fin a) = Fin a.
Proof.
  revert sel a. induction data as [|x data IH]; intros [|b sel] a H; try reflexivity.
  cbn [map map2 fold_left]. destruct b; [exfalso; apply (H 0%nat); reflexivity|].
  unfold fbool at 2. rewrite f0_Fin, fmul_Fin, fadd_Fin.
  replace (a + x * 0) with a by ring. apply IH. intros j. apply (H (S j)).
Qed.

Lemma onehot_sum (data : list R) (sel : list bool) a i x :
  nth_error data i = Some x -> nth_error sel i = Some true ->
  (forall j, nth_error sel j = Some true -> j = i) ->
  fold_left (fadd (Scalar := XR)) (map2 (fun x (b : bool) => fmul (Scalar := XR) x (fbool b)) (map Fin data) sel) (Fin a) = Fin (a + x).
Proof.
  revert sel a i. induction data as [|y data IH]; intros [|b sel] a [|i] Hd Hs U; try discriminate.
  - injection Hd as ->. injection Hs as ->.
    cbn [map map2 fold_left]. unfold fbool at 2. rewrite f1_Fin, fmul_Fin, fadd_Fin, Rmult_1_r.
    apply onehot_none. intros j Hj. specialize (U (S j) Hj). discriminate.
  - cbn [map map2 fold_left]. destruct b; [specialize (U 0%nat eq_refl); discriminate|].
    unfold fbool at 2. rewrite f0_Fin, fmul_Fin, fadd_Fin.
    replace (a + y * 0) with a by ring. apply IH with i; auto.
    intros j Hj. specialize (U (S j) Hj). lia.
Qed.

Lemma Fin_list (l : list xr) : (forall x, In x l -> exists r, x = Fin r) -> exists rs, l = map Fin rs.
Proof.
  induction l as [|x l IH]; intros H; [exists []; reflexivity|].
  destruct (H x (or_introl eq_refl)) as [r ->]. destruct IH as [rs ->]; [intros; apply H; now right|].
  exists (r :: rs). reflexivity.
Qed.

Lemma select_onehot_Fin (data : list xr) (ms : list meta) i x :
  length data = length ms -> the_sdc ms i -> (forall y, In y data -> exists r, y = Fin r) ->
  nth_error data i = Some (Fin x) ->
  select_by_onehot (S := XR) data (map m_is_sdc ms) = Ok (Fin x).
Proof.
  intros L ((m & Hm & Sm) & U) HF Hx. destruct (Fin_list data HF) as [rs ->].
  unfold select_by_onehot. change (@length (@F XR)) with (@length xr). rewrite L, map_length, Nat.eqb_refl. cbn [guard bind].
  unfold fsum. rewrite f0_Fin. f_equal.
  rewrite nth_error_map in Hx. destruct (nth_error rs i) as [r|] eqn:E; [|discriminate].
  injection Hx as ->. rewrite <- (Rplus_0_l x). apply onehot_sum with i; auto.
  - rewrite nth_error_map, Hm. simpl. now rewrite Sm.
  - intros j Hj. rewrite nth_error_map in Hj. destruct (nth_error ms j) as [mj|] eqn:Ej; [|discriminate].
    injection Hj as Hj. eauto.
Qed.

Lemma select_onehot_b (data : list bool) (ms : list meta) i b :
  length data = length ms -> the_sdc ms i -> nth_error data i = Some b ->
  select_by_onehot_b data (map m_is_sdc ms) = Ok b.
Proof.
  intros L ((m & Hm & Sm) & U) Hb. unfold select_by_onehot_b.
  rewrite map_length, L, Nat.eqb_refl. cbn [guard bind]. f_equal.
  apply eq_true_iff_eq. rewrite existsb_exists. split.
  - intros (x & Hx & ->). apply In_nth_error in Hx as (k & Hk).
    rewrite nth_error_map2, nth_error_map in Hk.
    destruct (nth_error data k) as [d|] eqn:Ed; [|discriminate].
    destruct (nth_error ms k) as [mk|] eqn:Em; [|discriminate]. simpl in Hk. injection Hk as Hk.
    apply andb_true_iff in Hk as [-> Hk]. rewrite (U k mk Em Hk) in Ed. congruence.
  - intros ->. exists true. split; auto. apply nth_error_In with i.
    rewrite nth_error_map2, nth_error_map, Hb, Hm. simpl. now rewrite Sm.
Qed.

Section Frame.
  Variables (n T : nat) (tr : traj (S := XR)) (ms : list meta) (frame : list (pt (S := XR)))
    (t i : nat) (p : pt (S := XR)) (c : R * R).
  Hypotheses (RT : rect n T tr) (LM : length ms = n) (LF : length frame = n)
    (NF : forall j, (j < n)%nat -> nth_error frame j = at2 tr j t)
    (SD : the_sdc ms i) (FX : finite_xy tr t) (Hp : at2 tr i t = Some p) (Hc : has_xy p c).

  Lemma frame_in q : In q frame -> exists d, has_xy q d.
  Proof.
    intros H. apply In_nth_error in H as (j & Hj).
    pose proof (nth_error_Some_lt _ _ _ Hj). rewrite NF in Hj by lia. eauto.
  Qed.
  Lemma frame_p : nth_error frame i = Some p.
  Proof. rewrite NF; auto. destruct (at2_Some_lt _ _ _ _ _ _ RT Hp); auto. Qed.

  Lemma sdc_xy_Fin : sdc_xy (S := XR) frame ms = Ok (Fin (fst c), Fin (snd c)).
  Proof.
    destruct Hc as [X Y]. pose proof frame_p as P. unfold sdc_xy.
    rewrite (select_onehot_Fin _ ms i (fst c)); auto; [| | |].
    - cbn [bind]. rewrite (select_onehot_Fin _ ms i (snd c)); auto.
      + rewrite map_length. lia.
      + intros y H. apply in_map_iff in H as (q & <- & Hq). apply frame_in in Hq as (d & _ & H). eauto.
      + rewrite nth_error_map, P. simpl. now rewrite Y.
    - rewrite map_length. lia.
    - intros y H. apply in_map_iff in H as (q & <- & Hq). apply frame_in in Hq as (d & H & _). eauto.
    - rewrite nth_error_map, P. simpl. now rewrite X.
  Qed.

  Lemma sdc_valid_eq : sdc_valid frame ms = Ok (p_valid p).
  Proof.
    apply select_onehot_b with i; auto.
    - rewrite map_length. lia.
    - rewrite nth_error_map, frame_p. reflexivity.
  Qed.
End Frame.

Lemma path_dist_Fin x (q : pathpt (S := XR)) c : path_xy q c ->
  path_dist (S := XR) (Fin (fst x), Fin (snd x)) q = Fin (dist x c).
Proof.
  intros [X Y]. unfold path_dist. cbn [fst snd]. rewrite X, Y, !fsub_Fin, norm2_Fin. reflexivity.
Qed.

(* ---------------- minimum over selected finite points ---------------- *)

(** A list of candidate distances: for the selected points their distance, for
    the others +inf. *)
Definition cand (l : list xr) (P : R * R -> Prop) (x : R * R) : Prop :=
  Forall okd l /\
  (forall r, In (Fin r) l -> exists c, P c /\ dist x c = r) /\
  (forall c, P c -> In (Fin (dist x c)) l).

Lemma cand_min l P x m : cand l P x -> jmin (S := XR) l = Ok m ->
  (m = PInf /\ ~ exists c, P c) \/ (exists d, m = Fin d /\ nearest_dist P x d).
Proof.
  intros (O & A & B) H. assert (N : l <> []) by (intros ->; discriminate).
  destruct (jmin_okd l N O) as (m' & E & Om & Im & Lm). rewrite H in E. apply Ok_inj in E. subst m'.
  destruct m as [d| | |]; try contradiction.
  - right. exists d. split; auto. split; [auto|].
    intros c Pc. apply B, Lm in Pc. cbn [xltb] in Pc. now apply Rltb_false in Pc.
  - left. split; auto. intros (c & Pc). apply B, Lm in Pc. discriminate.
Qed.

Lemma cand_flat (paths : list (path (S := XR))) (f : path (S := XR) -> pathpt (S := XR) -> xr) sel P x :
  finite_paths paths ->
  (forall pa q c, In pa paths -> In q (path_pts pa) -> path_xy q c -> sel pa q = true -> f pa q = Fin (dist x c)) ->
  (forall pa q, In pa paths -> In q (path_pts pa) -> sel pa q = false -> f pa q = PInf) ->
  (forall c, P c <-> exists pa q, In pa paths /\ In q (path_pts pa) /\ sel pa q = true /\ path_xy q c) ->
  cand (flat_map (fun pa => map (f pa) (path_pts pa)) paths) P x.
Proof.
  intros FP H1 H2 HP. repeat split.
  - apply Forall_forall. intros y Hy. apply in_flat_map in Hy as (pa & Hpa & Hy).
    apply in_map_iff in Hy as (q & <- & Hq). destruct (FP pa q Hpa Hq) as [c Hc].
    destruct (sel pa q) eqn:E; [rewrite (H1 pa q c)|rewrite (H2 pa q)]; auto; exact I.
  - intros r Hr. apply in_flat_map in Hr as (pa & Hpa & Hy).
    apply in_map_iff in Hy as (q & Hf & Hq). destruct (FP pa q Hpa Hq) as [c Hc].
    destruct (sel pa q) eqn:E; [|rewrite H2 in Hf by auto; discriminate].
    rewrite (H1 pa q c) in Hf by auto. injection Hf as Hf. exists c. split; auto. apply HP. eauto 6.
  - intros c Pc. apply HP in Pc as (pa & q & Hpa & Hq & E & Hc).
    apply in_flat_map. exists pa. split; auto. apply in_map_iff. exists q. split; auto.
Qed.

(* ---------------- wrong way ---------------- *)

Lemma wrongway_metric n T (s : state (S := XR)) t i p x paths m :
  wf_state n T s -> s_t s = Z.of_nat t -> (t < T)%nat -> the_sdc (s_meta s) i ->
  finite_xy (s_sim s) t -> at2 (s_sim s) i t = Some p -> has_xy p x ->
  s_paths s = Some paths -> finite_paths paths -> wrongway_compute s = Ok m ->
  (~ (exists c, on_paths paths c) /\ m = mkmres (Fin 0) false) \/
  (exists d, nearest_dist (on_paths paths) x d /\ mr_valid m = true /\
     (d < 7 / 2 -> mr_value m = Fin 0) /\ (7 / 2 <= d -> mr_value m = Fin d)).
Proof.
  intros (R & RL & LM & Hn & _) Ht HT SD FX Hp Hx HP FP H.
  unfold wrongway_compute in H. rewrite Ht, HP in H. apply bind_Ok in H as (cur & Hc & H).
  destruct (dynamic_index_at n T _ _ _ R HT Hc) as [L A].
  rewrite (sdc_xy_Fin n T (s_sim s) (s_meta s) cur t i p x) in H by auto. cbn [bind] in H.
  apply bind_Ok in H as (md & Hm & H). apply Ok_inj in H.
  apply (cand_min _ (on_paths paths) x) in Hm.
  - destruct Hm as [[-> N] | (d & -> & ND)].
    + left. split; auto. rewrite <- H, f0_Fin. reflexivity.
    + right. exists d. split; auto. rewrite <- H. cbn [mr_valid mr_value]. split; [reflexivity|].
      unfold wrong_way_thres. rewrite flit_Fin, fltb_Fin. cbn [fisfinite XR xfinite negb]. rewrite orb_false_r.
      split; intros Hd.
      * assert (Rltb d (7 / 2) = true) as -> by now apply Rltb_true. now rewrite f0_Fin.
      * assert (Rltb d (7 / 2) = false) as -> by now apply Rltb_false. reflexivity.
  - apply (cand_flat paths (fun _ q => if pp_valid q then path_dist (S := XR) (Fin (fst x), Fin (snd x)) q else PInf)
             (fun _ q => pp_valid q)); auto.
    + intros pa q c _ _ Hq ->. now apply path_dist_Fin.
    + intros pa q _ _ ->. reflexivity.
    + intros c. unfold on_paths. split; intros (pa & q & H1 & H2 & H3 & H4); exists pa, q; auto.
Qed.

(* ---------------- off route ---------------- *)

Lemma off_route_metric n T (s : state (S := XR)) t i p x paths m :
  wf_state n T s -> s_t s = Z.of_nat t -> (t < T)%nat -> the_sdc (s_meta s) i ->
  finite_xy (s_sim s) t -> at2 (s_sim s) i t = Some p -> has_xy p x ->
  s_paths s = Some paths -> finite_paths paths -> off_route_compute s = Ok m ->
  ((p_valid p = false \/ ~ exists c, on_paths_with true paths c) /\ m = mkmres (Fin 0) false) \/
  (p_valid p = true /\ mr_valid m = true /\
   exists d, nearest_dist (on_paths_with true paths) x d /\
     let off_route := 5 < d \/ exists d', nearest_dist (on_paths_with false paths) x d' /\ 2 < d - d' in
     (off_route -> mr_value m = Fin d) /\ (~ off_route -> mr_value m = Fin 0)).
Proof.
  intros (R & RL & LM & Hn & _) Ht HT SD FX Hp Hx HP FP H.
  unfold off_route_compute in H. rewrite Ht, HP in H. apply bind_Ok in H as (cur & Hc & H).
  destruct (dynamic_index_at n T _ _ _ R HT Hc) as [L A].
  rewrite (sdc_xy_Fin n T (s_sim s) (s_meta s) cur t i p x) in H by auto.
  cbn [bind] in H. rewrite (sdc_valid_eq n T (s_sim s) (s_meta s) cur t i p) in H by auto. cbn [bind] in H.
  apply bind_Ok in H as (mon & Hon & H). apply bind_Ok in H as (moff & Hoff & H). apply Ok_inj in H.
  set (ds := fun q : pathpt => if p_valid p then if pp_valid q then path_dist (S := XR) (Fin (fst x), Fin (snd x)) q else PInf else PInf) in *.
  set (P b := fun c => p_valid p = true /\ on_paths_with b paths c).
  apply (cand_min _ (P true) x) in Hon.
  2:{ apply (cand_flat paths (fun pa q => if path_on_route pa then ds q else PInf)
             (fun pa q => path_on_route pa && (p_valid p && pp_valid q))); auto.
    - intros pa q c _ _ Hq E. apply andb_true_iff in E as [-> E]. apply andb_true_iff in E as [E1 E2].
      unfold ds. rewrite E1, E2. now apply path_dist_Fin.
    - intros pa q _ _ E. unfold ds. destruct (path_on_route pa), (p_valid p), (pp_valid q); try discriminate; reflexivity.
    - intros c. unfold P, on_paths_with. split.
      + intros (V & pa & q & H1 & H2 & H3 & H4 & H5). exists pa, q. rewrite H2, V, H4. auto.
      + intros (pa & q & H1 & H2 & H3 & H4). apply andb_true_iff in H3 as [E1 E]. apply andb_true_iff in E as [E2 E3].
        split; auto. exists pa, q. auto. }
  apply (cand_min _ (P false) x) in Hoff.
  2:{ apply (cand_flat paths (fun pa q => if negb (path_on_route pa) then ds q else PInf)
             (fun pa q => negb (path_on_route pa) && (p_valid p && pp_valid q))); auto.
    - intros pa q c _ _ Hq E. apply andb_true_iff in E as [-> E]. apply andb_true_iff in E as [E1 E2].
      unfold ds. rewrite E1, E2. now apply path_dist_Fin.
    - intros pa q _ _ E. unfold ds. destruct (path_on_route pa), (p_valid p), (pp_valid q); try discriminate; reflexivity.
    - intros c. unfold P, on_paths_with. split.
      + intros (V & pa & q & H1 & H2 & H3 & H4 & H5). exists pa, q. rewrite H2, V, H4. auto.
      + intros (pa & q & H1 & H2 & H3 & H4). apply andb_true_iff in H3 as [E1 E]. apply andb_true_iff in E as [E2 E3].
        apply negb_true_iff in E1. split; auto. exists pa, q. auto. }
  destruct Hon as [[-> N] | (d & -> & ND)].
  - left. split.
    + destruct (p_valid p) eqn:V; auto. right. intros (c & Hc'). apply N. exists c. split; auto.
    + rewrite <- H, f0_Fin. reflexivity.
  - assert (V : p_valid p = true) by (destruct ND as [(c & (V & _) & _) _]; auto).
    right. split; auto.
    assert (PW : forall b c, P b c <-> on_paths_with b paths c) by (unfold P; intros b c; split; [intros [_ K]; exact K|intros K; split; [exact V|exact K]]).
    assert (ND' : nearest_dist (on_paths_with true paths) x d).
    { destruct ND as [(c & Pc & E) M]. split; [exists c; split; [exact (proj1 (PW _ _) Pc)|exact E]|]. intros c' Hc'. apply M. exact (proj2 (PW _ _) Hc'). }
    assert (Hv : exists b : bool, m = mkmres (if b then Fin d else Fin 0) true /\
       (b = true <-> 5 < d \/ exists d', nearest_dist (on_paths_with false paths) x d' /\ 2 < d - d')).
    { unfold max_distance_to_route, max_relative_distance, fgtb in H. rewrite flit_Fin, f2_Fin, f0_Fin, fltb_Fin in H.
      destruct Hoff as [[-> N] | (d' & -> & NDo)].
      - replace (fltb (Scalar := XR) (Fin 2) (fsub (Scalar := XR) (Fin d) PInf)) with false in H by reflexivity.
        rewrite orb_false_r in H. exists (Rltb (5 / 1) d). split.
        + rewrite <- H. destruct (Rltb (5 / 1) d); reflexivity.
        + rewrite Rltb_true. split; [left; lra|]. intros [Hd | (d' & [(c & Pc & _) _] & _)]; [lra|].
          exfalso. apply N. exists c. exact (proj2 (PW _ _) Pc).
      - rewrite fsub_Fin, fltb_Fin in H. exists (Rltb (5 / 1) d || Rltb 2 (d - d')). split.
        + rewrite <- H. destruct (Rltb (5 / 1) d || Rltb 2 (d - d')); reflexivity.
        + assert (NDo' : nearest_dist (on_paths_with false paths) x d').
          { destruct NDo as [(c & Pc & E) M]. split; [exists c; split; [exact (proj1 (PW _ _) Pc)|exact E]|].
            intros c' Hc'. apply M. exact (proj2 (PW _ _) Hc'). }
          rewrite orb_true_iff, !Rltb_true. split.
          * intros [Hd|Hd]; [left; lra|right; eauto].
          * intros [Hd|(d2 & ND2 & Hd)]; [left; lra|right].
            assert (d2 = d') as ->; auto.
            destruct NDo' as [(c1 & P1 & E1) M1], ND2 as [(c2 & P2 & E2) M2].
            specialize (M1 _ P2). specialize (M2 _ P1). lra. }
    destruct Hv as (b & -> & Hb). cbn [mr_valid mr_value]. split; auto. exists d. split; auto. cbv zeta. split.
    + intros HO. apply Hb in HO as ->. reflexivity.
    + intros HO. destruct b; auto. exfalso. apply HO. now apply Hb.
Qed.

(* ---------------- progression ---------------- *)

Definition finite_arcs (paths : list (path (S := XR))) : Prop :=
  forall pa q, In pa paths -> In q (path_pts pa) -> exists a, pp_arc q = Fin a.

Lemma arclength_spec (pts : list (pathpt (S := XR))) x :
  (forall q, In q pts -> exists c, path_xy q c) -> (forall q, In q pts -> exists a, pp_arc q = Fin a) ->
  (exists q, In q pts /\ pp_valid q = true) ->
  exists a, arclength_for (S := XR) (Fin (fst x), Fin (snd x)) pts = Fin a /\ nearest_arc pts x a.
Proof.
  intros FX FA (q0 & Hq0 & V0). unfold arclength_for.
  set (f := fun p : pathpt => if pp_valid p then path_dist (S := XR) (Fin (fst x), Fin (snd x)) p else PInf).
  assert (N : map f pts <> []) by (destruct pts; [destruct Hq0|discriminate]).
  assert (Fv : forall q c, In q pts -> path_xy q c -> pp_valid q = true -> f q = Fin (dist x c)).
  { intros q c _ Hc V. unfold f. rewrite V. now apply path_dist_Fin. }
  assert (O : Forall okd (map f pts)).
  { apply Forall_forall. intros y Hy. apply in_map_iff in Hy as (q & <- & Hq). destruct (FX q Hq) as [c Hc].
    destruct (pp_valid q) eqn:V; [rewrite (Fv q c) by auto; exact I|]. unfold f. rewrite V. exact I. }
  destruct (argmin_okd _ N O) as (r & Hr & HM). set (k := argmin (S := XR) (map f pts)) in *.
  rewrite nth_error_map in Hr. destruct (nth_error pts k) as [q|] eqn:Ek; [|discriminate].
  cbn [option_map] in Hr. apply Some_inj in Hr.
  assert (Iq : In q pts) by (eapply nth_error_In; eauto).
  destruct (FX q Iq) as [c Hc]. destruct (FA q Iq) as [a Ha].
  assert (V : pp_valid q = true).
  { destruct (pp_valid q) eqn:V; auto. exfalso. unfold f in Hr. rewrite V in Hr. subst r.
    destruct (In_nth_error _ _ Hq0) as [j Hj]. destruct (FX q0 Hq0) as [c0 Hc0].
    destruct (HM j (f q0)) as [M _]; [rewrite nth_error_map, Hj; reflexivity|].
    rewrite (Fv q0 c0) in M by auto. discriminate. }
  rewrite (Fv q c) in Hr by auto. subst r.
  exists a. split.
  - rewrite (nth_error_nth _ _ _ Ek). exact Ha.
  - exists k, q, c. repeat split; auto; try apply Hc.
    + destruct (HM j (f q')) as [M _]; [rewrite nth_error_map, H; reflexivity|].
      rewrite (Fv q' c') in M; auto; [|eapply nth_error_In; eauto]. cbn [xltb] in M. now apply Rltb_false in M.
    + intros HL. destruct (HM j (f q')) as [_ M]; [rewrite nth_error_map, H; reflexivity|].
      specialize (M HL).
      rewrite (Fv q' c') in M; auto; [|eapply nth_error_In; eauto]. cbn [xltb] in M. now apply Rltb_true in M.
Qed.

Lemma nearest_arc_fun pts x a a' : nearest_arc pts x a -> nearest_arc pts x a' -> a = a'.
Proof.
  intros (k & q & c & Hk & V & Hc & Ha & M) (k' & q' & c' & Hk' & V' & Hc' & Ha' & M').
  destruct (M k' q' c' Hk' V' Hc') as [M1 M2]. destruct (M' k q c Hk V Hc) as [M3 M4].
  destruct (Nat.lt_trichotomy k k') as [K|[K|K]].
  - specialize (M4 K). lra.
  - subst. rewrite Hk in Hk'. injection Hk' as <-. rewrite Ha in Ha'. now injection Ha' as <-.
  - specialize (M2 K). lra.
Qed.

Lemma log_frame_nth n T (tr : traj (S := XR)) t : rect n T tr -> (t < T)%nat ->
  exists fr, log_frame tr t = Ok fr /\ length fr = n /\ forall j, (j < n)%nat -> nth_error fr j = at2 tr j t.
Proof.
  intros [L R] HT. unfold log_frame.
  destruct (mapM_total (fun r : list pt => match nth_error r t with Some p => Ok p | None => Err IndexError end) tr) as [fr E].
  { intros r Hr. destruct (nth_error_lt_Some r t) as [p ->]; eauto. now rewrite R. }
  exists fr. split; [exact E|]. split; [rewrite (mapM_length _ _ _ E); auto|].
  intros j Hj. destruct (nth_error_lt_Some tr j) as [r Hr]; [lia|].
  destruct (mapM_nth _ _ _ _ _ E Hr) as (p & Hp & Hj'). unfold at2. rewrite Hr, Hj'.
  destruct (nth_error r t); congruence.
Qed.

(** The valid points of one path. *)
Definition path_points (pa : path (S := XR)) (c : R * R) : Prop :=
  exists q, In q (path_pts pa) /\ pp_valid q = true /\ path_xy q c.

Lemma progression_metric n T (s : state (S := XR)) t i p x l0 x0 l1 x1 paths m :
  wf_state n T s -> s_t s = Z.of_nat t -> (t < T)%nat -> the_sdc (s_meta s) i ->
  finite_xy (s_sim s) t -> finite_xy (s_log s) 0 -> finite_xy (s_log s) (T - 1) ->
  at2 (s_sim s) i t = Some p -> has_xy p x ->
  at2 (s_log s) i 0 = Some l0 -> has_xy l0 x0 -> at2 (s_log s) i (T - 1) = Some l1 -> has_xy l1 x1 ->
  s_paths s = Some paths -> finite_paths paths -> finite_arcs paths -> progression_compute s = Ok m ->
  ((p_valid p = false \/ ~ exists c, on_paths_with true paths c) /\ m = mkmres (Fin 0) false) \/
  (p_valid p = true /\ mr_valid m = true /\
   exists k pa d a0 a1 a, nth_error paths k = Some pa /\ path_on_route pa = true /\
     nearest_dist (on_paths_with true paths) x d /\ nearest_dist (path_points pa) x d /\
     (forall j pb, (j < k)%nat -> nth_error paths j = Some pb -> path_on_route pb = true ->
        forall c, path_points pb c -> d < dist x c) /\
     nearest_arc (path_pts pa) x0 a0 /\ nearest_arc (path_pts pa) x1 a1 /\ nearest_arc (path_pts pa) x a /\
     (a0 = a1 -> mr_value m = Fin 1) /\ (a0 <> a1 -> mr_value m = Fin ((a - a0) / (a1 - a0)))).
Proof.
  intros (R & RL & LM & Hn & _) Ht HT SD FX FX0 FX1 Hp Hx Hl0 Hx0 Hl1 Hx1 HP FP FA H.
  unfold progression_compute in H. rewrite Ht, HP in H. apply bind_Ok in H as (cur & Hc & H).
  destruct (dynamic_index_at n T _ _ _ R HT Hc) as [L A].
  rewrite (sdc_xy_Fin n T (s_sim s) (s_meta s) cur t i p x) in H by auto. cbn [bind] in H.
  assert (NT : num_timesteps (s_log s) = T).
  { destruct RL as [L1 R1]. destruct (s_log s) as [|r ?]; [simpl in L1; lia|]. simpl. apply R1. now left. }
  rewrite NT in H.
  destruct (log_frame_nth n T (s_log s) 0 RL) as (f0' & E0 & Lf0 & Nf0); [lia|].
  destruct (log_frame_nth n T (s_log s) (T - 1) RL) as (f1' & E1 & Lf1 & Nf1); [lia|].
  rewrite E0 in H. cbn [bind] in H.
  rewrite (sdc_xy_Fin n T (s_log s) (s_meta s) f0' 0 i l0 x0) in H by auto. cbn [bind] in H.
  rewrite E1 in H. cbn [bind] in H.
  rewrite (sdc_xy_Fin n T (s_log s) (s_meta s) f1' (T - 1) i l1 x1) in H by auto. cbn [bind] in H.
  rewrite (sdc_valid_eq n T (s_sim s) (s_meta s) cur t i p) in H by auto. cbn [bind fst snd] in H.
  set (ds := fun (pa : path) (q : pathpt) => if p_valid p then if pp_valid q && path_on_route pa
     then norm2 (S := XR) (fsub (Scalar := XR) (pp_x q) (Fin (fst x))) (fsub (Scalar := XR) (pp_y q) (Fin (snd x))) else finf (Scalar := XR) else finf (Scalar := XR)) in *.
  apply bind_Ok in H as (dp & Hdp & H). apply bind_Ok in H as (md & Hmd & H). apply Ok_inj in H.
  set (Q := fun (pa : path (S := XR)) c => p_valid p = true /\ path_on_route pa = true /\ path_points pa c).
  (* each path *)
  assert (EP : forall k pa mk, nth_error paths k = Some pa -> nth_error dp k = Some mk ->
     (mk = PInf /\ ~ exists c, Q pa c) \/ (exists d, mk = Fin d /\ nearest_dist (Q pa) x d)).
  { intros k pa mk Hk Hmk. destruct (mapM_nth _ _ _ _ _ Hdp Hk) as (mk' & Hj & Hmk').
    rewrite Hmk in Hmk'. apply Some_inj in Hmk'. subst mk'.
    assert (Ipa : In pa paths) by (eapply nth_error_In; eauto).
    apply (cand_min _ (Q pa) x) in Hj; auto.
    pose proof (cand_flat [pa] ds (fun pa q => p_valid p && (pp_valid q && path_on_route pa)) (Q pa) x) as CF.
    cbn [flat_map] in CF. rewrite app_nil_r in CF. apply CF; clear CF.
    - intros pa' q [<-|[]] Hq. eauto.
    - intros pa' q c _ _ [X Y] E. apply andb_true_iff in E as [E1' E2]. unfold ds. rewrite E1', E2, X, Y.
      rewrite !fsub_Fin, norm2_Fin. f_equal. unfold dist. f_equal. ring.
    - intros pa' q _ _ E. unfold ds. destruct (p_valid p); simpl in E; [rewrite E|]; reflexivity.
    - intros c. unfold Q, path_points. split.
      + intros (V & OR & q & H1 & H2 & H3). exists pa, q. rewrite V, OR, H2. simpl. auto.
      + intros (pa' & q & [<-|[]] & H2 & H3 & H4). apply andb_true_iff in H3 as [? H3].
        apply andb_true_iff in H3 as [? ?]. eauto 7. }
  assert (Ldp : length dp = length paths) by (rewrite (mapM_length _ _ _ Hdp); reflexivity).
  assert (Odp : Forall okd dp).
  { apply Forall_forall. intros y Hy. apply In_nth_error in Hy as (k & Hk).
    destruct (nth_error_lt_Some paths k) as [pa Hpa]; [rewrite <- Ldp; eapply nth_error_Some_lt; eauto|].
    destruct (EP k pa y Hpa Hk) as [[-> _]|(d & -> & _)]; exact I. }
  assert (Ndp : dp <> []) by (intros ->; discriminate).
  destruct (jmin_okd dp Ndp Odp) as (md' & E & Omd & Imd & Mmd). rewrite Hmd in E. apply Ok_inj in E. subst md'.
  destruct (argmin_okd dp Ndp Odp) as (r & Hr & HM). set (k := argmin (S := XR) dp) in *.
  (* the minimum is the entry at argmin *)
  assert (r = md).
  { pose proof (Mmd r (nth_error_In _ _ Hr)) as M1. apply In_nth_error in Imd as (j & Hj).
    destruct (HM j md Hj) as [M2 _].
    assert (Or : okd r) by (rewrite Forall_forall in Odp; apply Odp; eapply nth_error_In; eauto).
    destruct r, md; try contradiction; try discriminate; auto. cbn [xltb] in M1, M2.
    apply Rltb_false in M1, M2. f_equal; lra. }
  subst r.
  destruct (nth_error_lt_Some paths k) as [pa Hpa]; [rewrite <- Ldp; eapply nth_error_Some_lt; eauto|].
  assert (Ipa : In pa paths) by (eapply nth_error_In; eauto).
  destruct (EP k pa md Hpa Hr) as [[-> N]|(d & -> & ND)].
  - left. split.
    + destruct (p_valid p) eqn:V; auto. right. intros (c & pb & q & I1 & I2 & I3 & I4 & I5).
      destruct (In_nth_error _ _ I1) as [j Hj].
      destruct (nth_error_lt_Some dp j) as [mj Hmj]; [rewrite Ldp; eapply nth_error_Some_lt; eauto|].
      destruct (EP j pb mj Hj Hmj) as [[-> N']|(d & -> & _)].
      * apply N'. exists c. unfold Q, path_points. eauto 8.
      * pose proof (Mmd _ (nth_error_In _ _ Hmj)). discriminate.
    + rewrite <- H, f0_Fin. reflexivity.
  - assert (V : p_valid p = true) by (destruct ND as [(c & (V & _) & _) _]; auto).
    assert (OR : path_on_route pa = true) by (destruct ND as [(c & (_ & V' & _) & _) _]; auto).
    right. split; auto. rewrite (nth_error_nth _ _ _ Hpa) in H.
    assert (HV : exists q, In q (path_pts pa) /\ pp_valid q = true).
    { destruct ND as [(c & (_ & _ & q & I1 & I2 & _) & _) _]. eauto. }
    assert (FXp : forall q, In q (path_pts pa) -> exists c, path_xy q c) by eauto.
    assert (FAp : forall q, In q (path_pts pa) -> exists a, pp_arc q = Fin a) by eauto.
    destruct (arclength_spec (path_pts pa) x0) as (a0 & Ea0 & Na0); auto.
    destruct (arclength_spec (path_pts pa) x1) as (a1 & Ea1 & Na1); auto.
    destruct (arclength_spec (path_pts pa) x) as (a & Ea & Na); auto.
    rewrite Ea0, Ea1, Ea in H. rewrite <- H. cbn [mr_valid mr_value]. split; [reflexivity|].
    exists k, pa, d, a0, a1, a. split; [exact Hpa|]. split; [exact OR|]. split; [|split; [|split; [|split; [exact Na0|split; [exact Na1|split; [exact Na|]]]]]].
    + destruct ND as [(c & (_ & _ & q & I1 & I2 & I3) & E) M]. split.
      * exists c. split; auto. exists pa, q. auto.
      * intros c' (pb & q' & J1 & J2 & J3 & J4 & J5). destruct (In_nth_error _ _ J1) as [j Hj].
        destruct (nth_error_lt_Some dp j) as [mj Hmj]; [rewrite Ldp; eapply nth_error_Some_lt; eauto|].
        pose proof (Mmd _ (nth_error_In _ _ Hmj)) as Mj.
        destruct (EP j pb mj Hj Hmj) as [[-> N']|(d' & -> & [_ M'])].
        -- exfalso. apply N'. exists c'. unfold Q, path_points. eauto 8.
        -- cbn [xltb] in Mj. apply Rltb_false in Mj.
           assert (d' <= dist x c') by (apply M'; unfold Q, path_points; eauto 8). lra.
    + destruct ND as [(c & (_ & _ & PP) & E) M]. split; [exists c; auto|].
      intros c' Hc'. apply M. unfold Q. auto.
    + intros j pb Hjk Hj ORb c Pc.
      destruct (nth_error_lt_Some dp j) as [mj Hmj]; [rewrite Ldp; eapply nth_error_Some_lt; eauto|].
      destruct (HM j mj Hmj) as [_ HMj]. specialize (HMj Hjk).
      destruct (EP j pb mj Hj Hmj) as [[-> N']|(d' & -> & [_ M'])].
      * exfalso. apply N'. exists c. unfold Q. auto.
      * cbn [xltb] in HMj. apply Rltb_true in HMj.
        assert (d' <= dist x c) by (apply M'; unfold Q; auto). lra.
    + cbn [fisfinite XR xfinite]. rewrite feqb_Fin. split; intros Eq.
      * subst. assert (Reqb a1 a1 = true) as -> by now apply Reqb_true. now rewrite f1_Fin.
      * destruct (Reqb a1 a0) eqn:E; [apply Reqb_true in E; congruence|].
        rewrite !fsub_Fin, fdiv_Fin by lra. reflexivity.
Qed.
