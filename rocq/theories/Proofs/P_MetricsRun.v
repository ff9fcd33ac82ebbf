(** Consequences of the metric theorems (C26, C28). *)
From Coq Require Import Reals ZArith List Lia Lra Bool.
From Verif.Lib Require Import Base JaxIndex Scalar XR.
From Verif.Model Require Import Operations State Dynamics BaseEnv Geometry Dyn_State Expert Comfort Metrics.
From Verif.Spec Require Import StateSpec GeomSpec DynSpec MetricSpec.
From Verif.Proofs Require Import Core Episode P_Expert P_Metrics P_Route.
Import ListNotations.
Open Scope R_scope.

Lemma expert_divergence n T c (s s' : state (S := XR)) k i :
  wf_scenario n T s -> run_policy StateDynamics c (infer_expert_action StateDynamics) s k = Ok s' ->
  (1 <= c_init_steps c)%nat -> (c_init_steps c + k <= T)%nat -> (i < n)%nat ->
  (exists l x, at2 (s_log s) i (c_init_steps c + k - 1) = Some l /\ has_xy l x) ->
  exists ms v, log_divergence_compute s' = Ok ms /\ nth_error ms i = Some (mkmres (Fin 0) v).
Proof.
  intros W H HI HL Hi (l & x & Hl & Hx).
  destruct (run_policy_episode _ _ _ _ _ _ H) as (acts & La & HE).
  destruct (episode_basic _ _ _ _ _ _ _ W HE ltac:(lia)) as (Wf & SS & _ & Ck & _).
  destruct (expert_replay n T c s k s' i (c_init_steps c + k - 1) W H HI HL Hi ltac:(lia))
    as (p & l' & Hp & Hl' & (E1 & E2 & _) & _).
  rewrite Hl in Hl'. injection Hl' as <-.
  destruct (log_divergence_total n T s' Wf) as [ms Hms]. exists ms.
  assert (Hlog : s_log s' = s_log s) by (apply SS). rewrite <- Hlog in Hl.
  assert (Hx' : has_xy p x) by (unfold has_xy; rewrite E1, E2; exact Hx).
  destruct (log_divergence_metric n T s' (c_init_steps c + k - 1) ms i p l x x) as [_ E]; auto; [|lia|].
  - rewrite Ck, La. lia.
  - assert (D : dist x x = 0) by now apply dist_zero. rewrite D in E. eauto.
Qed.

Lemma nearest_dist_nonneg P x d : nearest_dist P x d -> 0 <= d.
Proof. intros [(c & _ & <-) _]. apply sqrt_pos. Qed.
Lemma nearest_dist_fun P x d d' : nearest_dist P x d -> nearest_dist P x d' -> d = d'.
Proof.
  intros [(c & Pc & E) M] [(c' & Pc' & E') M']. specialize (M _ Pc'). specialize (M' _ Pc). lra.
Qed.

(** Wrong-way: 0, or at least 3.5 m. *)
Lemma wrongway_threshold n T (s : state (S := XR)) t i p x paths m :
  wf_state n T s -> s_t s = Z.of_nat t -> (t < T)%nat -> the_sdc (s_meta s) i ->
  finite_xy (s_sim s) t -> at2 (s_sim s) i t = Some p -> has_xy p x ->
  s_paths s = Some paths -> finite_paths paths -> wrongway_compute s = Ok m ->
  mr_value m = Fin 0 \/ exists d, mr_value m = Fin d /\ 7 / 2 <= d.
Proof.
  intros W Ht HT SD FX Hp Hx HP FP H.
  destruct (wrongway_metric n T s t i p x paths m W Ht HT SD FX Hp Hx HP FP H) as [[_ ->]|(d & _ & _ & A & B)]; auto.
  destruct (Rlt_le_dec d (7 / 2)); eauto.
Qed.

(** Off-route: 0, or more than 2 m. *)
Lemma off_route_threshold n T (s : state (S := XR)) t i p x paths m :
  wf_state n T s -> s_t s = Z.of_nat t -> (t < T)%nat -> the_sdc (s_meta s) i ->
  finite_xy (s_sim s) t -> at2 (s_sim s) i t = Some p -> has_xy p x ->
  s_paths s = Some paths -> finite_paths paths -> off_route_compute s = Ok m ->
  mr_value m = Fin 0 \/ exists d, mr_value m = Fin d /\ 2 < d.
Proof.
  intros W Ht HT SD FX Hp Hx HP FP H.
  destruct (off_route_metric n T s t i p x paths m W Ht HT SD FX Hp Hx HP FP H) as [[_ ->]|(_ & _ & d & ND & A & B)]; auto.
  destruct (Rlt_le_dec 5 d) as [L|L]; [right; exists d; split; [apply A; auto|lra]|].
  destruct (Classical_Prop.classic (exists d', nearest_dist (on_paths_with false paths) x d' /\ 2 < d - d')) as [E|E].
  - right. exists d. split; [apply A; auto|]. destruct E as (d' & N' & E). apply nearest_dist_nonneg in N'. lra.
  - left. apply B. intros [K|K]; [lra|auto].
Qed.

(** Replacing the arc lengths of all path points. *)
Definition map_arc (f : R -> R) (paths : list (path (S := XR))) : list (path (S := XR)) :=
  map (fun pa => mkpath (map (fun q => mkpp (pp_x q) (pp_y q) (pp_z q) (pp_id q) (pp_valid q)
     (match pp_arc q with Fin a => Fin (f a) | v => v end)) (path_pts pa)) (path_on_route pa)) paths.

Lemma in_map_arc f paths pa' q' : In pa' (map_arc f paths) -> In q' (path_pts pa') ->
  exists pa q, In pa paths /\ In q (path_pts pa) /\ path_on_route pa' = path_on_route pa /\
    pp_x q' = pp_x q /\ pp_y q' = pp_y q /\ pp_valid q' = pp_valid q /\
    pp_arc q' = match pp_arc q with Fin a => Fin (f a) | v => v end.
Proof.
  intros H1 H2. apply in_map_iff in H1 as (pa & <- & H1). simpl in H2.
  apply in_map_iff in H2 as (q & <- & H2). exists pa, q. simpl. auto 10.
Qed.

Definition arc_pt (f : R -> R) (q : pathpt (S := XR)) : pathpt (S := XR) :=
  mkpp (pp_x q) (pp_y q) (pp_z q) (pp_id q) (pp_valid q) (match pp_arc q with Fin a => Fin (f a) | v => v end).

Lemma nearest_arc_map f pts x a : nearest_arc pts x a -> nearest_arc (map (arc_pt f) pts) x (f a).
Proof.
  intros (k & q & c & Hk & V & Hc & Ha & M). exists k, (arc_pt f q), c. split; [rewrite nth_error_map, Hk; reflexivity|].
  split; [exact V|]. split; [exact Hc|]. split; [simpl; now rewrite Ha|].
  intros j q' c' Hj Vq Hq. rewrite nth_error_map in Hj. destruct (nth_error pts j) as [q0|] eqn:E; [|discriminate].
  injection Hj as <-. apply (M j q0 c'); auto.
Qed.

Lemma path_points_map f pa c :
  path_points (mkpath (map (arc_pt f) (path_pts pa)) (path_on_route pa)) c <-> path_points pa c.
Proof.
  unfold path_points; simpl. split.
  - intros (q & Hq & V & X). apply in_map_iff in Hq as (q0 & <- & Hq). exists q0. auto.
  - intros (q & Hq & V & X). exists (arc_pt f q). split; [now apply in_map|auto].
Qed.

(** Progression does not change when all arc lengths are scaled and shifted. *)
Lemma progression_affine n T (s : state (S := XR)) t i p x l0 x0 l1 x1 paths m m' al be :
  wf_state n T s -> s_t s = Z.of_nat t -> (t < T)%nat -> the_sdc (s_meta s) i ->
  finite_xy (s_sim s) t -> finite_xy (s_log s) 0 -> finite_xy (s_log s) (T - 1) ->
  at2 (s_sim s) i t = Some p -> has_xy p x ->
  at2 (s_log s) i 0 = Some l0 -> has_xy l0 x0 -> at2 (s_log s) i (T - 1) = Some l1 -> has_xy l1 x1 ->
  s_paths s = Some paths -> finite_paths paths -> finite_arcs paths -> al <> 0 ->
  progression_compute s = Ok m ->
  progression_compute (mkstate (s_sim s) (s_log s) (s_tls s) (s_meta s) (s_t s)
     (Some (map_arc (fun a => al * a + be) paths)) (s_rg s)) = Ok m' ->
  m' = m.
Proof.
  intros W Ht HT SD FX FX0 FX1 Hp Hx Hl0 Hx0 Hl1 Hx1 HP FP FA Hal H H'.
  set (f := fun a => al * a + be) in *.
  assert (FP' : finite_paths (map_arc f paths)).
  { intros pa' q' I1 I2. destruct (in_map_arc _ _ _ _ I1 I2) as (pa & q & J1 & J2 & _ & E1 & E2 & _).
    destruct (FP pa q J1 J2) as (c & X & Y). exists c. split; congruence. }
  assert (FA' : finite_arcs (map_arc f paths)).
  { intros pa' q' I1 I2. destruct (in_map_arc _ _ _ _ I1 I2) as (pa & q & J1 & J2 & _ & _ & _ & _ & E).
    destruct (FA pa q J1 J2) as (a & Ha). exists (f a). now rewrite E, Ha. }
  assert (OP : forall c, on_paths_with true (map_arc f paths) c <-> on_paths_with true paths c).
  { intros c. split.
    - intros (pa' & q' & I1 & I2 & I3 & I4 & I5 & I6).
      destruct (in_map_arc _ _ _ _ I1 I3) as (pa & q & J1 & J2 & J3 & E1 & E2 & E3 & _).
      exists pa, q. unfold path_xy. rewrite <- E1, <- E2, <- E3, <- J3. auto 10.
    - intros (pa & q & I1 & I2 & I3 & I4 & I5).
      exists (mkpath (map (arc_pt f) (path_pts pa)) (path_on_route pa)), (arc_pt f q).
      split; [apply (in_map (fun pa => mkpath (map (arc_pt f) (path_pts pa)) (path_on_route pa)) _ _ I1)|].
      split; [exact I2|]. split; [now apply in_map|]. auto. }
  set (s' := mkstate _ _ _ _ _ _ _) in H'.
  assert (K := progression_metric n T s t i p x l0 x0 l1 x1 paths m W Ht HT SD FX FX0 FX1 Hp Hx Hl0 Hx0 Hl1 Hx1 HP FP FA H).
  assert (K' := progression_metric n T s' t i p x l0 x0 l1 x1 (map_arc f paths) m' W Ht HT SD FX FX0 FX1 Hp Hx Hl0 Hx0 Hl1 Hx1 eq_refl FP' FA' H').
  assert (NDi : forall d, nearest_dist (on_paths_with true (map_arc f paths)) x d <-> nearest_dist (on_paths_with true paths) x d).
  { intros d. unfold nearest_dist. split; intros [(c & Pc & E) M]; (split; [exists c; split; [now apply OP|exact E]|]);
      intros c' Hc'; apply M; now apply OP. }
  destruct K as [[A ->]|(V & Vm & k & pa & d & a0 & a1 & a & Hk & OR & ND & NP & FK & N0 & N1 & Na & V1 & V2)];
    destruct K' as [[A' ->]|(V' & Vm' & k' & pa' & d' & a0' & a1' & a' & Hk' & OR' & ND' & NP' & FK' & N0' & N1' & Na' & V1' & V2')]; auto.
  - exfalso. destruct A as [A|A]; [congruence|]. apply A. destruct ND' as [(c & Pc & _) _]. exists c. now apply OP.
  - exfalso. destruct A' as [A'|A']; [congruence|]. apply A'. destruct ND as [(c & Pc & _) _]. exists c. now apply OP.
  - apply NDi in ND'. assert (d' = d) as -> by (exact (nearest_dist_fun _ _ _ _ ND' ND)).
    unfold map_arc in Hk'. rewrite nth_error_map in Hk'. destruct (nth_error paths k') as [pb|] eqn:Ek'; [|discriminate].
    cbn [option_map] in Hk'. apply Some_inj in Hk'.
    change (mkpath (map (arc_pt f) (path_pts pb)) (path_on_route pb) = pa') in Hk'. subst pa'. cbn [path_on_route path_pts] in *.
    assert (k' = k) as ->.
    { destruct (Nat.lt_trichotomy k' k) as [L|[L|L]]; auto; exfalso.
      - destruct NP' as [(c & Pc & E) _]. 
        specialize (FK k' pb L Ek' OR' c (proj1 (path_points_map f pb c) Pc)). lra.
      - destruct NP as [(c & Pc & E) _].
        assert (KK : nth_error (map_arc f paths) k = Some (mkpath (map (arc_pt f) (path_pts pa)) (path_on_route pa))).
        { unfold map_arc. rewrite nth_error_map, Hk. reflexivity. }
        specialize (FK' k _ L KK OR c (proj2 (path_points_map f pa c) Pc)). lra. }
    rewrite Hk in Ek'. injection Ek' as <-.
    pose proof (nearest_arc_fun _ _ _ _ N0' (nearest_arc_map f _ _ _ N0)) as ->.
    pose proof (nearest_arc_fun _ _ _ _ N1' (nearest_arc_map f _ _ _ N1)) as ->.
    pose proof (nearest_arc_fun _ _ _ _ Na' (nearest_arc_map f _ _ _ Na)) as ->.
    assert (mr_value m' = mr_value m).
    { destruct (Req_EM_T a0 a1) as [E|E].
      - rewrite (V1 E), V1'; auto. now rewrite E.
      - assert (Ne : f a0 <> f a1). { unfold f. intros HH. apply E. apply Rmult_eq_reg_l with al; auto. lra. }
        rewrite (V2 E), (V2' Ne). f_equal. unfold f.
        field. repeat split; auto; try lra; intros HH; apply Ne; unfold f; lra. }
    destruct m, m'; cbn in *. congruence.
Qed.

(** Progression of an SDC at the logged start or end. *)
Lemma progression_ends n T (s : state (S := XR)) t i p x l0 x0 l1 x1 paths m :
  wf_state n T s -> s_t s = Z.of_nat t -> (t < T)%nat -> the_sdc (s_meta s) i ->
  finite_xy (s_sim s) t -> finite_xy (s_log s) 0 -> finite_xy (s_log s) (T - 1) ->
  at2 (s_sim s) i t = Some p -> has_xy p x ->
  at2 (s_log s) i 0 = Some l0 -> has_xy l0 x0 -> at2 (s_log s) i (T - 1) = Some l1 -> has_xy l1 x1 ->
  s_paths s = Some paths -> finite_paths paths -> finite_arcs paths -> progression_compute s = Ok m ->
  mr_valid m = true ->
  (x = x1 -> mr_value m = Fin 1) /\ (x = x0 -> mr_value m = Fin 0 \/ mr_value m = Fin 1).
Proof.
  intros W Ht HT SD FX FX0 FX1 Hp Hx Hl0 Hx0 Hl1 Hx1 HP FP FA H HV.
  destruct (progression_metric n T s t i p x l0 x0 l1 x1 paths m W Ht HT SD FX FX0 FX1 Hp Hx Hl0 Hx0 Hl1 Hx1 HP FP FA H)
   as [[A ->]|(V & Vm & k & pa & d & a0 & a1 & a & Hk & OR & ND & NP & FK & N0 & N1 & Na & V1 & V2)]; [discriminate|].
  split; intros ->.
  - pose proof (nearest_arc_fun _ _ _ _ Na N1) as ->. destruct (Req_EM_T a0 a1) as [E|E]; auto.
    rewrite (V2 E). f_equal. field. lra.
  - pose proof (nearest_arc_fun _ _ _ _ Na N0) as ->. destruct (Req_EM_T a0 a1) as [E|E]; auto.
    left. rewrite (V2 E). f_equal. field. lra.
Qed.

(** The failure modes without route data. *)
Lemma route_no_paths {S : Scalar} n T s : wf_state n T s -> s_paths s = None ->
  progression_compute s = Err ValueError /\ off_route_compute s = Err ValueError /\
  exists e, wrongway_compute s = Err e.
Proof.
  intros (R & RL & LM & Hn & HT) H. unfold progression_compute, off_route_compute, wrongway_compute.
  rewrite H. split; [reflexivity|]. split; [reflexivity|].
  destruct (dynamic_index_total n T (s_sim s) (s_t s) R HT) as [cur ->]. cbn [bind].
  destruct (sdc_xy cur (s_meta s)); cbn [bind]; eauto.
Qed.
