(** Proofs for C20. *)
From Coq Require Import Reals ZArith List Lia Lra Bool.
From Verif.Lib Require Import Base JaxIndex Scalar XR.
From Verif.Model Require Import Operations State Dynamics BaseEnv Geometry Discretizer.
From Verif.Spec Require Import StateSpec GeomSpec DynSpec DiscSpec.
From Verif.Proofs Require Import Core P_Delta P_Pose P_Discretizer.
Import ListNotations.

(* ---------------- decoding ---------------- *)

(** The discrete action [k] for one object. *)
Definition iact (k : Z) (v : bool) : act (S := XR) := mkact (S := XR) [Fin (IZR k)] v.

Lemma decode_iact w k v : decode_action w (iact k v)
  = bind (make_continuous (dw_disc w) k) (fun r => Ok (mkact r v)).
Proof. unfold decode_action, iact; cbn [a_data a_valid]. change (frint (Scalar := XR) (Fin (IZR k))) with (Rrint (IZR k)). now rewrite Rrint_IZR. Qed.

Lemma decode_all w kvs acts :
  Forall2 (fun kv a => make_continuous (dw_disc w) (fst kv) = Ok (a_data a) /\ a_valid a = snd kv) kvs acts ->
  mapM (decode_action w) (map (fun kv => iact (fst kv) (snd kv)) kvs) = Ok acts.
Proof.
  induction 1 as [|[k v] a kvs acts [H1 H2] _ IH]; [reflexivity|].
  cbn [map mapM fst snd] in *. rewrite decode_iact, H1. cbn [bind]. rewrite IH. cbn [bind].
  destruct a; simpl in *; subst. reflexivity.
Qed.

Lemma wrapper_step w c s kvs acts :
  Forall2 (fun kv a => make_continuous (dw_disc w) (fst kv) = Ok (a_data a) /\ a_valid a = snd kv) kvs acts ->
  env_step (DiscreteActionSpaceWrapper w) c s (map (fun kv => iact (fst kv) (snd kv)) kvs)
  = env_step (dw_cont w) c s acts.
Proof.
  intros H. pose proof (Forall2_len _ _ _ H) as L. pose proof (decode_all _ _ _ H) as D.
  unfold env_step. destruct (env_control_mask s c) as [mask|]; [|reflexivity]. cbn [bind].
  unfold forward. rewrite map_length, L. destruct (guard _ _); [|reflexivity]. cbn [bind].
  destruct (dynamic_index (s_sim s) (s_t s)) as [cur|]; [|reflexivity]. cbn [bind].
  unfold DiscreteActionSpaceWrapper; cbn [d_update]. unfold dw_update. rewrite D. reflexivity.
Qed.

(* ---------------- argmin ---------------- *)
Section Argmin.
  Local Open Scope nat_scope.
  Context {S : Scalar}.
  Lemma argmin_from_lt best bi i l : bi < i -> argmin_from best bi i l < i + length l.
  Proof.
    revert best bi i. induction l as [|x l IH]; intros; simpl; [lia|].
    destruct (min_before x best); [specialize (IH x i (Datatypes.S i))|specialize (IH best bi (Datatypes.S i))]; lia.
  Qed.
  Lemma argmin_lt l : l <> [] -> argmin l < length l.
  Proof. destruct l; [congruence|]. intros _. simpl. apply (argmin_from_lt _ 0 1). lia. Qed.
End Argmin.

Lemma min_before_Fin a b : min_before (S := XR) (Fin a) (Fin b) = true <-> (a < b)%R.
Proof.
  unfold min_before, fisnan. rewrite !feqb_Fin, fltb_Fin.
  destruct (Rltb a b) eqn:E.
  - apply Rltb_true in E. simpl. tauto.
  - assert (Reqb a a = true) as -> by now apply Reqb_true. simpl.
    apply Rltb_false in E. split; [discriminate|lra].
Qed.

Lemma argmin_from_spec (l : list R) best bi i pre :
  (i = length pre -> bi < i -> nth_error pre bi = Some best ->
   (forall j r, nth_error pre j = Some r -> (best <= r)%R /\ (j < bi -> (best < r)%R)) ->
   exists r, nth_error (pre ++ l) (argmin_from (S := XR) (Fin best) bi i (map Fin l)) = Some r /\
     forall j r', nth_error (pre ++ l) j = Some r' ->
       (r <= r')%R /\ (j < argmin_from (S := XR) (Fin best) bi i (map Fin l) -> (r < r')%R))%nat.
Proof.
  revert best bi i pre. induction l as [|x l IH]; intros best bi i pre Li Lb Nb M.
  - rewrite app_nil_r. simpl. eauto.
  - assert (Eapp : pre ++ x :: l = (pre ++ [x]) ++ l) by (rewrite <- app_assoc; reflexivity).
    assert (Enew : nth_error (pre ++ [x]) i = Some x).
    { rewrite nth_error_app2 by lia. replace (i - length pre)%nat with 0%nat by lia. reflexivity. }
    simpl map. simpl argmin_from. destruct (min_before (S := XR) (Fin x) (Fin best)) eqn:E.
    + apply min_before_Fin in E. rewrite Eapp. apply IH.
      * rewrite app_length; simpl; lia.
      * lia.
      * exact Enew.
      * intros j r Hj. destruct (Nat.lt_ge_cases j (length pre)) as [J|J].
        -- rewrite nth_error_app1 in Hj by auto. destruct (M j r Hj). split; [lra|intros; lra].
        -- rewrite nth_error_app2 in Hj by auto. destruct (j - length pre)%nat as [|q] eqn:Q;
             [|destruct q; discriminate]. injection Hj as <-. split; [lra|intros; lia].
    + assert (E' : (best <= x)%R).
      { destruct (Rle_lt_dec best x) as [H|H]; auto. apply min_before_Fin in H. congruence. }
      rewrite Eapp. apply IH.
      * rewrite app_length; simpl; lia.
      * lia.
      * rewrite nth_error_app1 by lia. exact Nb.
      * intros j r Hj. destruct (Nat.lt_ge_cases j (length pre)) as [J|J].
        -- rewrite nth_error_app1 in Hj by auto. auto.
        -- rewrite nth_error_app2 in Hj by auto. destruct (j - length pre)%nat as [|q] eqn:Q;
             [|destruct q; discriminate]. injection Hj as <-. split; [lra|intros; lia].
Qed.

Lemma argmin_spec (l : list R) : l <> [] ->
  exists r, nth_error l (argmin (S := XR) (map Fin l)) = Some r /\
    forall j r', nth_error l j = Some r' ->
      (r <= r')%R /\ ((j < argmin (S := XR) (map Fin l))%nat -> (r < r')%R).
Proof.
  destruct l as [|x l]; [congruence|]. intros _.
  apply (argmin_from_spec l x 0 1 [x]); auto.
  intros [|j] r Hj; [|destruct j; discriminate]. injection Hj as <-. split; [lra|lia].
Qed.

Lemma min_before_irrefl (x : xr) : min_before (S := XR) x x = false.
Proof.
  unfold min_before. destruct (fltb (Scalar := XR) x x) eqn:E.
  - destruct x; simpl in E; try discriminate. apply Rltb_true in E. lra.
  - simpl. unfold fisnan. destruct (feqb (Scalar := XR) x x); reflexivity.
Qed.

Lemma argmin_const (x : xr) l : Forall (fun y => y = x) l -> argmin (S := XR) l = 0%nat.
Proof.
  destruct l as [|y l]; [reflexivity|]. intros H. inversion H as [|? ? E1 E2]; subst. simpl.
  assert (G : forall i, argmin_from (S := XR) x 0 i l = 0%nat).
  { clear H. induction E2; intros i; simpl; auto. subst. rewrite min_before_irrefl. auto. }
  apply G.
Qed.

(* ---------------- legality of the inverse ---------------- *)

Lemma mapM_Forall {A B} (f : A -> res B) (P : B -> Prop) l r :
  mapM f l = Ok r -> (forall a b, In a l -> f a = Ok b -> P b) -> Forall P r.
Proof.
  revert r. induction l as [|a l IH]; intros r H HP; simpl in H.
  - injection H as <-. constructor.
  - apply bind_Ok in H as (b & Hb & H). apply bind_Ok in H as (bs & Hbs & H). injection H as <-.
    constructor; [eapply HP; eauto; now left|]. apply IH; auto. intros; eapply HP; eauto; now right.
Qed.

Section Legal.
  Local Open Scope nat_scope.
  Context {S : Scalar}.
  Lemma make_wrapper_Ok d spec bins bi w : make_wrapper d spec bins bi = Ok w ->
    dw_cont w = d /\ make_discretizer (fst spec) (snd spec) bins = Ok (dw_disc w) /\
    dz_bins (dw_disc w) = bins /\ dw_bin_inverse w = bi /\ dw_num_bins w = num_actions bins /\
    mapM (fun k => make_continuous (dw_disc w) (Z.of_nat k)) (seq 0 (Z.to_nat (num_actions bins)))
      = Ok (dw_all_cont w) /\
    discretize (dw_disc w) (repeat f0 (length (fst spec))) = Ok (dw_default w).
  Proof.
    intros H. unfold make_wrapper in H. apply bind_Ok in H as (disc & HD & H).
    apply bind_Ok in H as (all & HA & H). apply bind_Ok in H as (df & Hdf & H). injection H as <-.
    simpl. rewrite num_actions_prod. repeat split; auto.
    unfold make_discretizer in HD. repeat apply bind_Ok in HD as (? & _ & HD). now injection HD as <-.
  Qed.

  Lemma wrapper_inverse_legal d spec bins bi w tr ms t acts :
    make_wrapper d spec bins bi = Ok w -> Forall (fun b => (0 <= b)%Z) bins ->
    dw_inverse w tr ms t = Ok acts ->
    Forall (fun a => exists k, a_data a = [fofZ k] /\ (0 <= k <= num_actions bins - 1)%Z) acts.
  Proof.
    intros HW HB H. destruct (make_wrapper_Ok _ _ _ _ _ HW) as (E1 & E2 & E3 & E4 & E5 & E6 & E7).
    unfold dw_inverse in H. rewrite E4 in H. destruct bi.
    - apply bind_Ok in H as (ca & _ & H). eapply mapM_Forall; [exact H|].
      intros a b _ Hb. apply bind_Ok in Hb as (k & Hk & Hb). injection Hb as <-. exists k.
      split; [reflexivity|]. rewrite <- E3. eapply disc_index_range; [exact Hk|]. now rewrite E3.
    - unfold inverse_action_by_search in H.
      apply bind_Ok in H as (mask & _ & H). apply bind_Ok in H as (vs & _ & H).
      apply bind_Ok in H as (nexts & HN & H). apply bind_Ok in H as (log & _ & H). injection H as <-.
      apply Forall_forall. intros a Ha. apply In_nth_error in Ha as (i & Hi).
      rewrite nth_error_map2, nth_error_mapi in Hi.
      destruct (nth_error (map _ vs) i) as [v|]; [|discriminate].
      destruct (nth_error log i) as [l|]; [|discriminate]. simpl in Hi. injection Hi as <-.
      eexists. split; [reflexivity|]. destruct v; simpl.
      + assert (P : (1 <= num_actions bins)%Z).
        { rewrite num_actions_prod. apply prodZ_pos. clear - HB. induction HB; simpl; constructor; auto; lia. }
        pose proof (mapM_length _ _ _ HN) as LN. pose proof (mapM_length _ _ _ E6) as L6.
        rewrite seq_length in L6.
        match goal with |- context [argmin ?l] => pose proof (argmin_lt l) as AL end.
        rewrite map_length in AL.
        destruct nexts as [|n0 nexts]; [simpl in LN; lia|].
        specialize (AL ltac:(discriminate)). simpl length in *. lia.
      + rewrite <- E3. eapply disc_index_range; [exact E7|]. now rewrite E3.
  Qed.
End Legal.

(* ---------------- the search ---------------- *)

Open Scope R_scope.

Lemma corner_dist_Fin p q a b : has_box p a -> has_box q b ->
  corner_dist p q = Fin (corner_err a b).
Proof.
  intros (E1 & E2 & E3 & E4 & E5) (G1 & G2 & G3 & G4 & G5).
  unfold corner_dist, bbox_corners, pt_box. rewrite E1, E2, E3, E4, E5, G1, G2, G3, G4, G5.
  change (mkbox (S := XR) (Fin (rx a)) (Fin (ry a)) (Fin (rlen a)) (Fin (rwid a)) (Fin (ryaw a))) with (fbox a).
  change (mkbox (S := XR) (Fin (rx b)) (Fin (ry b)) (Fin (rlen b)) (Fin (rwid b)) (Fin (ryaw b))) with (fbox b).
  rewrite !corners_Fin. cbn [map map2 finv fst snd fold_left]. xr.
  rewrite fsqrt_Fin.
  2:{ repeat apply Rplus_le_le_0_compat; try lra; apply Rle_0_sqr. }
  f_equal. unfold corner_err. f_equal. unfold rpoint; cbn [fst snd]. field.
Qed.

Lemma search_Ok n T tr ms t d all ph acts : 
  (rect n T tr -> t + 1 < T -> length ms = n ->
  inverse_action_by_search (S := XR) tr ms (Z.of_nat t) d all ph = Ok acts ->
  length acts = n /\
  forall i, i < n -> exists row v k l, nth_error tr i = Some row /\ v = valid_pair t row /\
    at2 tr i (t + 1) = Some l /\
    nth_error acts i = Some (mkact [Fin (IZR (if v : bool then Z.of_nat k else ph))] v) /\
    exists qs, length qs = length all /\
      (forall j r, nth_error all j = Some r -> exists sim q,
         forward d (map (fun row => mkact r (valid_pair t row)) tr) tr tr (map m_is_sdc ms) (Z.of_nat t) false = Ok sim /\
         at2 sim i (t + 1) = Some q /\ nth_error qs j = Some q) /\
      k = argmin (map (fun q => corner_dist q l) qs))%nat.
Proof.
  intros R HT Lms H. unfold inverse_action_by_search in H.
  apply bind_Ok in H as (mask & Hm & H). simpl in Hm. injection Hm as <-.
  apply bind_Ok in H as (vs & Hvs & H).
  apply bind_Ok in H as (nexts & HN & H). apply bind_Ok in H as (log & HL & H). injection H as <-.
  destruct (dynamic_slice_Ok n T _ _ 2 _ (rect_map _ _ p_valid _ R) Hvs) as [Rv Av].
  rewrite norm_start_of_nat in Av by lia.
  assert (EV : map (fun r => nth 0 r false && nth 1 r false) vs = map (valid_pair t) tr).
  { apply nth_error_ext_eq. intros i. rewrite !nth_error_map.
    destruct (Nat.lt_ge_cases i n) as [Hi|Hi].
    - assert (A0 := Av i 0%nat Hi ltac:(lia)). assert (A1 := Av i 1%nat Hi ltac:(lia)).
      rewrite !at2_map in A0, A1. unfold at2 in A0, A1.
      destruct (nth_error vs i) as [r|] eqn:Er.
      2:{ apply nth_error_None in Er. destruct Rv. lia. }
      destruct (nth_error tr i) as [row|] eqn:Et.
      2:{ apply nth_error_None in Et. destruct R. lia. }
      simpl. f_equal. unfold valid_pair. rewrite Nat.add_0_r in A0.
      assert (Lr : length row = T) by (destruct R as [_ R]; apply R; eapply nth_error_In; eauto).
      destruct (nth_error row t) as [p|] eqn:E0; [|apply nth_error_None in E0; lia].
      destruct (nth_error row (t + 1)) as [q|] eqn:E1; [|apply nth_error_None in E1; lia].
      simpl in A0, A1. rewrite (nth_error_nth r 0 false A0), (nth_error_nth r 1 false A1). reflexivity.
    - destruct Rv as [Rv _], R as [R _].
      rewrite (proj2 (nth_error_None vs i)), (proj2 (nth_error_None tr i)) by lia. reflexivity. }
  rewrite EV in *.
  destruct (dynamic_index_Ok n T tr _ _ R HL) as [LL AL].
  replace (Z.of_nat t + 1)%Z with (Z.of_nat (t + 1)) in AL by lia.
  rewrite norm_start_of_nat in AL by lia.
  split.
  { rewrite map2_length, map_length, mapi_length. destruct R. lia. }
  intros i Hi.
  destruct (nth_error tr i) as [row|] eqn:Et.
  2:{ apply nth_error_None in Et. destruct R. lia. }
  destruct (nth_error log i) as [l|] eqn:El.
  2:{ apply nth_error_None in El. lia. }
  exists row, (valid_pair t row). eexists. exists l.
  split; [reflexivity|]. split; [reflexivity|]. split; [rewrite <- AL by auto; exact El|].
  split.
  { rewrite nth_error_map2, nth_error_mapi, nth_error_map, Et, El. reflexivity. }
  exists (map (fun next => nth i next zero_pt) nexts). split; [rewrite map_length; eapply mapM_length; eauto|].
  split; [|now rewrite map_map].
  intros j r Hj. destruct (mapM_nth _ _ _ _ _ HN Hj) as (next & Hnx & Hnn).
  unfold search_next in Hnx. rewrite map_map in Hnx.
  apply bind_Ok in Hnx as (sim & HF & HI). exists sim, (nth i next zero_pt).
  split; [exact HF|].
  destruct (forward_Ok n T _ _ _ _ _ _ _ _ R R ltac:(lia) HF) as (cur & us & _ & _ & _ & _ & _ & HA).
  destruct (apply_Ok n T _ _ _ _ _ _ _ _ R R ltac:(lia) HA) as (_ & _ & Rs & _).
  destruct (dynamic_index_Ok n T sim _ _ Rs HI) as [LN AN].
  replace (Z.of_nat t + 1)%Z with (Z.of_nat (t + 1)) in AN by lia.
  rewrite norm_start_of_nat in AN by lia.
  split.
  - rewrite <- AN by auto. apply nth_error_nth'. lia.
  - now rewrite nth_error_map, Hnn.
Qed.

(** The candidate frames are those of the discrete actions. *)
Lemma all_cont_nth {S : Scalar} d spec bins bi w j :
  make_wrapper d spec bins bi = Ok w -> (0 <= j < num_actions bins)%Z ->
  exists r, make_continuous (dw_disc w) j = Ok r /\ nth_error (dw_all_cont w) (Z.to_nat j) = Some r.
Proof.
  intros HW Hj. destruct (make_wrapper_Ok _ _ _ _ _ HW) as (E1 & E2 & E3 & E4 & E5 & E6 & E7).
  destruct (mapM_nth _ _ _ (Z.to_nat j) (Z.to_nat j) E6) as (r & Hr & Hn).
  { rewrite (nth_error_nth' _ 0%nat) by (rewrite seq_length; lia). rewrite seq_nth by lia. reflexivity. }
  rewrite Z2Nat.id in Hr by lia. eauto.
Qed.

Lemma search_optimal d spec bins w n T tr ms t acts i x (b : Z -> rbox) l bl :
  make_wrapper (S := XR) d spec bins false = Ok w -> Forall (fun b => (0 <= b)%Z) bins ->
  rect n T tr -> (t + 1 < T)%nat -> length ms = n -> (i < n)%nat ->
  at2 tr i (t + 1) = Some l -> has_box l bl ->
  (forall j r sim q, (0 <= j < num_actions bins)%Z -> make_continuous (dw_disc w) j = Ok r ->
     forward d (map (fun row => mkact r (valid_pair t row)) tr) tr tr
       (map m_is_sdc ms) (Z.of_nat t) false = Ok sim ->
     at2 sim i (t + 1) = Some q -> has_box q (b j)) ->
  dw_inverse w tr ms (Z.of_nat t) = Ok acts ->
  nth_error acts i = Some (mkact [x] true) ->
  exists k, x = Fin (IZR k) /\ (0 <= k < num_actions bins)%Z /\
    forall j, (0 <= j < num_actions bins)%Z ->
      corner_err (b k) bl <= corner_err (b j) bl /\
      ((j < k)%Z -> corner_err (b k) bl < corner_err (b j) bl).
Proof.
  intros HW HB R HT Lms Hi Hl Hbl Hbox HI Ha.
  destruct (make_wrapper_Ok _ _ _ _ _ HW) as (E1 & E2 & E3 & E4 & E5 & E6 & E7).
  unfold dw_inverse in HI. rewrite E4, E1 in HI.
  destruct (search_Ok n T _ _ _ _ _ _ _ R HT Lms HI) as [_ S].
  destruct (S i Hi) as (row & v & k & l' & Hrow & Hv & Hl' & Ha' & qs & Lqs & Hqs & Hk).
  rewrite Hl in Hl'. injection Hl' as <-.
  rewrite Ha in Ha'. injection Ha' as Ex Ev. subst v. rewrite <- Ev in Ex.
  assert (P : (1 <= num_actions bins)%Z).
  { rewrite num_actions_prod. apply prodZ_pos. clear - HB. induction HB; simpl; constructor; auto; lia. }
  pose proof (mapM_length _ _ _ E6) as L6. rewrite seq_length in L6.
  set (N := Z.to_nat (num_actions bins)) in *.
  assert (Hq : forall j, (j < N)%nat -> exists q, nth_error qs j = Some q /\ has_box q (b (Z.of_nat j))).
  { intros j Hj. destruct (all_cont_nth _ _ _ _ _ (Z.of_nat j) HW ltac:(lia)) as (r & Hr & Hn).
    rewrite Nat2Z.id in Hn. destruct (Hqs j r Hn) as (sim & q & HF & Hq & Hn').
    exists q. split; auto. eapply Hbox; eauto. lia. }
  assert (ED : map (fun q => corner_dist q l) qs
             = map Fin (map (fun j => corner_err (b (Z.of_nat j)) bl) (seq 0 N))).
  { apply nth_error_ext_eq. intros j. rewrite !nth_error_map.
    destruct (Nat.lt_ge_cases j N) as [Hj|Hj].
    - destruct (Hq j Hj) as (q & -> & Hqb).
      rewrite (nth_error_nth' _ 0%nat) by (rewrite seq_length; lia). rewrite seq_nth by lia.
      simpl. f_equal. now apply corner_dist_Fin.
    - rewrite (proj2 (nth_error_None qs j)) by lia.
      rewrite (proj2 (nth_error_None (seq 0 N) j)) by (rewrite seq_length; lia). reflexivity. }
  rewrite ED in Hk.
  destruct (argmin_spec (map (fun j => corner_err (b (Z.of_nat j)) bl) (seq 0 N))) as (r & Hr & HM).
  { destruct N eqn:EN; [lia|discriminate]. }
  rewrite <- Hk in Hr, HM.
  assert (HkN : (k < N)%nat).
  { apply nth_error_Some_lt in Hr. now rewrite map_length, seq_length in Hr. }
  rewrite nth_error_map, (nth_error_nth' _ 0%nat), seq_nth in Hr by (rewrite ?seq_length; lia).
  simpl in Hr. injection Hr as <-.
  exists (Z.of_nat k). split; [exact Ex|]. split; [lia|].
  intros j Hj. specialize (HM (Z.to_nat j) (corner_err (b j) bl)).
  rewrite nth_error_map, (nth_error_nth' _ 0%nat), seq_nth in HM by (rewrite ?seq_length; lia).
  simpl in HM. rewrite Z2Nat.id in HM by lia. destruct (HM eq_refl) as [M1 M2].
  split; auto. intros; apply M2; lia.
Qed.

(** An object that is not the SDC is never moved by the candidate actions, so the
    search always answers index 0 for it. *)
Lemma search_non_sdc d spec bins w n T tr ms t acts i m x :
  make_wrapper (S := XR) d spec bins false = Ok w ->
  rect n T tr -> (t + 1 < T)%nat -> length ms = n ->
  nth_error ms i = Some m -> m_is_sdc m = false ->
  dw_inverse w tr ms (Z.of_nat t) = Ok acts ->
  nth_error acts i = Some (mkact [x] true) -> x = Fin (IZR 0).
Proof.
  intros HW R HT Lms Hm Hs HI Ha.
  destruct (make_wrapper_Ok _ _ _ _ _ HW) as (E1 & E2 & E3 & E4 & E5 & E6 & E7).
  unfold dw_inverse in HI. rewrite E4, E1 in HI.
  assert (Hi : (i < n)%nat) by (rewrite <- Lms; eapply nth_error_Some_lt; eauto).
  destruct (search_Ok n T _ _ _ _ _ _ _ R HT Lms HI) as [_ S].
  destruct (S i Hi) as (row & v & k & l & Hrow & Hv & Hl & Ha' & qs & Lqs & Hqs & Hk).
  rewrite Ha in Ha'. injection Ha' as Ex Ev. subst v. rewrite <- Ev in Ex.
  destruct (rect_at2 _ _ _ i t R Hi ltac:(lia)) as [p0 Hp0].
  set (q0 := mkpt (p_x l) (p_y l) (p_z p0) (p_vx l) (p_vy l) (p_yaw l) true 0 (p_len p0) (p_wid p0) (p_hei p0)).
  assert (C : Forall (fun y => y = corner_dist q0 l) (map (fun q => corner_dist q l) qs)).
  { apply Forall_forall. intros y Hy. apply in_map_iff in Hy as (q & <- & Hq).
    apply In_nth_error in Hq as (j & Hj). pose proof (nth_error_Some_lt _ _ _ Hj) as Lj.
    destruct (nth_error_lt_Some (dw_all_cont w) j) as [r Hr]; [lia|].
    destruct (Hqs j r Hr) as (sim & q' & HF & Hq' & Hn'). rewrite Hj in Hn'. injection Hn' as <-.
    destruct (forward_Ok n T _ _ _ _ _ _ _ _ R R ltac:(lia) HF) as (cur & us & _ & _ & Lc & _ & _ & HA).
    destruct (apply_Ok n T _ _ _ _ _ _ _ _ R R ltac:(lia) HA)
      as (Lu & Lk & Rs & cur' & nxt & Lc' & Ln & Ac & An & As).
    rewrite As in Hq' by auto.
    replace (Z.of_nat t + 1)%Z with (Z.of_nat (t + 1)) in * by lia.
    rewrite norm_start_of_nat in * by lia. rewrite Nat.eqb_refl, nth_error_map4 in Hq'.
    rewrite Ac, An, Hp0, Hl, nth_error_map, Hm in Hq' by auto.
    destruct (nth_error us i) as [u|]; [|discriminate]. simpl in Hq'. injection Hq' as <-.
    unfold next_pt. rewrite Hs. reflexivity. }
  rewrite (argmin_const _ _ C) in Hk. subst k. exact Ex.
Qed.

(** Invalid pairs get the default index, the code of the all-zeros action. *)
Lemma search_invalid d spec bins w n T tr ms t acts i a :
  make_wrapper (S := XR) d spec bins false = Ok w ->
  rect n T tr -> (t + 1 < T)%nat -> length ms = n ->
  dw_inverse w tr ms (Z.of_nat t) = Ok acts ->
  nth_error acts i = Some a ->
  exists row k, nth_error tr i = Some row /\ a_valid a = valid_pair t row /\
    discretize (dw_disc w) (repeat (Fin 0) (length (fst spec))) = Ok k /\
    (a_valid a = false -> a_data a = [Fin (IZR k)]).
Proof.
  intros HW R HT Lms HI Ha.
  destruct (make_wrapper_Ok _ _ _ _ _ HW) as (E1 & E2 & E3 & E4 & E5 & E6 & E7).
  unfold dw_inverse in HI. rewrite E4, E1 in HI.
  destruct (search_Ok n T _ _ _ _ _ _ _ R HT Lms HI) as [La S].
  assert (Hi : (i < n)%nat) by (rewrite <- La; eapply nth_error_Some_lt; eauto).
  destruct (S i Hi) as (row & v & k & l & Hrow & Hv & Hl & Ha' & _).
  rewrite Ha in Ha'. injection Ha' as ->. exists row, (dw_default w). simpl.
  split; auto. split; auto. split.
  - rewrite <- E7. rewrite f0_Fin. reflexivity.
  - intros ->. reflexivity.
Qed.

Lemma wrapper_total d mins maxs bins bi : disc_bounds mins maxs bins ->
  exists w, make_wrapper (S := XR) d (map Fin mins, map Fin maxs) bins bi = Ok w.
Proof.
  intros D. destruct (disc_total mins maxs bins (repeat (Fin 0) (length mins)) D) as (disc & HD & HC & HE).
  unfold make_wrapper. cbn [fst snd]. rewrite HD. cbn [bind].
  destruct (mapM_total (fun k => make_continuous disc (Z.of_nat k))
    (seq 0 (Z.to_nat (prodZ (map (fun b => (b + 1)%Z) bins))))) as [all HA].
  { intros k _. apply HC. }
  rewrite HA. cbn [bind]. rewrite map_length. rewrite f0_Fin.
  destruct HE as [k Hk].
  - now rewrite repeat_length.
  - apply Forall_forall. intros x Hx. apply repeat_spec in Hx. subst. discriminate.
  - match type of Hk with ?a = _ => match goal with |- context [bind ?b _] => change b with a end end.
    rewrite Hk. cbn [bind]. eauto.
Qed.

(** The search never fails when every candidate can be applied. *)
Lemma search_total {S : Scalar} d spec bins w n T (tr : traj) ms t (ok : act -> Prop) :
  make_wrapper d spec bins false = Ok w -> dyn_total d ok ->
  (forall r v, In r (dw_all_cont w) -> ok (mkact r v)) ->
  rect n T tr -> (t + 1 < T)%nat -> length ms = n ->
  exists acts, dw_inverse w tr ms (Z.of_nat t) = Ok acts.
Proof.
  intros HW D HO R HT Lms. destruct (make_wrapper_Ok _ _ _ _ _ HW) as (E1 & E2 & E3 & E4 & E5 & E6 & E7).
  unfold dw_inverse. rewrite E4, E1. unfold inverse_action_by_search. simpl get_control_mask. cbn [bind].
  destruct (dynamic_slice_total n T (map (map p_valid) tr) (Z.of_nat t) 2) as [vs Hvs];
    [now apply rect_map|lia|].
  rewrite Hvs. cbn [bind].
  assert (Lv : length vs = n).
  { destruct (dynamic_slice_Ok n T _ _ 2 _ (rect_map _ _ p_valid _ R) Hvs) as [[Rv _] _]. exact Rv. }
  set (valid := map (fun r => nth 0 r false && nth 1 r false) vs).
  destruct (mapM_total (search_next d tr (map m_is_sdc ms) valid (Z.of_nat t)) (dw_all_cont w)) as [nexts HN].
  { intros r Hr. unfold search_next.
    assert (La : length (map (fun v => mkact r v) valid) = n) by (unfold valid; rewrite !map_length; exact Lv).
    assert (exists sim, forward d (map (fun v => mkact r v) valid) tr tr (map m_is_sdc ms) (Z.of_nat t) false = Ok sim)
      as [sim HF].
    { unfold forward. rewrite La, map_length, Lms. destruct R as [R1 R2] eqn:ER. rewrite R1, Nat.eqb_refl.
      cbn [andb guard bind].
      destruct (dynamic_index_total n T tr (Z.of_nat t) R ltac:(lia)) as [cur Hc]. rewrite Hc. cbn [bind].
      destruct (dynamic_index_Ok n T tr _ _ R Hc) as [Lc _].
      destruct (D (map (fun v => mkact r v) valid) cur) as (us & Hu & Lu); [lia| |].
      { apply Forall_forall. intros a Ha. apply in_map_iff in Ha as (v & <- & _). auto. }
      rewrite Hu. cbn [bind]. apply (apply_total n T); auto; try lia. rewrite map_length. exact Lms. }
    rewrite HF. cbn [bind].
    destruct (forward_Ok n T _ _ _ _ _ _ _ _ R R ltac:(lia) HF) as (cur & us & _ & _ & _ & _ & _ & HA).
    destruct (apply_Ok n T _ _ _ _ _ _ _ _ R R ltac:(lia) HA) as (_ & _ & Rs & _).
    apply (dynamic_index_total n T); auto. lia. }
  rewrite HN. cbn [bind].
  destruct (dynamic_index_total n T tr (Z.of_nat t + 1) R ltac:(lia)) as [log Hlog]. rewrite Hlog. cbn [bind].
  eauto.
Qed.

(** DeltaGlobal: the candidates spelled out. *)
From Verif.Model Require Import Dyn_Delta Dyn_State.
From Verif.Proofs Require Import P_Actions.

Definition moved_box (b : rbox) (r : list xr) : rbox :=
  match r with
  | [Fin dx; Fin dy; Fin dyaw] => mkrbox (rx b + dx) (ry b + dy) (rlen b) (rwid b) (ryaw b + dyaw)
  | _ => b
  end.

Lemma three_Fin (r : list xr) (l : list R) : length l = 3%nat ->
  r = map Fin l -> exists a b c, r = [Fin a; Fin b; Fin c].
Proof.
  intros L ->. destruct l as [|a [|b [|c [|d l]]]]; try discriminate. simpl. eauto.
Qed.

Lemma decode_Fin mins maxs bins d j : disc_bounds mins maxs bins ->
  make_discretizer (S := XR) (map Fin mins) (map Fin maxs) bins = Ok d ->
  exists l, make_continuous d j = Ok (map Fin l) /\ length l = length mins.
Proof.
  intros DB HD. apply disc_bounds_dok in DB as D.
  rewrite make_discretizer_rdisc in HD by auto. injection HD as <-.
  rewrite make_continuous_rdisc by auto. eexists. split; [reflexivity|].
  set (is := unravel_index _ _).
  assert (Li : length is = length mins).
  { unfold is, unravel_index. rewrite unravel_length, map_length. apply (dok_len _ _ _ D). }
  clearbody is. clear DB. revert is Li. induction D; intros [|i is] Li; try discriminate; simpl in *; auto.
Qed.

Lemma search_delta_optimal dt mx my myaw bins w n T tr ms t acts i m x p0 l b0 bl :
  dt <> 0 -> 0 < mx -> 0 < my -> 0 < myaw ->
  length bins = 3%nat -> Forall (fun b => (1 <= b)%Z) bins ->
  make_wrapper (DeltaGlobal (dparams dt mx my myaw)) (delta_spec (dparams dt mx my myaw)) bins false = Ok w ->
  rect n T tr -> (t + 1 < T)%nat -> length ms = n ->
  nth_error ms i = Some m -> m_is_sdc m = true ->
  at2 tr i t = Some p0 -> has_box p0 b0 -> at2 tr i (t + 1) = Some l -> has_box l bl ->
  dw_inverse w tr ms (Z.of_nat t) = Ok acts ->
  nth_error acts i = Some (mkact [x] true) ->
  exists k r, x = Fin (IZR k) /\ (0 <= k < num_actions bins)%Z /\ make_continuous (dw_disc w) k = Ok r /\
    forall j r', (0 <= j < num_actions bins)%Z -> make_continuous (dw_disc w) j = Ok r' ->
      corner_err (moved_box b0 r) bl <= corner_err (moved_box b0 r') bl /\
      ((j < k)%Z -> corner_err (moved_box b0 r) bl < corner_err (moved_box b0 r') bl).
Proof.
  intros Hdt Hmx Hmy Hyaw Lb Fb HW R HT Lms Hm Hs Hp0 Hb0 Hl Hbl HI Ha.
  destruct (make_wrapper_Ok _ _ _ _ _ HW) as (E1 & E2 & E3 & E4 & E5 & E6 & E7).
  assert (Hi : (i < n)%nat) by (rewrite <- Lms; eapply nth_error_Some_lt; eauto).
  assert (DB : disc_bounds [- mx; - my; - myaw] [mx; my; myaw] bins).
  { split; [reflexivity|]. split; [simpl; auto|]. split.
    - intros [|[|[|j]]] lo hi H1 H2; simpl in *; try (injection H1 as <-; injection H2 as <-; lra).
      destruct j; discriminate.
    - intros j b Hb. rewrite Forall_forall in Fb. apply Fb. eapply nth_error_In; eauto. }
  change (make_discretizer (S := XR) (map Fin [- mx; - my; - myaw]) (map Fin [mx; my; myaw]) bins = Ok (dw_disc w)) in E2.
  set (b := fun j => match make_continuous (dw_disc w) j with Ok r => moved_box b0 r | Err _ => b0 end).
  destruct (search_optimal _ _ _ _ n T tr ms t acts i x b l bl HW) as (k & Hx & Hk & HO); auto.
  { clear - Fb. induction Fb; constructor; auto; lia. }
  { intros j r sim q Hj Hr HF Hq. unfold b. rewrite Hr.
    destruct (decode_Fin _ _ _ _ j DB E2) as (lr & Hlr & Llr). rewrite Hr in Hlr. injection Hlr as ->.
    destruct lr as [|dx [|dy [|dyaw [|? ?]]]]; try discriminate. clear Llr.
    destruct (forward_Ok n T _ _ _ _ _ _ _ _ R R ltac:(lia) HF) as (cur & us & La & Lk' & Lc & Hcur & HU & HA).
    destruct (apply_Ok n T _ _ _ _ _ _ _ _ R R ltac:(lia) HA)
      as (Lu & Lk & Rs & cur' & nxt & Lc' & Ln & Ac & An & As).
    rewrite As in Hq by auto.
    replace (Z.of_nat t + 1)%Z with (Z.of_nat (t + 1)) in * by lia.
    rewrite norm_start_of_nat in * by lia. rewrite Nat.eqb_refl, nth_error_map4 in Hq.
    rewrite Ac, An, Hp0, Hl, nth_error_map, Hm in Hq by auto.
    destruct (nth_error tr i) as [row|] eqn:Erow.
    2:{ apply nth_error_None in Erow. destruct R. lia. }
    assert (Hu : nth_error us i = Some (mkupd (fadd (p_x p0) (Fin dx)) (fadd (p_y p0) (Fin dy)) (fadd (p_yaw p0) (Fin dyaw))
                   (fdiv (Fin dx) (Fin dt)) (fdiv (Fin dy) (Fin dt)) (p_valid p0 && valid_pair t row))).
    { assert (Hci : nth_error cur i = Some p0) by (rewrite Hcur; auto).
      eapply (per_object_nth _ _ _ _ _ (mkact (S := XR) [Fin dx; Fin dy; Fin dyaw] (valid_pair t row)));
        [exact HU| |exact Hci|reflexivity].
      rewrite nth_error_map, Erow. reflexivity. }
    rewrite Hu in Hq. simpl in Hq. injection Hq as <-. unfold next_pt. rewrite Hs.
    destruct Hb0 as (B1 & B2 & B3 & B4 & B5). unfold has_box; cbn [p_x p_y p_len p_wid p_yaw u_x u_y u_yaw moved_box map rx ry rlen rwid ryaw].
    rewrite B1, B2, B3, B4, B5, !fadd_Fin. repeat split. }
  destruct (all_cont_nth _ _ _ _ _ k HW Hk) as (r & Hr & _).
  exists k, r. split; auto. split; auto. split; auto.
  intros j r' Hj Hr'. specialize (HO j Hj). unfold b in HO. rewrite Hr, Hr' in HO. exact HO.
Qed.

Lemma wrapper_spec d mins maxs bins bi w : disc_bounds mins maxs bins ->
  make_wrapper (S := XR) d (map Fin mins, map Fin maxs) bins bi = Ok w ->
  let lo := fst (dw_spec w) in let hi := snd (dw_spec w) in
  (hi - lo + 1 = num_actions bins)%Z /\
  (forall k, (lo <= k <= hi)%Z -> exists r, make_continuous (dw_disc w) k = Ok r /\
     length r = length mins /\ discretize (dw_disc w) r = Ok k) /\
  (forall vs k, discretize (dw_disc w) vs = Ok k -> (lo <= k <= hi)%Z).
Proof.
  intros DB HW. destruct (make_wrapper_Ok _ _ _ _ _ HW) as (_ & HD & EB & _ & EN & _ & _).
  cbn zeta. unfold dw_spec; cbn [fst snd]. rewrite EN. split; [lia|]. split.
  - intros k Hk. destruct (disc_decode_encode mins maxs bins (dw_disc w) k DB HD ltac:(lia)) as (r & H1 & H2 & H3 & _).
    exists r. auto.
  - intros vs k H. pose proof (disc_index_range _ _ _ H) as B. rewrite EB in B.
    apply B. destruct DB as (_ & _ & _ & PB). apply Forall_forall. intros b Hb.
    apply In_nth_error in Hb as [j Hj]. specialize (PB j b Hj). lia.
Qed.
