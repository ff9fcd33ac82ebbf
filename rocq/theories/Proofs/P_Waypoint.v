(** Proofs for C43: projection on the logged route. *)
From Coq Require Import Reals List ZArith Bool Lra Lia Psatz.
From Verif.Lib Require Import Base JaxIndex Scalar XR.
From Verif.Model Require Import Operations State Dynamics Geometry Discretizer Metrics Actor Waypoint.
From Verif.Spec Require Import StateSpec GeomSpec WaypointSpec.
From Verif.Proofs Require Import Core P_DiscWrap P_Pose P_Metrics P_IDM P_Lead.
Import ListNotations.
Open Scope R_scope.

(* ---------------- argmax of the valid indices ---------------- *)

Lemma argmaxn_from_spec l best bi i pre :
  (i = length pre -> bi < i -> nth_error pre bi = Some best ->
   (forall j r, nth_error pre j = Some r -> r <= best) ->
   exists r, nth_error (pre ++ l) (argmaxn_from best bi i l) = Some r /\
     forall j r', nth_error (pre ++ l) j = Some r' -> r' <= r)%nat.
Proof.
  revert best bi i pre. induction l as [|x l IH]; intros best bi i pre Hi Hb Hn HM.
  - rewrite app_nil_r. simpl. eauto.
  - simpl argmaxn_from. assert (E : pre ++ x :: l = (pre ++ [x]) ++ l) by (rewrite <- app_assoc; reflexivity).
    rewrite E. destruct (best <? x)%nat eqn:C.
    + apply Nat.ltb_lt in C. apply IH.
      * rewrite app_length; simpl; lia.
      * lia.
      * rewrite nth_error_app2 by lia. subst i. now rewrite Nat.sub_diag.
      * intros j r Hj. destruct (Nat.lt_ge_cases j (length pre)) as [J|J].
        -- rewrite nth_error_app1 in Hj by auto. specialize (HM j r Hj). lia.
        -- rewrite nth_error_app2 in Hj by auto. destruct (j - length pre)%nat as [|q]; [|destruct q; discriminate].
           apply Some_inj in Hj. lia.
    + apply Nat.ltb_ge in C. apply IH.
      * rewrite app_length; simpl; lia.
      * lia.
      * rewrite nth_error_app1; auto. apply nth_error_Some_lt in Hn. auto.
      * intros j r Hj. destruct (Nat.lt_ge_cases j (length pre)) as [J|J].
        -- rewrite nth_error_app1 in Hj by auto. exact (HM j r Hj).
        -- rewrite nth_error_app2 in Hj by auto. destruct (j - length pre)%nat as [|q]; [|destruct q; discriminate].
           apply Some_inj in Hj. lia.
Qed.

Lemma argmaxn_spec l : l <> [] -> exists r, nth_error l (argmaxn l) = Some r /\
  forall j r', nth_error l j = Some r' -> (r' <= r)%nat.
Proof.
  destruct l as [|x l]; [congruence|]. intros _. apply (argmaxn_from_spec l x 0 1 [x]); auto.
  intros [|j] r H; [|destruct j; discriminate]. apply Some_inj in H. lia.
Qed.

Definition vidx {S : Scalar} (tr : list (pt (S := S))) : list nat := mapi (fun i w => if p_valid w then i else 0%nat) tr.

Lemma last_idx {S : Scalar} (tr : list (pt (S := S))) k0 p0 : nth_error tr k0 = Some p0 -> p_valid p0 = true ->
  exists p, nth_error tr (argmaxn (vidx tr)) = Some p /\ 
    (p_valid p = true \/ argmaxn (vidx tr) = 0%nat) /\
    forall j p', nth_error tr j = Some p' -> p_valid p' = true -> (j <= argmaxn (vidx tr))%nat.
Proof.
  intros H0 V0. destruct (argmaxn_spec (vidx tr)) as (r & Hr & HM).
  { intros E. assert (length (vidx tr) = length tr) by apply mapi_length. rewrite E in H.
    apply nth_error_Some_lt in H0. simpl in H. lia. }
  set (a := argmaxn (vidx tr)) in *.
  unfold vidx in Hr. rewrite nth_error_mapi in Hr. destruct (nth_error tr a) as [p|] eqn:Ep; [|discriminate].
  cbn [option_map] in Hr. apply Some_inj in Hr. exists p. split; auto.
  assert (B : forall j p', nth_error tr j = Some p' -> p_valid p' = true -> (j <= r)%nat).
  { intros j p' Hj Vj. apply (HM j). unfold vidx. rewrite nth_error_mapi, Hj. cbn [option_map]. now rewrite Vj. }
  destruct (p_valid p) eqn:Vp.
  - subst r. split; auto.
  - subst r. split.
    + right. pose proof (B k0 p0 H0 V0). assert (k0 = 0%nat) by lia. subst k0.
      unfold a. clear -HM.
      assert (Z : forall x, In x (vidx tr) -> (x <= 0)%nat).
      { intros x Hx. apply In_nth_error in Hx as [j Hj]. eauto. }
      unfold argmaxn. destruct (vidx tr) as [|x l]; auto.
      assert (x = 0)%nat by (specialize (Z x (or_introl eq_refl)); lia). subst x.
      assert (G : forall l i, (forall x, In x l -> (x <= 0)%nat) -> argmaxn_from 0 0 i l = 0%nat).
      { intros l'. induction l' as [|y l' IH]; intros i Hz; auto. simpl.
        assert (y = 0)%nat by (specialize (Hz y (or_introl eq_refl)); lia). subst y. simpl.
        apply IH. intros x Hx. apply Hz. now right. }
      apply G. intros x Hx. apply Z. now right.
    + intros j p' Hj Vj. pose proof (B j p' Hj Vj). lia.
Qed.

Lemma last_idx_valid {S : Scalar} (tr : list (pt (S := S))) k0 p0 : nth_error tr k0 = Some p0 -> p_valid p0 = true ->
  exists p, nth_error tr (argmaxn (vidx tr)) = Some p /\ p_valid p = true /\
    forall j p', nth_error tr j = Some p' -> p_valid p' = true -> (j <= argmaxn (vidx tr))%nat.
Proof.
  intros H0 V0. destruct (last_idx tr k0 p0 H0 V0) as (p & Hp & C & B). exists p. split; auto. split; auto.
  destruct C as [C|C]; auto. pose proof (B k0 p0 H0 V0) as L. assert (k0 = 0%nat) by lia. subst k0.
  rewrite C in Hp. rewrite H0 in Hp. apply Some_inj in Hp. now subst.
Qed.

(* ---------------- the projection ---------------- *)

Definition wp_dists (q : R * R) (tr : list (pt (S := XR))) : list xr :=
  map (fun w => if p_valid w then norm2 (S := XR) (fsub (Scalar := XR) (p_x w) (Fin (fst q)))
                                    (fsub (Scalar := XR) (p_y w) (Fin (snd q))) else PInf) tr.

Lemma dist_sym p q : dist p q = dist q p.
Proof. unfold dist. f_equal. ring. Qed.

Lemma wp_dist_way w p q : is_way p w ->
  norm2 (S := XR) (fsub (Scalar := XR) (p_x p) (Fin (fst q))) (fsub (Scalar := XR) (p_y p) (Fin (snd q)))
  = Fin (dist q (wxy w)).
Proof.
  intros (A & B & _). rewrite A, B, !fsub_Fin, norm2_Fin. f_equal. rewrite dist_sym. reflexivity.
Qed.

Section Project.
  Variables (tr : list (pt (S := XR))) (q : R * R).
  Hypothesis W : forall j p, nth_error tr j = Some p -> p_valid p = true -> exists w, is_way p w.
  Variables (k0 : nat) (p0 : pt (S := XR)).
  Hypothesis H0 : nth_error tr k0 = Some p0.
  Hypothesis V0 : p_valid p0 = true.

  Lemma nearest_idx : exists p w, nth_error tr (argmin (S := XR) (wp_dists q tr)) = Some p /\ p_valid p = true /\
    is_way p w /\ nth_error (wp_dists q tr) (argmin (S := XR) (wp_dists q tr)) = Some (Fin (dist q (wxy w))) /\
    nearest_waypoint tr q w.
  Proof.
    set (ds := wp_dists q tr).
    assert (N : ds <> []).
    { intros E. assert (length ds = length tr) by apply map_length. rewrite E in H. apply nth_error_Some_lt in H0. simpl in H. lia. }
    assert (En : forall j p w, nth_error tr j = Some p -> p_valid p = true -> is_way p w ->
                   nth_error ds j = Some (Fin (dist q (wxy w)))).
    { intros j p w Hj Vj Hw. unfold ds, wp_dists. rewrite nth_error_map, Hj. cbn [option_map]. rewrite Vj.
      now rewrite (wp_dist_way w). }
    assert (O : Forall okd ds).
    { apply Forall_forall. intros x Hx. apply In_nth_error in Hx as [j Hj].
      unfold ds, wp_dists in Hj. rewrite nth_error_map in Hj. destruct (nth_error tr j) as [p|] eqn:Ep; [|discriminate].
      cbn [option_map] in Hj. apply Some_inj in Hj. subst x. destruct (p_valid p) eqn:Vp; [|exact I].
      destruct (W j p Ep Vp) as [w Hw]. rewrite (wp_dist_way w) by auto. exact I. }
    destruct (argmin_okd ds N O) as (r & Hr & HM). set (k := argmin (S := XR) ds) in *.
    pose proof Hr as Hr'. unfold ds, wp_dists in Hr'. rewrite nth_error_map in Hr'.
    destruct (nth_error tr k) as [p|] eqn:Ep; [|discriminate]. cbn [option_map] in Hr'. apply Some_inj in Hr'.
    destruct (W k0 p0 H0 V0) as [w0 Hw0]. pose proof (En k0 p0 w0 H0 V0 Hw0) as E0.
    destruct (p_valid p) eqn:Vp.
    - destruct (W k p Ep Vp) as [w Hw]. exists p, w. repeat (split; [solve [auto]|]).
      split; [now apply (En k p w)|]. exists k, p. repeat (split; [solve [auto]|]).
      intros j p' w' Hj Vj Hw'. pose proof (En k p w Ep Vp Hw) as Ek. rewrite Hr in Ek. apply Some_inj in Ek. subst r.
      destruct (HM j _ (En j p' w' Hj Vj Hw')) as [A B]. rewrite Ek in A, B. simpl in A, B. apply Rltb_false in A.
      split; [lra|]. intros J. specialize (B J). now apply Rltb_true in B.
    - subst r. destruct (HM k0 _ E0) as [A _]. discriminate.
  Qed.

  Lemma project_real ext : exists w xy reached,
    nearest_waypoint tr q w /\ (reached = true <-> route_end tr q w) /\
    project_point (S := XR) ext (Fin (fst q), Fin (snd q)) tr
      = Ok ((Fin (fst xy), Fin (snd xy)), Fin (wyaw w), reached) /\
    if negb ext && reached then xy = wxy w else nearest_on_line (wx w) (wy w) (wyaw w) q xy.
  Proof.
    destruct nearest_idx as (p & w & Hp & Vp & Hw & Hd & Nw).
    destruct (last_idx_valid tr k0 p0 H0 V0) as (pl & Hl & Vl & Bl).
    destruct (W _ pl Hl Vl) as [l Hwl].
    unfold project_point. cbn [fst snd].
    change (map (fun w1 => if p_valid w1 then norm2 (S := XR) (fsub (Scalar := XR) (p_x w1) (Fin (fst q)))
       (fsub (Scalar := XR) (p_y w1) (Fin (snd q))) else finf (Scalar := XR)) tr) with (wp_dists q tr).
    change (mapi (fun i w0 => if p_valid w0 then i else 0%nat) tr) with (vidx tr).
    rewrite Hp, Hl. change (@F XR) with xr in *. rewrite Hd.
    pose proof Hw as (A1 & A2 & A3). pose proof Hwl as (L1 & L2 & L3).
    rewrite A1, A2, A3, L1, L2.
    unfold reached_end_threshold, distance_to_ref_threshold.
    rewrite !flit_Fin, !fsub_Fin, norm2_Fin, !fltb_Fin.
    set (reached := Rltb _ _ || Rltb _ _).
    assert (ER : reached = true <-> route_end tr q w).
    { unfold reached, route_end. rewrite orb_true_iff, !Rltb_true.
      assert (LW : last_waypoint tr l) by (exists (argmaxn (vidx tr)), pl; auto).
      assert (LU : forall l', last_waypoint tr l' -> l' = l).
      { intros l' (k' & p' & K1 & K2 & K3 & K4). assert (k' = argmaxn (vidx tr)).
        { pose proof (Bl k' p' K1 K2). pose proof (K4 _ _ Hl Vl). lia. }
        subst k'. rewrite K1 in Hl. apply Some_inj in Hl. subst p'.
        destruct K3 as (B1 & B2 & B3). rewrite B1 in L1. rewrite B2 in L2. rewrite B3 in L3.
        destruct l, l'; simpl in *. congruence. }
      assert (Ed : sqrt ((wx l - wx w) * (wx l - wx w) + (wy l - wy w) * (wy l - wy w)) = dist (wxy l) (wxy w)) by reflexivity.
      rewrite Ed. replace (5 / 1) with 5 by lra. split; (intros [H|H]; [left|right; auto]).
      - eauto.
      - destruct H as (l' & Hl' & Hd'). now rewrite (LU l' Hl') in Hd'. }
    clearbody reached.
    destruct (negb ext && reached) eqn:St.
    - exists w, (wxy w), reached. split; [exact Nw|]. split; [exact ER|]. split; [|rewrite ?St; reflexivity].
      rewrite f0_Fin, !fmul_Fin, !fadd_Fin, !fmul_Fin, !fadd_Fin. rewrite !Rmult_0_l, !Rplus_0_l. reflexivity.
    - set (c := cos (wyaw w)). set (s := sin (wyaw w)).
      set (inner := c * (fst q - wx w) + s * (snd q - wy w)).
      exists w, (c * inner + wx w, s * inner + wy w), reached. split; auto. split; auto. split; [|rewrite St].
      + rewrite fcos_Fin, fsin_Fin, !fmul_Fin, !fadd_Fin, !fmul_Fin, !fadd_Fin. reflexivity.
      + pose proof (cs1 (wyaw w)) as E1. fold c s in E1. split.
        * exists inner. fold c s. f_equal; ring.
        * intros p' (u & ->). fold c s. unfold dist. apply sqrt_le_1_alt. cbn [fst snd].
          set (a := fst q - wx w) in *. set (b := snd q - wy w) in *.
          replace (fst q - (c * inner + wx w)) with (a - c * inner) by (unfold a; ring).
          replace (snd q - (s * inner + wy w)) with (b - s * inner) by (unfold b; ring).
          replace (fst q - (wx w + u * c)) with (a - c * u) by (unfold a; ring).
          replace (snd q - (wy w + u * s)) with (b - s * u) by (unfold b; ring).
          assert (K : forall z, (a - c * z) * (a - c * z) + (b - s * z) * (b - s * z)
                       = a * a + b * b - 2 * inner * z + z * z).
          { intros z. transitivity (a * a + b * b - 2 * inner * z + z * z * (c * c + s * s)); [|rewrite E1; ring].
            unfold inner. ring. }
          rewrite (K inner), (K u). clear K. clearbody inner. pose proof (Rle_0_sqr (u - inner)) as G. unfold Rsqr in G. lra.
  Qed.
End Project.

(* ---------------- one object ---------------- *)

Lemma next_invalid inv log cur speed ok p : p_valid cur = false ->
  next_by_projection (S := XR) inv default_time_delta log cur speed ok = Ok p -> p = invalid_pt.
Proof.
  intros V H. unfold next_by_projection in H. apply bind_Ok in H as (((xy & yaw) & reached) & _ & H).
  rewrite V, andb_false_r in H. now apply Ok_inj in H.
Qed.

Lemma next_real inv log cur f v' k0 p0 : p_valid cur = true -> is_frame cur f ->
  (forall j p, nth_error log j = Some p -> p_valid p = true -> exists w, is_way p w) ->
  nth_error log k0 = Some p0 -> p_valid p0 = true ->
  exists w p, nearest_waypoint log (straight f v') w /\
    next_by_projection (S := XR) inv default_time_delta log cur (Fin v') true = Ok p /\
    (~ route_end log (straight f v') w ->
       exists xy, nearest_on_line (wx w) (wy w) (wyaw w) (straight f v') xy /\
         p = mkpt (Fin (fst xy)) (Fin (snd xy)) (Fin (fz f)) (Fin (v' * cos (fyaw f))) (Fin (v' * sin (fyaw f)))
               (Fin (wyaw w)) true (p_ts cur) (Fin (flen f)) (Fin (fwid f)) (p_hei cur)) /\
    (route_end log (straight f v') w -> inv = false ->
       exists xy, nearest_on_line (wx w) (wy w) (wyaw w) (straight f v') xy /\
         p = mkpt (Fin (fst xy)) (Fin (snd xy)) (Fin (fz f)) (Fin (fvx f)) (Fin (fvy f))
               (Fin (wyaw w)) true (p_ts cur) (Fin (flen f)) (Fin (fwid f)) (p_hei cur)) /\
    (route_end log (straight f v') w -> inv = true -> v' <= 1 ->
       p = mkpt (Fin (wx w)) (Fin (wy w)) (Fin (fz f)) (Fin 0) (Fin 0)
               (Fin (wyaw w)) true (p_ts cur) (Fin (flen f)) (Fin (fwid f)) (p_hei cur)) /\
    (route_end log (straight f v') w -> inv = true -> 1 < v' -> p = invalid_pt).
Proof.
  intros V HF HW Hk Vk.
  destruct (project_real log (straight f v') HW k0 p0 Hk Vk (negb inv)) as (w & xy & reached & Nw & ER & EP & Exy).
  exists w.
  assert (Es : obj_speed (S := XR) cur = Fin (rspeed f)) by now apply obj_speed_frame.
  assert (Eq : next_by_projection (S := XR) inv default_time_delta log cur (Fin v') true =
    let dvx := if inv then Fin 0 else Fin (fvx f) in
    let dvy := if inv then Fin 0 else Fin (fvy f) in
    let vx := if reached then dvx else Fin (v' * cos (fyaw f)) in
    let vy := if reached then dvy else Fin (v' * sin (fyaw f)) in
    let valid := if inv then negb (reached && Rltb 1 v') else true in
    if valid then Ok (mkpt (S := XR) (Fin (fst xy)) (Fin (snd xy)) (Fin (fz f)) vx vy (Fin (wyaw w)) true (p_ts cur)
       (Fin (flen f)) (Fin (fwid f)) (p_hei cur)) else Ok invalid_pt).
  { unfold next_by_projection. rewrite Es, V.
    destruct HF as (F1 & F2 & F3 & F4 & F5 & F6 & F7 & F8). rewrite F1, F2, F3, F4, F5, F6, F7, F8.
    unfold default_time_delta, static_speed_threshold. rewrite !flit_Fin, !f2_Fin, fadd_Fin, fdiv_Fin by lra.
    rewrite fcos_Fin, fsin_Fin, !fmul_Fin, !fadd_Fin.
    unfold straight in EP. cbn [fst snd] in EP. cbv zeta in EP.
    change (@F XR) with xr in *. rewrite EP. cbn [bind fst snd]. rewrite f0_Fin, fltb_Fin.
    replace (1 / 1) with 1 by lra. rewrite andb_true_r. reflexivity. }
  cbv zeta in Eq. rewrite Eq. clear Eq.
  destruct inv; cbn [negb andb] in Exy; destruct reached; cbn [andb negb] in *.
  - (* invalidate, reached *)
    subst xy. destruct (Rltb 1 v') eqn:E; cbn [negb].
    + apply Rltb_true in E. eexists. split; [exact Nw|]. split; [reflexivity|].
      split; [intros H; destruct H; now apply ER|]. split; [intros _ H; discriminate|]. split; [intros; lra|auto].
    + apply Rltb_false in E. eexists. split; [exact Nw|]. split; [reflexivity|].
      split; [intros H; destruct H; now apply ER|]. split; [intros _ H; discriminate|]. split; [auto|intros; lra].
  - eexists. split; [exact Nw|]. split; [reflexivity|]. split; [intros _; exists xy; auto|].
    assert (N : ~ route_end log (straight f v') w) by (intros H; apply ER in H; discriminate). tauto.
  - eexists. split; [exact Nw|]. split; [reflexivity|]. split; [intros H; destruct H; now apply ER|].
    split; [intros _ _; exists xy; auto|]. split; intros _ H; discriminate.
  - eexists. split; [exact Nw|]. split; [reflexivity|]. split; [intros _; exists xy; auto|].
    assert (N : ~ route_end log (straight f v') w) by (intros H; apply ER in H; discriminate). tauto.
Qed.

(* ---------------- the policies ---------------- *)

Lemma waypoint_nth {S : Scalar} inv upd_speed s ups sv cur : waypoint_update inv upd_speed s = Ok ups ->
  upd_speed s = Ok sv -> current_sim s = Ok cur ->
  forall i log me v ok, nth_error (s_log s) i = Some log -> nth_error cur i = Some me -> nth_error sv i = Some (v, ok) ->
  exists p, next_by_projection inv default_time_delta log me v ok = Ok p /\
    nth_error ups i = Some (mkupd (p_x p) (p_y p) (p_yaw p) (p_vx p) (p_vy p) (p_valid p)).
Proof.
  intros H Hs Hc i log me v ok Hl Hm Hv. unfold waypoint_update in H. rewrite Hs, Hc in H. cbn [bind] in H.
  apply bind_Ok in H as ([] & Hg & H).
  assert (K : nth_error (map3 (fun l c v => (l, c, v)) (s_log s) cur sv) i = Some (log, me, (v, ok))).
  { rewrite nth_error_map3, Hl, Hm, Hv. reflexivity. }
  destruct (mapM_nth _ _ _ _ _ H K) as (b & Hb & Eb). cbn [fst snd] in Hb.
  apply bind_Ok in Hb as (p & Hp & Hb). apply Ok_inj in Hb. subst b. eauto.
Qed.

Lemma waypoint_cur {S : Scalar} inv upd_speed s ups sv : waypoint_update inv upd_speed s = Ok ups ->
  upd_speed s = Ok sv ->
  exists cur, current_sim s = Ok cur /\ length cur = length (s_log s) /\ length sv = length cur /\
    length ups = length cur.
Proof.
  intros H Hs. unfold waypoint_update in H. rewrite Hs in H. cbn [bind] in H.
  apply bind_Ok in H as (cur & Hc & H). apply bind_Ok in H as ([] & Hg & H).
  apply guard_Ok in Hg. apply andb_true_iff in Hg as [G1 G2]. apply Nat.eqb_eq in G1, G2.
  exists cur. repeat split; auto. rewrite (mapM_length _ _ _ H), map3_length. lia.
Qed.

Lemma project_total {S : Scalar} ext xy (tr : list pt) : tr <> [] -> exists r, project_point ext xy tr = Ok r.
Proof.
  intros N. unfold project_point.
  set (ds := map _ tr).
  assert (L : length ds = length tr) by apply map_length.
  assert (Nd : ds <> []) by (intros E; rewrite E in L; destruct tr; simpl in L; congruence).
  assert (A : (argmin ds < length tr)%nat) by (rewrite <- L; now apply argmin_lt).
  assert (B : (argmaxn (mapi (fun i w => if p_valid w then i else 0%nat) tr) < length tr)%nat).
  { destruct (argmaxn_spec (mapi (fun i w => if p_valid w then i else 0%nat) tr)) as (r & Hr & _).
    - intros E. apply (f_equal (@length _)) in E. rewrite mapi_length in E. destruct tr; simpl in E; congruence.
    - apply nth_error_Some_lt in Hr. now rewrite mapi_length in Hr. }
  destruct (nth_error_lt_Some tr _ A) as [? ->]. destruct (nth_error_lt_Some tr _ B) as [? ->].
  destruct (nth_error_lt_Some ds (argmin ds)) as [? ->]; [lia|]. eauto.
Qed.

Lemma waypoint_total {S : Scalar} n T inv upd_speed s sv : wf_state n T s -> upd_speed s = Ok sv -> length sv = n ->
  exists ups, waypoint_update inv upd_speed s = Ok ups /\ length ups = n.
Proof.
  intros (R1 & R2 & _ & Hn & HT) Hs Lv.
  destruct (dynamic_index_total n T (s_sim s) (s_t s) R1 HT) as [cur Hc].
  destruct (dynamic_index_Ok _ _ _ _ _ R1 Hc) as [Lc _].
  assert (Ll : length (s_log s) = n) by apply R2.
  unfold waypoint_update, current_sim. rewrite Hs, Hc. cbn [bind].
  unfold guard. rewrite Lc, Ll, Lv, Nat.eqb_refl. cbn [andb bind].
  match goal with |- exists ups, mapM ?f ?l = _ /\ _ => destruct (mapM_total f l) as [ups Hu] end.
  - intros [[log me] [v ok]] Hin. cbn [fst snd].
    assert (Nl : log <> []).
    { apply In_nth_error in Hin as [i Hi]. rewrite nth_error_map3 in Hi.
      destruct (nth_error (s_log s) i) as [l|] eqn:El; [|discriminate].
      destruct (nth_error cur i); [|discriminate]. destruct (nth_error sv i); [|discriminate].
      apply Some_inj in Hi. inversion Hi; subst. destruct R2 as [_ R2]. apply nth_error_In in El. apply R2 in El.
      destruct log; [simpl in El; lia|discriminate]. }
    unfold next_by_projection.
    match goal with |- context [project_point ?e ?q log] => destruct (project_total e q log Nl) as [[[xy yaw] rc] ->] end.
    cbn [bind]. destruct (_ && p_valid me); cbn [bind]; eauto.
  - exists ups. split; auto. rewrite (mapM_length _ _ _ Hu), map3_length. lia.
Qed.

(** What the update of one valid object looks like. *)
Lemma waypoint_policy inv upd_speed s ups sv cur i log me f v' k0 p0 :
  waypoint_update (S := XR) inv upd_speed s = Ok ups -> upd_speed s = Ok sv -> current_sim s = Ok cur ->
  nth_error (s_log s) i = Some log -> nth_error cur i = Some me -> nth_error sv i = Some (Fin v', true) ->
  p_valid me = true -> is_frame me f ->
  (forall j p, nth_error log j = Some p -> p_valid p = true -> exists w, is_way p w) ->
  nth_error log k0 = Some p0 -> p_valid p0 = true ->
  exists w u, nearest_waypoint log (straight f v') w /\ nth_error ups i = Some u /\
    (~ route_end log (straight f v') w ->
       exists x y, nearest_on_line (wx w) (wy w) (wyaw w) (straight f v') (x, y) /\
         u = mkupd (Fin x) (Fin y) (Fin (wyaw w)) (Fin (v' * cos (fyaw f))) (Fin (v' * sin (fyaw f))) true) /\
    (route_end log (straight f v') w -> inv = false ->
       exists x y, nearest_on_line (wx w) (wy w) (wyaw w) (straight f v') (x, y) /\
         u = mkupd (Fin x) (Fin y) (Fin (wyaw w)) (Fin (fvx f)) (Fin (fvy f)) true) /\
    (route_end log (straight f v') w -> inv = true -> v' <= 1 ->
       u = mkupd (Fin (wx w)) (Fin (wy w)) (Fin (wyaw w)) (Fin 0) (Fin 0) true) /\
    (route_end log (straight f v') w -> inv = true -> 1 < v' ->
       u = mkupd (Fin (-1)) (Fin (-1)) (Fin (-1)) (Fin (-1)) (Fin (-1)) false).
Proof.
  intros H Hs Hc Hl Hm Hv V HF HW Hk Vk.
  destruct (waypoint_nth _ _ _ _ _ _ H Hs Hc i log me _ _ Hl Hm Hv) as (p & Hp & Eu).
  destruct (next_real inv log me f v' k0 p0 V HF HW Hk Vk) as (w & p' & Nw & Hp' & A & B & C & D).
  rewrite Hp' in Hp. apply Ok_inj in Hp. subst p'.
  exists w. eexists. split; [exact Nw|]. split; [exact Eu|]. split; [|split; [|split]].
  - intros N. destruct (A N) as ([x y] & On & ->). exists x, y. auto.
  - intros E I. destruct (B E I) as ([x y] & On & ->). exists x, y. auto.
  - intros E I L. now rewrite (C E I L).
  - intros E I L. rewrite (D E I L). unfold invalid_pt. cbn [p_x p_y p_yaw p_vx p_vy p_valid]. now rewrite fm1_Fin.
Qed.

Lemma waypoint_invalid inv upd_speed s ups sv cur i me :
  waypoint_update (S := XR) inv upd_speed s = Ok ups -> upd_speed s = Ok sv -> current_sim s = Ok cur ->
  nth_error cur i = Some me -> p_valid me = false ->
  nth_error ups i = Some (mkupd (Fin (-1)) (Fin (-1)) (Fin (-1)) (Fin (-1)) (Fin (-1)) false).
Proof.
  intros H Hs Hc Hm V. destruct (waypoint_cur _ _ _ _ _ H Hs) as (cur' & Hc' & L1 & L2 & L3).
  rewrite Hc in Hc'. apply Ok_inj in Hc'. subst cur'. pose proof (nth_error_Some_lt _ _ _ Hm) as Li.
  destruct (nth_error_lt_Some (s_log s) i) as [log Hl]; [lia|].
  destruct (nth_error_lt_Some sv i) as [[v ok] Hv]; [lia|].
  destruct (waypoint_nth _ _ _ _ _ _ H Hs Hc i log me _ _ Hl Hm Hv) as (p & Hp & Eu).
  rewrite (next_invalid _ _ _ _ _ _ V Hp) in Eu. rewrite Eu. unfold invalid_pt.
  cbn [p_x p_y p_yaw p_vx p_vy p_valid]. now rewrite fm1_Fin.
Qed.

(** On a straight road: a position that is on the tangent line is kept. *)
Lemma on_line_kept wx0 wy0 yaw q p : on_line wx0 wy0 yaw q -> nearest_on_line wx0 wy0 yaw q p -> p = q.
Proof.
  intros Hq [_ Hn]. pose proof (Hn q Hq) as H.
  assert (Z : dist q q = 0) by now apply dist_zero. rewrite Z in H.
  assert (dist q p = 0). { assert (0 <= dist q p) by apply sqrt_pos. lra. }
  symmetry. now apply dist_zero.
Qed.
