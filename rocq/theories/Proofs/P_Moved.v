(** The same scene in another coordinate frame (C68): relational lemmas and dynamics. *)
From Coq Require Import Reals ZArith List Bool Lia Lra.
From Verif.Lib Require Import Base JaxIndex Scalar XR.
From Verif.Model Require Import Operations State Dynamics BaseEnv Geometry Dyn_State Dyn_Delta
  Dyn_Bicycle Discretizer Comfort Metrics Observation.
From Verif.Spec Require Import StateSpec GeomSpec DynSpec MetricSpec ObsSpec MovedSpec.
From Verif.Proofs Require Import Core P_Angles P_Pose P_Overlap P_Delta P_Bicycle.
Import ListNotations.
Open Scope R_scope.

(* ---------------- outcomes ---------------- *)

Lemma alike_bind {A B} (R : A -> A -> Prop) (Q : B -> B -> Prop) r r' f f' :
  alike R r r' -> (forall a a', R a a' -> alike Q (f a) (f' a')) -> alike Q (bind r f) (bind r' f').
Proof.
  intros H F. destruct r as [a|e], r' as [a'|e']; cbn in *; try contradiction; auto.
Qed.
Lemma alike_mono {A} (R Q : A -> A -> Prop) r r' : alike R r r' -> (forall a a', R a a' -> Q a a') -> alike Q r r'.
Proof. destruct r, r'; cbn; auto. Qed.
Lemma alike_eq {A} (r : res A) : alike eq r r.
Proof. destruct r; reflexivity. Qed.
Lemma alike_guard b e : alike eq (guard b e) (guard b e).
Proof. apply alike_eq. Qed.

Lemma alike_mapM {A B} (P : A -> A -> Prop) (Q : B -> B -> Prop) f f' l l' :
  Forall2 P l l' -> (forall a a', P a a' -> alike Q (f a) (f' a')) ->
  alike (Forall2 Q) (mapM f l) (mapM f' l').
Proof.
  intros H F. induction H as [|a a' l l' Ha Hl IH]; cbn [mapM]; [constructor|].
  apply alike_bind with (R := Q); [auto|]. intros b b' Hb.
  apply alike_bind with (R := Forall2 Q); [exact IH|]. intros bs bs' Hbs. constructor; auto.
Qed.

Lemma Forall2_nth {A B} (R : A -> B -> Prop) l m :
  Forall2 R l m <-> length l = length m /\
    forall i a b, nth_error l i = Some a -> nth_error m i = Some b -> R a b.
Proof.
  split.
  - intros H. split; [eapply Forall2_len; eauto|]. induction H; intros [|i] a b Ha Hb; try discriminate.
    + injection Ha as <-. injection Hb as <-. auto.
    + eapply IHForall2; eauto.
  - revert m. induction l as [|a l IH]; intros [|b m] [L H]; try discriminate; constructor.
    + apply (H 0%nat); reflexivity.
    + apply IH. split; [now injection L|]. intros i. apply (H (S i)).
Qed.
Lemma Forall2_nth1 {A B} (R : A -> B -> Prop) l m i a : Forall2 R l m -> nth_error l i = Some a ->
  exists b, nth_error m i = Some b /\ R a b.
Proof.
  intros H Ha. apply Forall2_nth in H as [L H].
  destruct (nth_error_lt_Some m i) as [b Hb]; [rewrite <- L; eapply nth_error_Some_lt; eauto|]. eauto.
Qed.
Lemma Forall2_firstn {A B} (R : A -> B -> Prop) n l m : Forall2 R l m -> Forall2 R (firstn n l) (firstn n m).
Proof. intros H. revert n. induction H; intros [|n]; cbn; constructor; auto. Qed.
Lemma Forall2_skipn {A B} (R : A -> B -> Prop) n l m : Forall2 R l m -> Forall2 R (skipn n l) (skipn n m).
Proof. intros H. revert n. induction H; intros [|n]; cbn; auto; constructor; auto. Qed.
Lemma Forall2_map {A B C D} (R : C -> D -> Prop) (Q : A -> B -> Prop) f g l m :
  Forall2 Q l m -> (forall a b, Q a b -> R (f a) (g b)) -> Forall2 R (map f l) (map g m).
Proof. intros H F. induction H; cbn; constructor; auto. Qed.
Lemma map_rel_eq {A B} (Q : A -> A -> Prop) (f : A -> B) l m :
  Forall2 Q l m -> (forall a b, Q a b -> f b = f a) -> map f m = map f l.
Proof. intros H F. induction H; cbn; [|f_equal]; auto. Qed.

Lemma alike_index {A} (P : A -> A -> Prop) t l l' : Forall2 P l l' ->
  alike P (dyn_index t l) (dyn_index t l').
Proof.
  intros H. unfold dyn_index. rewrite <- (Forall2_len _ _ _ H).
  destruct (nth_error l _) as [a|] eqn:E.
  - destruct (Forall2_nth1 _ _ _ _ _ H E) as (b & -> & Hb). exact Hb.
  - apply nth_error_None in E. pose proof (Forall2_len _ _ _ H) as L.
    destruct (nth_error l' _) eqn:E'; [|reflexivity].
    apply nth_error_Some_lt in E'. lia.
Qed.
Lemma alike_slice {A} (P : A -> A -> Prop) t k l l' : Forall2 P l l' ->
  alike (Forall2 P) (dyn_slice t k l) (dyn_slice t k l').
Proof.
  intros H. unfold dyn_slice. rewrite <- (Forall2_len _ _ _ H).
  destruct (_ <=? _)%nat; cbn; [|reflexivity]. apply Forall2_firstn, Forall2_skipn, H.
Qed.
Lemma alike_update {A} (P : A -> A -> Prop) t u u' l l' : Forall2 P u u' -> Forall2 P l l' ->
  alike (Forall2 P) (dyn_update t u l) (dyn_update t u' l').
Proof.
  intros Hu H. unfold dyn_update, splice. rewrite <- (Forall2_len _ _ _ H), <- (Forall2_len _ _ _ Hu).
  destruct (_ <=? _)%nat; cbn; [|reflexivity].
  apply Forall2_app; [apply Forall2_firstn, H|]. apply Forall2_app; [exact Hu|apply Forall2_skipn, H].
Qed.
Lemma alike_dynamic_index {A} (P : A -> A -> Prop) t m m' : Forall2 (Forall2 P) m m' ->
  alike (Forall2 P) (dynamic_index m t) (dynamic_index m' t).
Proof. intros H. apply alike_mapM with (P := Forall2 P); [exact H|]. intros; now apply alike_index. Qed.
Lemma alike_dynamic_slice {A} (P : A -> A -> Prop) t k m m' : Forall2 (Forall2 P) m m' ->
  alike (Forall2 (Forall2 P)) (dynamic_slice m t k) (dynamic_slice m' t k).
Proof. intros H. apply alike_mapM with (P := Forall2 P); [exact H|]. intros; now apply alike_slice. Qed.
Lemma alike_update_rows {A} (P : A -> A -> Prop) o a b m m' u u' :
  Forall2 (Forall2 P) m m' -> Forall2 (Forall2 P) u u' ->
  alike (Forall2 (Forall2 P)) (update_rows o a b m u) (update_rows o a b m' u').
Proof.
  intros H. revert u u'. induction H as [|r r' m m' Hr Hm IH]; intros u u' Hu;
    destruct Hu as [|x x' u u' Hx Hu]; cbn [update_rows alike]; auto.
  apply alike_bind with (R := Forall2 P).
  - unfold update_row. apply alike_bind with (R := Forall2 P).
    + destruct o; [now apply alike_slice|exact Hx].
    + intros y y' Hy. now apply alike_update.
  - intros y y' Hy. apply alike_bind with (R := Forall2 (Forall2 P)); [now apply IH|].
    intros z z' Hz. constructor; auto.
Qed.
Lemma alike_by_slice {A} (P : A -> A -> Prop) o a b m m' u u' :
  Forall2 (Forall2 P) m m' -> Forall2 (Forall2 P) u u' ->
  alike (Forall2 (Forall2 P)) (update_by_slice_in_dim m u a b o) (update_by_slice_in_dim m' u' a b o).
Proof. apply alike_update_rows. Qed.

(* ---------------- reset ---------------- *)

Section G.
  Variable g : motion.

  Lemma moved_invalid : moved_pt g invalid_pt invalid_pt.
  Proof.
    split; [repeat split|]. split; [|split; [reflexivity|discriminate]].
    exists (-1), (-1), (-1). unfold invalid_pt; cbn [p_z p_len p_wid]. rewrite fm1_Fin. auto.
  Qed.

  Lemma moved_fill tr tr' : moved_traj g tr tr' ->
    moved_traj g (fill_invalid_trajectory tr) (fill_invalid_trajectory tr').
  Proof.
    intros H. apply Forall2_map with (1 := H). intros r r' Hr.
    apply Forall2_map with (1 := Hr). intros; apply moved_invalid.
  Qed.

  Lemma moved_reset c s s' : moved_state g s s' -> alike (moved_state g) (env_reset c s) (env_reset c s').
  Proof.
    intros (Hs & Hl & Ht & Hm & Hti & Hp & Hr). unfold env_reset.
    rewrite <- (Forall2_len _ _ _ Hl).
    apply alike_bind with (R := eq); [apply alike_guard|]. intros _ _ _.
    unfold update_state_by_log; cbn [s_sim s_log s_tls s_meta s_t s_paths s_rg].
    apply alike_bind with (R := moved_traj g).
    - apply alike_by_slice; [now apply moved_fill|exact Hl].
    - intros sim sim' Hsim. repeat split; auto.
  Qed.

  (* ---------------- one step ---------------- *)

  (** Updates of an object in the two frames. *)
  Definition moved_upd (p : pt (S := XR)) (u u' : upd (S := XR)) : Prop :=
    (p_valid p = true -> exists k k', upd_kin u k /\ upd_kin u' k' /\ moved_kin g k k').

  (** A dynamics model that treats both descriptions alike, with the actions related
      by [A] (which may depend on the object's current entry). *)
  Definition equivariant (A : pt (S := XR) -> act (S := XR) -> act -> Prop) (d : dynamics (S := XR)) : Prop :=
    forall acts acts' cur cur', Forall2 (moved_pt g) cur cur' ->
      (length acts = length cur -> length acts' = length acts /\
       forall i p a a', nth_error cur i = Some p -> nth_error acts i = Some a -> nth_error acts' i = Some a' -> A p a a') ->
      length acts = length cur ->
      alike (fun us us' => length us = length cur /\ length us' = length us /\
        forall i p u u', nth_error cur i = Some p -> nth_error us i = Some u -> nth_error us' i = Some u' ->
          moved_upd p u u') (d_update d acts cur) (d_update d acts' cur').

  Lemma next_pt_moved u u' c c' n n' ctl :
    moved_pt g c c' -> moved_pt g n n' -> moved_upd c u u' ->
    moved_pt g (next_pt false false u c n ctl) (next_pt false false u' c' n' ctl).
  Proof.
    intros ((S1 & S2 & S3 & S4 & S5) & Z & V & K) ((T1 & T2 & T3 & T4 & T5) & Z' & V' & K') KU.
    split; [repeat split; cbn; auto|]. split; [exact Z|]. cbn [next_pt p_valid].
    unfold next_valid. rewrite V, V'. split; [reflexivity|].
    destruct ctl; cbn [andb]; intros H.
    - destruct (p_valid c) eqn:Ec; [|discriminate].
      destruct (KU Ec) as (k & k' & (U1 & U2 & U3 & U4 & U5) & (W1 & W2 & W3 & W4 & W5) & M).
      exists k, k'. split; [repeat split; assumption|]. split; [repeat split; assumption|]. exact M.
    - apply andb_true_iff in H as [_ H]. destruct (K' H) as (k & k' & P & P' & M).
      exists k, k'. destruct P as (U1 & U2 & U3 & U4 & U5), P' as (W1 & W2 & W3 & W4 & W5).
      split; [repeat split; assumption|]. split; [repeat split; assumption|]. exact M.
  Qed.

  (** Related actions for the objects of a state. *)
  Definition acts_rel (A : pt (S := XR) -> act (S := XR) -> act -> Prop) (s : state (S := XR))
    (acts acts' : list act) : Prop :=
    length acts' = length acts /\
    forall cur i p a a', current_sim s = Ok cur -> nth_error cur i = Some p ->
      nth_error acts i = Some a -> nth_error acts' i = Some a' -> A p a a'.

  Lemma moved_forward A d acts acts' s s' mask : equivariant A d -> moved_state g s s' ->
    acts_rel A s acts acts' ->
    alike (moved_traj g) (forward d acts (s_sim s) (s_log s) mask (s_t s) false)
                         (forward d acts' (s_sim s') (s_log s') mask (s_t s') false).
  Proof.
    intros EQ (Hs & Hl & _ & _ & Hti & _) (La & HA). unfold forward. rewrite Hti.
    rewrite <- (Forall2_len _ _ _ Hs), <- (Forall2_len _ _ _ Hl), La.
    destruct (_ && _)%nat eqn:G; [|reflexivity]. cbn [guard bind].
    apply andb_true_iff in G as [G G3]. apply andb_true_iff in G as [G1 G2].
    apply Nat.eqb_eq in G1, G2, G3.
    pose proof (alike_dynamic_index (moved_pt g) (s_t s) _ _ Hs) as HC.
    unfold current_sim in HA.
    destruct (dynamic_index (s_sim s) (s_t s)) as [cur|] eqn:Ec,
             (dynamic_index (s_sim s') (s_t s)) as [cur'|] eqn:Ec'; cbn in HC; try contradiction;
      [|subst; reflexivity].
    cbn [bind].
    assert (Lc : length acts = length cur).
    { rewrite <- G1. unfold dynamic_index in Ec. now rewrite (mapM_length _ _ _ Ec). }
    assert (HU := EQ acts acts' cur cur' HC).
    destruct (d_update d acts cur) as [us|] eqn:Eu, (d_update d acts' cur') as [us'|] eqn:Eu';
      (cbn in HU; assert (HU' : _) by (apply HU; [intros _; split; [exact La|intros i p a a'; now apply (HA cur)]|exact Lc]));
      try contradiction; [|cbn; now subst]. clear HU. destruct HU' as (L1 & L2 & HU).
    cbn [bind]. unfold apply_trajectory_update_to_state. rewrite Ec, Ec'. cbn [bind].
    apply alike_bind with (R := Forall2 (moved_pt g)); [now apply alike_dynamic_index|].
    intros nx nx' Hn. rewrite <- (Forall2_len _ _ _ Hn), L2.
    destruct (_ && _)%nat eqn:GG; [|reflexivity]. cbn [guard bind].
    apply andb_true_iff in GG as [GG1 GG2]. apply Nat.eqb_eq in GG1, GG2.
    apply alike_by_slice; [exact Hs|].
    apply Forall2_map with (Q := moved_pt g); [|intros a b Hab; constructor; auto].
    apply Forall2_nth. pose proof (Forall2_len _ _ _ HC). pose proof (Forall2_len _ _ _ Hn).
    rewrite !map4_length. split; [lia|].
    intros i a b Ha Hb. rewrite nth_error_map4 in Ha, Hb.
    destruct (nth_error us i) as [u|] eqn:E1; [|discriminate].
    destruct (nth_error cur i) as [c|] eqn:E2; [|discriminate].
    destruct (nth_error nx i) as [n|] eqn:E3; [|discriminate].
    destruct (nth_error mask i) as [b0|] eqn:E4; [|discriminate].
    destruct (nth_error us' i) as [u'|] eqn:E1'; [|discriminate].
    destruct (nth_error cur' i) as [c'|] eqn:E2'; [|discriminate].
    destruct (nth_error nx' i) as [n'|] eqn:E3'; [|discriminate].
    injection Ha as <-. injection Hb as <-.
    apply next_pt_moved.
    - eapply (proj1 (Forall2_nth _ _ _) HC); eauto.
    - eapply (proj1 (Forall2_nth _ _ _) Hn); eauto.
    - eauto.
  Qed.

  Lemma moved_mask c s s' : moved_state g s s' -> env_control_mask s' c = env_control_mask s c.
  Proof.
    intros (Hs & _ & _ & Hm & _). unfold env_control_mask. rewrite Hm.
    assert (E : map (map p_valid) (s_sim s') = map (map p_valid) (s_sim s)).
    { apply map_rel_eq with (1 := Hs). intros r r' Hr. apply map_rel_eq with (1 := Hr).
      intros p p' (_ & _ & V & _). exact V. }
    rewrite E. reflexivity.
  Qed.

  Lemma moved_step A d c acts acts' s s' : equivariant A d -> c_allow_new_objects c = false ->
    moved_state g s s' -> acts_rel A s acts acts' ->
    alike (moved_state g) (env_step d c s acts) (env_step d c s' acts').
  Proof.
    intros EQ CI M HA. unfold env_step. rewrite (moved_mask c s s' M), CI.
    apply alike_bind with (R := eq); [apply alike_eq|]. intros mask _ <-.
    apply alike_bind with (R := moved_traj g); [now apply moved_forward with A|].
    destruct M as (Hs & Hl & Ht & Hm & Hti & Hp & Hr).
    intros sim sim' Hsim. rewrite Hti. unfold alike, moved_state; cbn [s_sim s_log s_tls s_meta s_t s_paths s_rg]. auto 10.
  Qed.

  Lemma alike_per_object (A : pt (S := XR) -> act (S := XR) -> act -> Prop) f :
    (forall p p' a a', moved_pt g p p' -> A p a a' -> alike (moved_upd p) (f a p) (f a' p')) ->
    forall inv, equivariant A (mkdyn (per_object f) inv).
  Proof.
    intros F inv acts acts' cur cur' Hc HA La. destruct (HA La) as [La' HA'].
    cbn [d_update]. clear HA. revert acts acts' La La' HA'.
    induction Hc as [|p p' cur cur' Hp Hc IH]; intros acts acts' La La' HA.
    - destruct acts; [|discriminate]. destruct acts'; [|discriminate]. cbn. split; [reflexivity|]. split; [reflexivity|].
      intros [|]; discriminate.
    - destruct acts as [|a acts]; [discriminate|]. destruct acts' as [|a' acts']; [discriminate|].
      cbn [per_object]. apply alike_bind with (R := moved_upd p).
      { apply F; [exact Hp|]. apply (HA 0%nat); reflexivity. }
      intros u u' Hu.
      specialize (IH acts acts'). eapply alike_bind.
      { apply IH; [now injection La|now injection La'|]. intros i. apply (HA (S i)). }
      intros us us' (L1 & L2 & HU). cbn [alike length]. split; [now rewrite L1|]. split; [now rewrite L2|].
      intros [|i] q v v' E1 E2 E3; cbn in E1, E2, E3.
      + injection E1 as <-. injection E2 as <-. injection E3 as <-. exact Hu.
      + eapply HU; eauto.
  Qed.

  (* ---------------- the four models ---------------- *)

  Lemma move_speed k k' : moved_kin g k k' -> speed k' = speed k.
  Proof.
    intros (_ & V & _). injection V as V1 V2. unfold speed. rewrite V1, V2. f_equal. cbn [fst snd].
    pose proof (cs1 (mt_turn g)). rewrite !Rplus_0_r.
    transitivity ((kvx k * kvx k + kvy k * kvy k) * (cos (mt_turn g) * cos (mt_turn g) + sin (mt_turn g) * sin (mt_turn g))); [ring|].
    rewrite H. ring.
  Qed.
  Lemma turn_cos k k' : moved_kin g k k' -> cos (kyaw k') = cos (kyaw k) * cos (mt_turn g) - sin (kyaw k) * sin (mt_turn g).
  Proof. intros (_ & _ & Y). rewrite (same_angle_cos _ _ Y). apply cos_plus. Qed.
  Lemma turn_sin k k' : moved_kin g k k' -> sin (kyaw k') = sin (kyaw k) * cos (mt_turn g) + cos (kyaw k) * sin (mt_turn g).
  Proof. intros (_ & _ & Y). rewrite (same_angle_sin _ _ Y). apply sin_plus. Qed.

  Lemma state_equivariant : equivariant (fun p a a' =>
    (exists x y w vx vy, a_data a = [x; y; w; vx; vy]) /\
    (exists x y w vx vy, a_data a' = [x; y; w; vx; vy]) /\
    (p_valid p = true -> moved_action g a a')) StateDynamics.
  Proof.
    apply alike_per_object. intros p p' a a' _ ((x & y & w & vx & vy & D) & (x' & y' & w' & vx' & vy' & D') & M).
    unfold state_update. rewrite D, D'. cbn [alike]. intros Vp.
    destruct (M Vp) as (k & k' & MK & E & E' & _). rewrite D in E. rewrite D' in E'.
    injection E as -> -> -> -> ->. injection E' as -> -> -> -> ->.
    exists k, k'. repeat split; auto; apply MK.
  Qed.

  Lemma global_equivariant dt mx my myaw : dt <> 0 ->
    equivariant (fun _ => turned_action g) (DeltaGlobal (dparams dt mx my myaw)).
  Proof.
    intros Hd. apply alike_per_object. intros p p' a a' (_ & _ & Vp & K) (dx & dy & dw & D & D' & V).
    unfold delta_global_update. rewrite D, D'. cbn [alike].
    intros Hv. destruct (K Hv) as (k & k' & (P1 & P2 & P3 & P4 & P5) & (Q1 & Q2 & Q3 & Q4 & Q5) & (M1 & M2 & M3)).
    exists (mkkin (kx k + dx) (ky k + dy) (kyaw k + dw) (dx / dt) (dy / dt)).
    exists (mkkin (kx k' + fst (moved_vector g (dx, dy))) (ky k' + snd (moved_vector g (dx, dy))) (kyaw k' + dw)
              (fst (moved_vector g (dx, dy)) / dt) (snd (moved_vector g (dx, dy)) / dt)).
    cbn [dparams dl_dt].
    split; [repeat split; cbn [u_x u_y u_yaw u_vx u_vy kx ky kyaw kvx kvy]; rewrite ?P1, ?P2, ?P3; xr; rewrite ?fdiv_Fin by auto; reflexivity|].
    split; [repeat split; cbn [u_x u_y u_yaw u_vx u_vy kx ky kyaw kvx kvy]; rewrite ?Q1, ?Q2, ?Q3; xr; rewrite ?fdiv_Fin by auto; reflexivity|].
    injection M1 as M1x M1y. unfold moved_kin, moved_point, moved_vector, move in *; cbn [kx ky kyaw kvx kvy fst snd] in *.
    rewrite M1x, M1y. split; [f_equal; ring|]. split; [f_equal; field; auto|].
    replace (kyaw k + dw + mt_turn g) with (kyaw k + mt_turn g + dw) by ring. now apply same_angle_plus.
  Qed.

  (** The same action for the objects in the scene; for the others some action of the same
      length. *)
  Definition same_if (p : pt (S := XR)) (a a' : act (S := XR)) : Prop :=
    length (a_data a') = length (a_data a) /\ (p_valid p = true -> same_action a a').

  Lemma same_same p a a' : same_action a a' -> same_if p a a'.
  Proof. intros H. split; [|auto]. destruct H as [-> _]. reflexivity. Qed.

  Lemma local_equivariant dt mx my myaw : dt <> 0 ->
    equivariant same_if (DeltaLocal (dparams dt mx my myaw)).
  Proof.
    intros Hd. apply alike_per_object. intros p p' a a' (_ & _ & Vp & K) (La & Sa).
    destruct (p_valid p) eqn:Hv.
    2:{ unfold delta_local_update. destruct (a_data a) as [|? [|? [|? ?]]], (a_data a') as [|? [|? [|? ?]]]; try discriminate La; try reflexivity.
        unfold delta_global_update. cbn [a_data alike]. intros E. congruence. }
    destruct (Sa eq_refl) as [-> Fa].
    unfold delta_local_update. destruct (a_data a) as [|dx [|dy [|dw rest]]] eqn:D; try reflexivity.
    inversion Fa as [|? ? [rx ->] Fa1]; subst. inversion Fa1 as [|? ? [ry ->] Fa2]; subst.
    inversion Fa2 as [|? ? [rw ->] _]; subst.
    unfold delta_global_update; cbn [a_data a_valid alike u_valid].
    intros _. destruct (K eq_refl) as (k & k' & (P1 & P2 & P3 & P4 & P5) & (Q1 & Q2 & Q3 & Q4 & Q5) & M).
    pose proof (turn_cos _ _ M) as TC. pose proof (turn_sin _ _ M) as TS. destruct M as (M1 & M2 & M3).
    rewrite P1, P2, P3, Q1, Q2, Q3, !rotate_Fin. cbn [fst snd dparams dl_dt].
    set (r := rot (kyaw k) (rx, ry)). set (r' := rot (kyaw k') (rx, ry)).
    exists (mkkin (kx k + fst r) (ky k + snd r) (kyaw k + rw) (fst r / dt) (snd r / dt)).
    exists (mkkin (kx k' + fst r') (ky k' + snd r') (kyaw k' + rw) (fst r' / dt) (snd r' / dt)).
    split; [repeat split; cbn [u_x u_y u_yaw u_vx u_vy kx ky kyaw kvx kvy]; xr; rewrite ?fdiv_Fin by auto; reflexivity|].
    split; [repeat split; cbn [u_x u_y u_yaw u_vx u_vy kx ky kyaw kvx kvy]; xr; rewrite ?fdiv_Fin by auto; reflexivity|].
    assert (R : r' = moved_vector g r).
    { unfold r, r', rot, moved_vector, move; cbn [fst snd]. rewrite TC, TS. f_equal; ring. }
    injection M1 as M1x M1y. unfold moved_kin, moved_point; cbn [kx ky kyaw kvx kvy].
    rewrite R. unfold moved_vector, move in *; cbn [fst snd] in *.
    rewrite M1x, M1y. split; [f_equal; ring|]. split; [f_equal; field; auto|].
    replace (kyaw k + rw + mt_turn g) with (kyaw k + mt_turn g + rw) by ring. now apply same_angle_plus.
  Qed.

  Lemma bstep_moved dt acc st k k' n n' : moved_kin g k k' -> bstep dt acc st k n -> bstep dt acc st k' n' ->
    moved_kin g n n'.
  Proof.
    intros M (B1 & B2 & B3 & B4 & B5) (C1 & C2 & C3 & C4 & C5).
    pose proof (turn_cos _ _ M) as TC. pose proof (turn_sin _ _ M) as TS. pose proof (move_speed _ _ M) as SP.
    assert (Y : same_angle (kyaw n') (kyaw n + mt_turn g)).
    { rewrite B3, C3, SP. eapply same_angle_trans; [apply Rwrap_cong|].
      set (d := st * _). apply same_angle_trans with (b := kyaw k + d + mt_turn g).
      - replace (kyaw k + d + mt_turn g) with (kyaw k + mt_turn g + d) by ring.
        apply same_angle_plus, M.
      - apply same_angle_plus, same_angle_sym, Rwrap_cong. }
    destruct M as (M1 & M2 & _). injection M1 as M1x M1y. injection M2 as M2x M2y.
    unfold moved_kin, moved_point, moved_vector, move in *; cbn [fst snd] in *.
    split; [|split; [|exact Y]].
    - rewrite B1, B2, C1, C2, TC, TS, M1x, M1y, M2x, M2y. f_equal; ring.
    - rewrite B4, B5, C4, C5, SP, (same_angle_cos _ _ Y), (same_angle_sin _ _ Y), cos_plus, sin_plus. f_equal; ring.
  Qed.

  Lemma bicycle_equivariant dt ma ms nrm : 0 <= ma -> 0 <= ms ->
    equivariant same_if (InvertibleBicycleModel (bparams dt ma ms nrm)).
  Proof.
    intros Hma Hms. apply alike_per_object. intros p p' a a' (_ & _ & Vp & K) (La & Sa).
    destruct (p_valid p) eqn:Hv.
    2:{ unfold bicycle_update. destruct (a_data a) as [|? [|? ?]], (a_data a') as [|? [|? ?]]; try discriminate La; try reflexivity.
        repeat destruct (bicycle_clip _ _ _). cbn [alike]. intros E. congruence. }
    destruct (Sa eq_refl) as [-> Fa].
    destruct (a_data a) as [|xa [|xs rest]] eqn:D;
      [unfold bicycle_update; rewrite D; reflexivity|unfold bicycle_update; rewrite D; reflexivity|].
    inversion Fa as [|? ? [ra ->] Fa1]; subst. inversion Fa1 as [|? ? [rs ->] _]; subst.
      destruct (K eq_refl) as (k & k' & P & Q & M).
      destruct (bicycle_form dt ma ms nrm a p k (Fin ra) (Fin rs) rest Hma Hms P D) as (acc & st & u & n & _ & _ & A1 & A2 & E & UK & UV & B); try discriminate.
      destruct (bicycle_form dt ma ms nrm a p' k' (Fin ra) (Fin rs) rest Hma Hms Q D) as (acc' & st' & u' & n' & _ & _ & A1' & A2' & E' & UK' & UV' & B'); try discriminate.
      rewrite E, E'. cbn [alike]. intros _.
      exists n, n'. split; [exact UK|]. split; [exact UK'|].
      assert (acc' = acc) as -> by (rewrite (A1 ra eq_refl), (A1' ra eq_refl); reflexivity).
      assert (st' = st) as -> by (rewrite (A2 rs eq_refl), (A2' rs eq_refl); reflexivity).
      exact (bstep_moved dt acc st k k' n n' M B B').
  Qed.
End G.
