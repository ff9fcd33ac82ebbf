(** Proofs for C14 and the Delta part of C15. *)
From Coq Require Import Reals ZArith List Lia Lra Bool.
From Verif.Lib Require Import Base JaxIndex Scalar XR.
From Verif.Model Require Import Operations State Dynamics BaseEnv Geometry Dyn_State Dyn_Delta.
From Verif.Spec Require Import StateSpec GeomSpec DynSpec.
From Verif.Proofs Require Import Core P_Step P_Angles P_Pose.
Import ListNotations.

Section Gen.
  Context {S : Scalar}.
  Local Open Scope nat_scope.

  Lemma two_frames_Ok n T tr (t : nat) :
    rect n T tr -> t + 1 < T ->
    exists ps, two_frames tr (Z.of_nat t) = Ok ps /\ length ps = n /\
      forall i p q, i < n -> at2 tr i t = Some p -> at2 tr i (t + 1) = Some q ->
        nth_error ps i = Some (p, q).
  Proof.
    intros R Ht. unfold two_frames.
    destruct (dynamic_slice_total n T tr (Z.of_nat t) 2 R) as [sl Hs]; [lia|].
    rewrite Hs; simpl. apply (dynamic_slice_Ok n T) in Hs as [Rs As]; auto.
    rewrite norm_start_of_nat in As by lia.
    set (f := fun r : list pt => match r with
                 | p0 :: p1 :: _ => Ok (p0, p1) | _ => Err TypeError end).
    destruct (mapM_total f sl) as [ps Hp].
    { intros r Hr. destruct Rs as [_ Rs]. specialize (Rs r Hr).
      destruct r as [|a [|b r]]; try discriminate. simpl. eauto. }
    exists ps. split; auto. split; [rewrite (mapM_length _ _ _ Hp); apply Rs|].
    intros i p q Hi Ep Eq.
    destruct (nth_error_lt_Some sl i) as [r Er]; [destruct Rs; lia|].
    destruct (mapM_nth _ _ _ _ _ Hp Er) as (b & Eb & Hb). rewrite Hb.
    pose proof (As i 0 Hi ltac:(lia)) as A0. pose proof (As i 1 Hi ltac:(lia)) as A1.
    rewrite Nat.add_0_r, Ep in A0. rewrite Eq in A1.
    unfold at2 in A0, A1. rewrite Er in A0, A1.
    destruct r as [|a [|b' r]]; try discriminate. simpl in *. congruence.
  Qed.
End Gen.

Open Scope R_scope.

Lemma clamp_clip x m : 0 <= m -> Rmin (Rmax x (- m)) m = clamp (- m) m x.
Proof.
  intros H. unfold clamp, Rmin, Rmax.
  destruct (Rlt_dec x (- m)); destruct (Rle_dec x (- m)); destruct (Rlt_dec m x);
    repeat destruct (Rle_dec _ _); lra.
Qed.
Lemma clamp_id x m : Rabs x <= m -> clamp (- m) m x = x.
Proof.
  intros H. assert (- m <= x <= m) by (unfold Rabs in H; destruct (Rcase_abs x); lra).
  unfold clamp. destruct (Rlt_dec x (- m)); [lra|]. destruct (Rlt_dec m x); lra.
Qed.
Lemma clamp_range x m : 0 <= m -> - m <= clamp (- m) m x <= m.
Proof. intros H. unfold clamp. destruct (Rlt_dec x (- m)); [lra|]. destruct (Rlt_dec m x); lra. Qed.
Lemma clamp_abs x m : 0 <= m -> Rabs (clamp (- m) m x) <= m.
Proof. intros H. pose proof (clamp_range x m H). apply Rabs_le. lra. Qed.
Lemma clamp_abs_le x m : 0 <= m -> Rabs (clamp (- m) m x) <= Rabs x.
Proof.
  intros H. unfold clamp. destruct (Rlt_dec x (- m)).
  - rewrite Rabs_Ropp, (Rabs_left x), (Rabs_pos_eq m) by lra. lra.
  - destruct (Rlt_dec m x); [|lra]. rewrite !Rabs_pos_eq by lra. lra.
Qed.
Lemma clamp_idem x m : 0 <= m -> clamp (- m) m (clamp (- m) m x) = clamp (- m) m x.
Proof. intros H. apply clamp_id, clamp_abs, H. Qed.
Lemma clamp_0 m : 0 <= m -> clamp (- m) m 0 = 0.
Proof. intros H. apply clamp_id. rewrite Rabs_R0. lra. Qed.

Definition dparams (dt mx my myaw : R) : delta_params := mkdp (Fin dt) (Fin mx) (Fin my) (Fin myaw).

(* ---------------- one object ---------------- *)

Lemma global_inverse_Fin dt mx my myaw p0 p1 k0 k1 :
  0 <= mx -> 0 <= my -> has_kin p0 k0 -> has_kin p1 k1 ->
  p_valid p0 = true -> p_valid p1 = true ->
  delta_global_inverse1 (dparams dt mx my myaw) p0 p1
  = mkact [Fin (clamp (- mx) mx (kx k1 - kx k0)); Fin (clamp (- my) my (ky k1 - ky k0));
           Fin (Rwrap (kyaw k1 - kyaw k0))] true.
Proof.
  intros Hx Hy (A1 & A2 & A3 & A4 & A5) (B1 & B2 & B3 & B4 & B5) V0 V1.
  unfold delta_global_inverse1, delta_clip, dparams; cbn [dl_mx dl_my dl_myaw dl_dt].
  rewrite V0, V1, A1, A2, A3, B1, B2, B3. cbn [andb where_]. xr.
  rewrite wrap_Fin, !clamp_clip by auto. reflexivity.
Qed.

Lemma global_inverse_invalid dt mx my myaw p0 p1 :
  0 <= mx -> 0 <= my -> p_valid p0 && p_valid p1 = false ->
  delta_global_inverse1 (dparams dt mx my myaw) p0 p1 = mkact [Fin 0; Fin 0; Fin 0] false.
Proof.
  intros Hx Hy V. unfold delta_global_inverse1, delta_clip, dparams; cbn [dl_mx dl_my dl_myaw dl_dt].
  rewrite V. cbn [where_]. xr. rewrite wrap_Fin, !clamp_clip, !clamp_0 by auto.
  rewrite Rwrap_id; [reflexivity|]. unfold normalised. pose proof PI_RGT_0. lra.
Qed.

Lemma global_roundtrip dt mx my myaw p0 p1 k0 k1 :
  dt <> 0 -> 0 <= mx -> 0 <= my -> has_kin p0 k0 -> has_kin p1 k1 ->
  p_valid p0 = true -> p_valid p1 = true ->
  let ex := clamp (- mx) mx (kx k1 - kx k0) in
  let ey := clamp (- my) my (ky k1 - ky k0) in
  exists u k, delta_global_update (dparams dt mx my myaw)
      (delta_global_inverse1 (dparams dt mx my myaw) p0 p1) p0 = Ok u /\
    upd_kin u k /\ u_valid u = true /\
    kx k = kx k0 + ex /\ ky k = ky k0 + ey /\ same_angle (kyaw k) (kyaw k1) /\
    kvx k = ex / dt /\ kvy k = ey / dt.
Proof.
  intros Hd Hx Hy A B V0 V1 ex ey.
  rewrite (global_inverse_Fin dt mx my myaw p0 p1 k0 k1) by auto. fold ex ey.
  unfold delta_global_update; cbn [a_data a_valid]. unfold dparams; cbn [dl_dt].
  eexists. exists (mkkin (kx k0 + ex) (ky k0 + ey) (kyaw k0 + Rwrap (kyaw k1 - kyaw k0)) (ex / dt) (ey / dt)).
  split; [reflexivity|]. unfold upd_kin; cbn [u_x u_y u_yaw u_vx u_vy u_valid kx ky kyaw kvx kvy].
  destruct A as (A1 & A2 & A3 & _). rewrite A1, A2, A3, V0. xr. rewrite !fdiv_Fin by auto.
  split; [repeat split|]. repeat (split; [reflexivity|]). split; [|auto].
  destruct (Rwrap_cong (kyaw k1 - kyaw k0)) as [z E]. exists z. rewrite E. ring.
Qed.

Definition rot (a : R) (d : R * R) : R * R :=
  (cos a * fst d - sin a * snd d, sin a * fst d + cos a * snd d).

Lemma rotate_Fin a x y :
  rotate_point (rotation_matrix_2d (Fin a)) (Fin x, Fin y)
  = (Fin (fst (rot a (x, y))), Fin (snd (rot a (x, y)))).
Proof.
  unfold rotate_point, rotation_matrix_2d, rot; cbn [fst snd m2_00 m2_01 m2_10 m2_11]. xr.
  f_equal; f_equal; ring.
Qed.

Lemma rot_inv a x y : rot a (rot (- a) (x, y)) = (x, y).
Proof.
  unfold rot; cbn [fst snd]. rewrite cos_neg, sin_neg. pose proof (cs1 a) as E.
  set (c := cos a) in *. set (s := sin a) in *. f_equal.
  - transitivity ((c * c + s * s) * x); [ring|rewrite E; ring].
  - transitivity ((c * c + s * s) * y); [ring|rewrite E; ring].
Qed.

Lemma local_roundtrip dt mx my myaw p0 p1 k0 k1 :
  dt <> 0 -> 0 <= mx -> 0 <= my -> has_kin p0 k0 -> has_kin p1 k1 ->
  p_valid p0 = true -> p_valid p1 = true ->
  let dx := kx k1 - kx k0 in
  let dy := ky k1 - ky k0 in
  Rabs dx <= mx -> Rabs dy <= my ->
  Rabs (cos (kyaw k0) * dx + sin (kyaw k0) * dy) <= mx ->
  Rabs (- sin (kyaw k0) * dx + cos (kyaw k0) * dy) <= my ->
  exists u k, delta_local_update (dparams dt mx my myaw)
      (delta_local_inverse1 (dparams dt mx my myaw) p0 p1 p0) p0 = Ok u /\
    upd_kin u k /\ u_valid u = true /\
    kx k = kx k1 /\ ky k = ky k1 /\ same_angle (kyaw k) (kyaw k1) /\
    kvx k = dx / dt /\ kvy k = dy / dt.
Proof.
  intros Hd Hx Hy A B V0 V1 dx dy D1 D2 L1 L2.
  unfold delta_local_inverse1.
  rewrite (global_inverse_Fin dt mx my myaw p0 p1 k0 k1) by auto.
  fold dx dy. rewrite !clamp_id by auto. cbn [a_data a_valid].
  destruct A as (A1 & A2 & A3 & A4 & A5). rewrite A3. xr. rewrite rotate_Fin.
  unfold delta_clip; cbn [dparams dl_mx dl_my fst snd]. xr. rewrite wrap_Fin, !clamp_clip by auto.
  assert (F1 : fst (rot (- kyaw k0) (dx, dy)) = cos (kyaw k0) * dx + sin (kyaw k0) * dy).
  { unfold rot; cbn [fst snd]. rewrite cos_neg, sin_neg. ring. }
  assert (F2 : snd (rot (- kyaw k0) (dx, dy)) = - sin (kyaw k0) * dx + cos (kyaw k0) * dy).
  { unfold rot; cbn [fst snd]. rewrite cos_neg, sin_neg. ring. }
  rewrite !clamp_id by (rewrite ?F1, ?F2; auto).
  rewrite (Rwrap_id (Rwrap _)) by apply Rwrap_range.
  unfold delta_local_update; cbn [a_data a_valid]. rewrite A3, rotate_Fin, <- surjective_pairing.
  rewrite rot_inv. cbn [fst snd]. rewrite V0; cbn [andb].
  unfold delta_global_update; cbn [a_data a_valid dparams dl_dt].
  eexists. exists (mkkin (kx k1) (ky k1) (kyaw k0 + Rwrap (kyaw k1 - kyaw k0)) (dx / dt) (dy / dt)).
  split; [reflexivity|]. unfold upd_kin; cbn [u_x u_y u_yaw u_vx u_vy u_valid kx ky kyaw kvx kvy].
  rewrite A1, A2, A3, V0. xr. rewrite !fdiv_Fin by auto.
  split; [repeat split; f_equal; unfold dx, dy; ring|].
  repeat (split; [reflexivity|]). split; [|auto].
  destruct (Rwrap_cong (kyaw k1 - kyaw k0)) as [z E]. exists z. rewrite E. ring.
Qed.

(* ---------------- whole frames ---------------- *)

Local Open Scope nat_scope.

Lemma delta_global_inverse_Ok q n T tr ms (t : nat) :
  rect n T tr -> t + 1 < T ->
  exists acts, d_inverse (DeltaGlobal (S := XR) q) tr ms (Z.of_nat t) = Ok acts /\ length acts = n /\
    forall i p0 p1, i < n -> at2 tr i t = Some p0 -> at2 tr i (t + 1) = Some p1 ->
      nth_error acts i = Some (delta_global_inverse1 q p0 p1).
Proof.
  intros R Ht. simpl. unfold delta_global_inverse.
  destruct (two_frames_Ok n T tr t R Ht) as (ps & Hp & Lp & Ap). rewrite Hp; simpl.
  eexists. split; [reflexivity|]. rewrite map_length. split; auto.
  intros i p0 p1 Hi E0 E1. rewrite nth_error_map, (Ap i p0 p1) by auto. reflexivity.
Qed.

Lemma delta_local_inverse_Ok q n T tr ms (t : nat) :
  rect n T tr -> t + 1 < T ->
  exists acts, d_inverse (DeltaLocal (S := XR) q) tr ms (Z.of_nat t) = Ok acts /\ length acts = n /\
    forall i p0 p1, i < n -> at2 tr i t = Some p0 -> at2 tr i (t + 1) = Some p1 ->
      nth_error acts i = Some (delta_local_inverse1 q p0 p1 p0).
Proof.
  intros R Ht. simpl. unfold delta_local_inverse.
  destruct (two_frames_Ok n T tr t R Ht) as (ps & Hp & Lp & Ap). rewrite Hp; simpl.
  destruct (dynamic_index_total n T tr (Z.of_nat t) R) as [cs Hc]; [lia|]. rewrite Hc; simpl.
  apply (dynamic_index_Ok n T) in Hc as [Lc Hc]; auto. rewrite norm_start_of_nat in Hc by lia.
  eexists. split; [reflexivity|]. rewrite map2_length. split; [lia|].
  intros i p0 p1 Hi E0 E1. rewrite nth_error_map2, (Ap i p0 p1) by auto.
  rewrite Hc by auto. rewrite E0. reflexivity.
Qed.

Lemma per_object_nth f (acts : list act) (cur : list pt) us i a p u :
  per_object (S := XR) f acts cur = Ok us -> nth_error acts i = Some a -> nth_error cur i = Some p ->
  f a p = Ok u -> nth_error us i = Some u.
Proof.
  intros H Ea Ep E. destruct (per_object_Ok _ _ _ _ H) as (_ & _ & K).
  destruct (K i a p Ea Ep) as (u' & E' & En). congruence.
Qed.

(** Inverse then forward on frame [t] of a trajectory. *)
Lemma global_invert n T tr ms (t : nat) dt mx my myaw acts cur us i p0 p1 k0 k1 :
  (dt <> 0 -> 0 <= mx -> 0 <= my -> rect n T tr -> (t + 1 < T)%nat -> (i < n)%nat ->
  d_inverse (DeltaGlobal (dparams dt mx my myaw)) tr ms (Z.of_nat t) = Ok acts ->
  dynamic_index tr (Z.of_nat t) = Ok cur ->
  d_update (DeltaGlobal (dparams dt mx my myaw)) acts cur = Ok us ->
  at2 tr i t = Some p0 -> at2 tr i (t + 1) = Some p1 ->
  has_kin p0 k0 -> has_kin p1 k1 -> p_valid p0 = true -> p_valid p1 = true ->
  let ex := clamp (- mx) mx (kx k1 - kx k0) in
  let ey := clamp (- my) my (ky k1 - ky k0) in
  exists u k, nth_error us i = Some u /\ upd_kin u k /\ u_valid u = true /\
    kx k = kx k0 + ex /\ ky k = ky k0 + ey /\ same_angle (kyaw k) (kyaw k1) /\
    kvx k = ex / dt /\ kvy k = ey / dt)%R.
Proof.
  intros Hd Hx Hy R Ht Hi HI HC HU E0 E1 K0 K1 V0 V1 ex ey.
  destruct (delta_global_inverse_Ok (dparams dt mx my myaw) n T tr ms t R Ht) as (acts' & HI' & La & Aa).
  assert (acts' = acts) as -> by congruence.
  specialize (Aa i p0 p1 Hi E0 E1).
  apply (dynamic_index_Ok n T) in HC as [Lc HC]; auto. rewrite norm_start_of_nat in HC by lia.
  destruct (global_roundtrip dt mx my myaw p0 p1 k0 k1) as (u & k & EU & K); auto.
  exists u, k. split; [|exact K]. simpl in HU.
  eapply per_object_nth; eauto. rewrite HC by auto. auto.
Qed.

Lemma local_invert n T tr ms (t : nat) dt mx my myaw acts cur us i p0 p1 k0 k1 :
  (dt <> 0 -> 0 <= mx -> 0 <= my -> rect n T tr -> (t + 1 < T)%nat -> (i < n)%nat ->
  d_inverse (DeltaLocal (dparams dt mx my myaw)) tr ms (Z.of_nat t) = Ok acts ->
  dynamic_index tr (Z.of_nat t) = Ok cur ->
  d_update (DeltaLocal (dparams dt mx my myaw)) acts cur = Ok us ->
  at2 tr i t = Some p0 -> at2 tr i (t + 1) = Some p1 ->
  has_kin p0 k0 -> has_kin p1 k1 -> p_valid p0 = true -> p_valid p1 = true ->
  let dx := kx k1 - kx k0 in
  let dy := ky k1 - ky k0 in
  Rabs dx <= mx -> Rabs dy <= my ->
  Rabs (cos (kyaw k0) * dx + sin (kyaw k0) * dy) <= mx ->
  Rabs (- sin (kyaw k0) * dx + cos (kyaw k0) * dy) <= my ->
  exists u k, nth_error us i = Some u /\ upd_kin u k /\ u_valid u = true /\
    kx k = kx k1 /\ ky k = ky k1 /\ same_angle (kyaw k) (kyaw k1) /\
    kvx k = dx / dt /\ kvy k = dy / dt)%R.
Proof.
  intros Hd Hx Hy R Ht Hi HI HC HU E0 E1 K0 K1 V0 V1 dx dy D1 D2 D3 D4.
  destruct (delta_local_inverse_Ok (dparams dt mx my myaw) n T tr ms t R Ht) as (acts' & HI' & La & Aa).
  assert (acts' = acts) as -> by congruence.
  specialize (Aa i p0 p1 Hi E0 E1).
  apply (dynamic_index_Ok n T) in HC as [Lc HC]; auto. rewrite norm_start_of_nat in HC by lia.
  destruct (local_roundtrip dt mx my myaw p0 p1 k0 k1) as (u & k & EU & K); auto.
  exists u, k. split; [|exact K]. simpl in HU.
  eapply per_object_nth; eauto. rewrite HC by auto. auto.
Qed.

(* ---------------- C15: bounds ---------------- *)
Local Open Scope R_scope.

Lemma leb_Fin a b : a <= b -> fleb (Scalar := XR) (Fin a) (Fin b) = true.
Proof. intros H. rewrite fleb_Fin. now apply Rleb_true. Qed.

Lemma global_in_spec dt mx my myaw p0 p1 k0 k1 :
  0 <= mx -> 0 <= my -> PI <= myaw -> has_kin p0 k0 -> has_kin p1 k1 ->
  in_spec (delta_spec (dparams dt mx my myaw)) (a_data (delta_global_inverse1 (dparams dt mx my myaw) p0 p1)).
Proof.
  intros Hx Hy Hw A B.
  destruct (p_valid p0 && p_valid p1) eqn:V.
  - apply andb_true_iff in V as [V0 V1].
    rewrite (global_inverse_Fin dt mx my myaw p0 p1 k0 k1) by auto.
    unfold in_spec, delta_spec, dparams; cbn [a_data fst snd dl_mx dl_my dl_myaw]. xr.
    pose proof (clamp_range (kx k1 - kx k0) mx Hx). pose proof (clamp_range (ky k1 - ky k0) my Hy).
    pose proof (Rwrap_range (kyaw k1 - kyaw k0)) as RW. unfold normalised in RW.
    split; repeat constructor; apply leb_Fin; lra.
  - rewrite global_inverse_invalid by auto. pose proof PI_RGT_0.
    unfold in_spec, delta_spec, dparams; cbn [a_data fst snd dl_mx dl_my dl_myaw]. xr.
    split; repeat constructor; apply leb_Fin; lra.
Qed.

Lemma local_inverse_form dt mx my myaw p0 p1 k0 k1 :
  0 <= mx -> 0 <= my -> has_kin p0 k0 -> has_kin p1 k1 ->
  exists x y w, delta_local_inverse1 (dparams dt mx my myaw) p0 p1 p0
    = mkact [Fin (clamp (- mx) mx x); Fin (clamp (- my) my y); Fin (Rwrap w)]
        (p_valid p0 && (p_valid p0 && p_valid p1)) /\
    (p_valid p0 && p_valid p1 = false -> x = 0 /\ y = 0 /\ w = 0) /\
    (p_valid p0 && p_valid p1 = true -> w = Rwrap (kyaw k1 - kyaw k0)).
Proof.
  intros Hx Hy A B. unfold delta_local_inverse1.
  destruct (p_valid p0 && p_valid p1) eqn:V.
  - pose proof V as V'. apply andb_true_iff in V as [V0 V1].
    rewrite (global_inverse_Fin dt mx my myaw p0 p1 k0 k1) by auto. cbn [a_data a_valid].
    destruct A as (A1 & A2 & A3 & A4 & A5). rewrite A3. xr. rewrite rotate_Fin.
    unfold delta_clip; cbn [dparams dl_mx dl_my fst snd]. xr. rewrite wrap_Fin, !clamp_clip by auto.
    do 3 eexists. split; [reflexivity|]. split; [discriminate|]. reflexivity.
  - rewrite global_inverse_invalid by auto. cbn [a_data a_valid].
    destruct A as (A1 & A2 & A3 & A4 & A5). rewrite A3. xr. rewrite rotate_Fin.
    unfold delta_clip; cbn [dparams dl_mx dl_my fst snd]. xr. rewrite wrap_Fin, !clamp_clip by auto.
    do 3 eexists. split; [reflexivity|]. split; [|discriminate]. intros _.
    unfold rot; cbn [fst snd]. repeat split; ring.
Qed.

Lemma local_in_spec dt mx my myaw p0 p1 k0 k1 :
  0 <= mx -> 0 <= my -> PI <= myaw -> has_kin p0 k0 -> has_kin p1 k1 ->
  in_spec (delta_spec (dparams dt mx my myaw)) (a_data (delta_local_inverse1 (dparams dt mx my myaw) p0 p1 p0)).
Proof.
  intros Hx Hy Hw A B.
  destruct (local_inverse_form dt mx my myaw p0 p1 k0 k1) as (x & y & w & -> & _ & _); auto.
  unfold in_spec, delta_spec, dparams; cbn [a_data fst snd dl_mx dl_my dl_myaw]. xr.
  pose proof (clamp_range x mx Hx). pose proof (clamp_range y my Hy).
  pose proof (Rwrap_range w) as RW. unfold normalised in RW.
  split; repeat constructor; apply leb_Fin; lra.
Qed.

Lemma local_inverse_invalid dt mx my myaw p0 p1 k0 k1 :
  0 <= mx -> 0 <= my -> has_kin p0 k0 -> has_kin p1 k1 -> p_valid p0 && p_valid p1 = false ->
  delta_local_inverse1 (dparams dt mx my myaw) p0 p1 p0 = mkact [Fin 0; Fin 0; Fin 0] false.
Proof.
  intros Hx Hy A B V.
  destruct (local_inverse_form dt mx my myaw p0 p1 k0 k1) as (x & y & w & -> & Z & _); auto.
  destruct (Z V) as (-> & -> & ->). rewrite !clamp_0 by auto. rewrite V, andb_false_r.
  rewrite Rwrap_id; [reflexivity|]. unfold normalised. pose proof PI_RGT_0. lra.
Qed.

(** The yaw component can leave a spec narrower than PI. *)
Lemma yaw_out_of_spec dt mx my myaw :
  0 <= mx -> 0 <= my -> 0 <= myaw < PI ->
  exists (p0 p1 : pt (S := XR)) k0 k1, has_kin p0 k0 /\ has_kin p1 k1 /\
    p_valid p0 = true /\ p_valid p1 = true /\
    ~ in_spec (delta_spec (dparams dt mx my myaw)) (a_data (delta_global_inverse1 (dparams dt mx my myaw) p0 p1)) /\
    ~ in_spec (delta_spec (dparams dt mx my myaw)) (a_data (delta_local_inverse1 (dparams dt mx my myaw) p0 p1 p0)).
Proof.
  intros Hx Hy Hw. set (a := (myaw + PI) / 2).
  exists (mkpt (S := XR) (Fin 0) (Fin 0) (Fin 0) (Fin 0) (Fin 0) (Fin 0) true 0%Z (Fin 1) (Fin 1) (Fin 1)).
  exists (mkpt (S := XR) (Fin 0) (Fin 0) (Fin 0) (Fin 0) (Fin 0) (Fin a) true 0%Z (Fin 1) (Fin 1) (Fin 1)).
  exists (mkkin 0 0 0 0 0), (mkkin 0 0 a 0 0).
  match goal with |- has_kin ?p0 ?k0 /\ has_kin ?p1 ?k1 /\ _ =>
    assert (A : has_kin p0 k0) by (repeat split); assert (B : has_kin p1 k1) by (repeat split) end.
  split; [exact A|]. split; [exact B|]. split; [reflexivity|]. split; [reflexivity|].
  assert (NA : Rwrap (a - 0) = a).
  { replace (a - 0) with a by ring. apply Rwrap_id. unfold normalised, a. lra. }
  assert (F : fleb (Scalar := XR) (Fin a) (Fin myaw) = false).
  { rewrite fleb_Fin. apply Rleb_false. unfold a. lra. }
  split.
  - rewrite (global_inverse_Fin dt mx my myaw _ _ _ _ Hx Hy A B) by reflexivity.
    cbn [kx ky kyaw]. rewrite NA. intros [_ H].
    cbn [delta_spec dparams dl_mx dl_my dl_myaw fst snd a_data] in H.
    inversion H as [|? ? ? ? _ H1]; subst. inversion H1 as [|? ? ? ? _ H2]; subst.
    inversion H2; subst. congruence.
  - destruct (local_inverse_form dt mx my myaw _ _ _ _ Hx Hy A B) as (x & y & w & -> & _ & W).
    rewrite W by reflexivity. cbn [kyaw]. rewrite NA, (Rwrap_id a) by (unfold normalised, a; lra).
    intros [_ H]. cbn [delta_spec dparams dl_mx dl_my dl_myaw fst snd a_data] in H.
    inversion H as [|? ? ? ? _ H1]; subst. inversion H1 as [|? ? ? ? _ H2]; subst.
    inversion H2; subst. congruence.
Qed.

(* ---------------- C13: the expert under DeltaGlobal ---------------- *)
From Verif.Model Require Import Expert.
From Verif.Proofs Require Import Episode P_Actions P_Expert.

Lemma expert_delta_replay dt mx my myaw n T c s k s' i (kl : nat -> kin) :
  dt <> 0 -> 0 <= mx -> 0 <= my ->
  wf_scenario n T s ->
  run_policy (DeltaGlobal (dparams dt mx my myaw)) c
    (infer_expert_action (DeltaGlobal (dparams dt mx my myaw))) s k = Ok s' ->
  (1 <= c_init_steps c)%nat -> (c_init_steps c + k <= T)%nat -> (i < n)%nat ->
  (forall t, (c_init_steps c - 1 <= t < c_init_steps c + k)%nat ->
     exists l, at2 (s_log s) i t = Some l /\ p_valid l = true /\ has_kin l (kl t)) ->
  (forall t, (c_init_steps c <= t < c_init_steps c + k)%nat ->
     Rabs (kx (kl t) - kx (kl (t - 1)%nat)) <= mx /\ Rabs (ky (kl t) - ky (kl (t - 1)%nat)) <= my) ->
  forall t, (c_init_steps c - 1 <= t < c_init_steps c + k)%nat ->
    exists p kp, at2 (s_sim s') i t = Some p /\ p_valid p = true /\ has_kin p kp /\
      kx kp = kx (kl t) /\ ky kp = ky (kl t) /\ same_angle (kyaw kp) (kyaw (kl t)).
Proof.
  intros Hd Hmx Hmy W H HI HL Hi Lg Dp t Ht.
  assert (Q : forall j, (j <= k)%nat ->
    exists p kp, at2 (s_sim s') i (c_init_steps c + j - 1) = Some p /\ p_valid p = true /\ has_kin p kp /\
      kx kp = kx (kl (c_init_steps c + j - 1)%nat) /\ ky kp = ky (kl (c_init_steps c + j - 1)%nat) /\
      same_angle (kyaw kp) (kyaw (kl (c_init_steps c + j - 1)%nat))).
  2:{ destruct (Q (t + 1 - c_init_steps c)%nat) as (p & kp & E); [lia|].
      replace (c_init_steps c + (t + 1 - c_init_steps c) - 1)%nat with t in E by lia. eauto. }
  clear t Ht. induction j as [|j IH]; intros Hj.
  - rewrite Nat.add_0_r. destruct (run_policy_episode _ _ _ _ _ _ H) as (acts & La & HE).
    destruct (episode_basic _ _ _ _ _ _ _ W HE ltac:(lia)) as (_ & _ & _ & _ & F & _).
    destruct (Lg (c_init_steps c - 1)%nat) as (l & El & Vl & Kl); [lia|].
    exists l, (kl (c_init_steps c - 1)%nat). rewrite F by lia.
    repeat (split; [solve [auto]|]). apply same_angle_refl.
  - destruct IH as (p & kp & Ep & Vp & Kp & X & Y & _); [lia|].
    destruct (policy_frames n T _ _ _ _ _ _ W H HI HL j ltac:(lia))
      as (s1 & a & cur & us & K1 & K2 & K3 & K4 & K5 & K6 & K7 & K8 & K9 & K10).
    destruct (K10 i Hi) as (J1 & J2 & u & p' & nxt & ctrl & Eu & Ep' & En & Ec & Ef).
    replace (c_init_steps c + Datatypes.S j - 1)%nat with (c_init_steps c + j)%nat by lia.
    set (t := (c_init_steps c + j)%nat) in *.
    assert (EPP : p' = p).
    { rewrite Ep' in J1. rewrite <- J2 in J1 by lia. congruence. }
    subst p'.
    destruct (Lg t) as (l & El & Vl & Kl); [lia|].
    assert (nxt = l) as -> by congruence.
    destruct (Dp t) as [D1 D2]; [lia|].
    eexists. 
    destruct (expert_frames n T (DeltaGlobal (dparams dt mx my myaw)) s1 (t - 1) K2) as (comb & Ei & Rc & Fc); [lia|lia|].
    rewrite Ei in K5. replace (t - 1 + 1)%nat with t in Fc by lia.
    destruct (delta_global_inverse_Ok (dparams dt mx my myaw) n 2 comb (s_meta s1) 0 Rc ltac:(lia))
      as (acts & Ea & Lac & Aac).
    change (Z.of_nat 0) with 0%Z in Ea. assert (acts = a) as -> by congruence.
    destruct (Fc i Hi) as [F0 F1].
    assert (E0 : at2 comb i 0 = Some p) by (rewrite F0, <- J2; [exact Ep|lia]).
    assert (E1 : at2 comb i 1 = Some l) by (rewrite F1; destruct K3 as (-> & _); exact El).
    specialize (Aac i p l Hi E0 E1).
    destruct (global_roundtrip dt mx my myaw p l kp (kl t)) as (u' & k' & EU & UK & UV & G1 & G2 & G3 & G4 & G5); auto.
    assert (nth_error us i = Some u').
    { simpl in K9. eapply per_object_nth; eauto. }
    assert (u' = u) as -> by congruence.
    rewrite Ef. destruct ctrl.
    + exists k'. split; [reflexivity|].
      split; [unfold next_pt, next_valid; cbn [p_valid]; rewrite Vp; simpl; now destruct (c_allow_new_objects c)|].
      split; [exact UK|].
      replace (c_init_steps c + j - 1)%nat with (t - 1)%nat in * by lia.
      rewrite G1, G2, X, Y in *. rewrite !clamp_id by auto. split; [ring|]. split; [ring|exact G3].
    + exists (kl t). split; [reflexivity|].
      split; [unfold next_pt, next_valid; cbn [p_valid]; rewrite Vp, Vl; simpl; now destruct (c_allow_new_objects c)|].
      split; [exact Kl|]. repeat (split; [reflexivity|]). apply same_angle_refl.
Qed.

Lemma expert_delta_runs dt mx my myaw n T c (s : state (S := XR)) k :
  wf_scenario n T s -> c_max_num_objects c = n -> c_controlled c <> NON_SDC ->
  (1 <= c_init_steps c)%nat -> (c_init_steps c + k <= T)%nat ->
  exists s', run_policy (DeltaGlobal (dparams dt mx my myaw)) c
    (infer_expert_action (DeltaGlobal (dparams dt mx my myaw))) s k = Ok s'.
Proof.
  intros W HM HC HI.
  induction k as [|k IH]; intros HL.
  - destruct W as (R & Lm & Hn & HT).
    destruct (env_reset_total n T c s) as [s' H]; auto; [lia|].
    exists s'. now apply run_policy_0.
  - destruct IH as [s1 H1]; [lia|].
    destruct (run_policy_episode _ _ _ _ _ _ H1) as (acts & La & HE).
    destruct (episode_basic _ _ _ _ _ _ _ W HE ltac:(lia)) as (W1 & SC & _ & Et & _).
    destruct (expert_frames n T (DeltaGlobal (dparams dt mx my myaw)) s1 (c_init_steps c + k - 1) W1) as (comb & Ei & Rc & Fc); [lia|lia|].
    destruct (delta_global_inverse_Ok (dparams dt mx my myaw) n 2 comb (s_meta s1) 0 Rc ltac:(lia)) as (a & Ea & Lac & Aac).
    assert (Ea' : infer_expert_action (DeltaGlobal (dparams dt mx my myaw)) s1 = Ok a) by (rewrite Ei; exact Ea).
    destruct (env_step_total n T (DeltaGlobal (dparams dt mx my myaw)) c s1 a _ W1 HC (delta_global_total _)) as [s' Hs]; auto.
    + apply Forall_forall. intros x Hx. apply In_nth_error in Hx as [i Hi].
      assert (Li : (i < n)%nat) by (rewrite <- Lac; eapply nth_error_Some_lt; eauto).
      destruct (rect_at2 n 2 comb i 0 Rc Li) as [p Ep]; [lia|].
      destruct (rect_at2 n 2 comb i 1 Rc Li) as [p' Ep']; [lia|].
      rewrite (Aac i p p' Li Ep Ep') in Hi. injection Hi as <-. reflexivity.
    + exists s'. apply run_policy_snoc. eauto.
Qed.

Lemma global_exact n T tr ms (t : nat) dt mx my myaw acts cur us i p0 p1 k0 k1 :
  dt <> 0 -> 0 <= mx -> 0 <= my -> rect n T tr -> (t + 1 < T)%nat -> (i < n)%nat ->
  d_inverse (DeltaGlobal (dparams dt mx my myaw)) tr ms (Z.of_nat t) = Ok acts ->
  dynamic_index tr (Z.of_nat t) = Ok cur ->
  d_update (DeltaGlobal (dparams dt mx my myaw)) acts cur = Ok us ->
  at2 tr i t = Some p0 -> at2 tr i (t + 1) = Some p1 ->
  has_kin p0 k0 -> has_kin p1 k1 -> p_valid p0 = true -> p_valid p1 = true ->
  Rabs (kx k1 - kx k0) <= mx -> Rabs (ky k1 - ky k0) <= my ->
  exists u k, nth_error us i = Some u /\ upd_kin u k /\ u_valid u = true /\
    kx k = kx k1 /\ ky k = ky k1 /\ same_angle (kyaw k) (kyaw k1) /\
    kvx k = (kx k1 - kx k0) / dt /\ kvy k = (ky k1 - ky k0) / dt.
Proof.
  intros Hd Hx Hy R Ht Hi HI HC HU E0 E1 K0 K1 V0 V1 D1 D2.
  destruct (global_invert n T tr ms t dt mx my myaw acts cur us i p0 p1 k0 k1)
    as (u & k & Eu & UK & UV & X & Y & A & VX & VY); auto.
  rewrite clamp_id in X, VX by auto. rewrite clamp_id in Y, VY by auto.
  exists u, k. split; auto. split; auto. split; auto. split; [rewrite X; ring|].
  split; [rewrite Y; ring|]. auto.
Qed.

Lemma local_limits_refuted :
  exists (p0 p1 : pt (S := XR)) k0 k1 u,
    has_kin p0 k0 /\ has_kin p1 k1 /\ p_valid p0 = true /\ p_valid p1 = true /\
    let dx := kx k1 - kx k0 in
    let dy := ky k1 - ky k0 in
    Rabs (cos (kyaw k0) * dx + sin (kyaw k0) * dy) <= 6 /\
    Rabs (- sin (kyaw k0) * dx + cos (kyaw k0) * dy) <= 1 /\
    d_inverse (DeltaLocal (dparams (1 / 10) 6 1 PI)) [[p0; p1]] [] 0
      = Ok [delta_local_inverse1 (dparams (1 / 10) 6 1 PI) p0 p1 p0] /\
    d_update (DeltaLocal (dparams (1 / 10) 6 1 PI))
      [delta_local_inverse1 (dparams (1 / 10) 6 1 PI) p0 p1 p0] [p0] = Ok [u] /\
    u_y u <> p_y p1.
Proof.
  set (p0 := mkpt (S := XR) (Fin 0) (Fin 0) (Fin 0) (Fin 0) (Fin 0) (Fin (PI / 2)) true 0%Z (Fin 1) (Fin 1) (Fin 1)).
  set (p1 := mkpt (S := XR) (Fin 0) (Fin 2) (Fin 0) (Fin 0) (Fin 0) (Fin (PI / 2)) true 0%Z (Fin 1) (Fin 1) (Fin 1)).
  set (k0 := mkkin 0 0 (PI / 2) 0 0). set (k1 := mkkin 0 2 (PI / 2) 0 0).
  assert (A : has_kin p0 k0) by (repeat split). assert (B : has_kin p1 k1) by (repeat split).
  assert (E : exists u, delta_local_update (dparams (1 / 10) 6 1 PI)
      (delta_local_inverse1 (dparams (1 / 10) 6 1 PI) p0 p1 p0) p0 = Ok u /\ u_y u = Fin 1).
  { unfold delta_local_inverse1.
    rewrite (global_inverse_Fin (1 / 10) 6 1 PI p0 p1 k0 k1) by (auto; lra).
    cbn [a_data a_valid]. change (p_yaw p0) with (Fin (PI / 2)). xr. rewrite rotate_Fin.
    unfold delta_clip; cbn [dparams dl_mx dl_my fst snd]. xr. rewrite wrap_Fin, !clamp_clip by lra.
    assert (C1 : clamp (- 1) 1 (ky k1 - ky k0) = 1).
    { unfold clamp, k0, k1; simpl. destruct (Rlt_dec (2 - 0) (- 1)); [lra|].
      destruct (Rlt_dec 1 (2 - 0)); lra. }
    assert (C0 : clamp (- 6) 6 (kx k1 - kx k0) = 0).
    { unfold k0, k1; simpl. replace (0 - 0) with 0 by ring. apply (clamp_0 6). lra. }
    change (- (1)) with (-1). change (- (6)) with (-6). change (- 1) with (-1) in C1. change (- 6) with (-6) in C0.
    rewrite C1, C0. unfold rot; cbn [fst snd]. rewrite cos_neg, sin_neg, cos_PI2, sin_PI2.
    unfold delta_local_update; cbn [a_data a_valid]. change (p_yaw p0) with (Fin (PI / 2)).
    rewrite rotate_Fin. unfold delta_global_update; cbn [a_data dparams dl_dt].
    eexists. split; [reflexivity|]. cbn [u_y].
    cbn [fst snd]. change (p_y p0) with (Fin 0). xr. f_equal. unfold rot; cbn [fst snd]. rewrite cos_PI2, sin_PI2.
    replace (0 * 0 - - (1) * 1) with 1 by ring.
    replace (- (1) * 0 + 0 * 1) with 0 by ring.
    assert (clamp (-6) 6 1 = 1) as -> by (apply (clamp_id 1 6); rewrite Rabs_R1; lra).
    assert (clamp (-1) 1 0 = 0) as -> by (apply (clamp_0 1); lra). ring. }
  destruct E as (u & E & Ey).
  exists p0, p1, k0, k1, u. split; [exact A|]. split; [exact B|]. split; [reflexivity|]. split; [reflexivity|].
  unfold k0, k1; cbn [kx ky kyaw]. cbv zeta. rewrite cos_PI2, sin_PI2.
  split; [apply Rabs_le; lra|]. split; [apply Rabs_le; lra|]. split; [reflexivity|].
  split.
  - change (d_update (DeltaLocal (dparams (1 / 10) 6 1 PI))) with (per_object (delta_local_update (dparams (1 / 10) 6 1 PI))).
    unfold per_object. cbn [length Nat.eqb guard bind]. simpl mapM.
    unfold mapM. cbn [combine map fst snd]. rewrite E. reflexivity.
  - rewrite Ey. change (p_y p1) with (Fin 2). intros H. injection H. lra.
Qed.

(* ---------------- C15 on trajectories ---------------- *)

Lemma spec_delta_global n T tr ms (t : nat) dt mx my myaw acts i p0 p1 k0 k1 :
  0 <= mx -> 0 <= my -> PI <= myaw -> rect n T tr -> (t + 1 < T)%nat -> (i < n)%nat ->
  d_inverse (DeltaGlobal (dparams dt mx my myaw)) tr ms (Z.of_nat t) = Ok acts ->
  at2 tr i t = Some p0 -> at2 tr i (t + 1) = Some p1 -> has_kin p0 k0 -> has_kin p1 k1 ->
  exists a, nth_error acts i = Some a /\
    in_spec (delta_spec (dparams dt mx my myaw)) (a_data a) /\
    a_valid a = p_valid p0 && p_valid p1 /\
    (a_valid a = false -> a_data a = [Fin 0; Fin 0; Fin 0]).
Proof.
  intros Hx Hy Hw R Ht Hi HI E0 E1 K0 K1.
  destruct (delta_global_inverse_Ok (dparams dt mx my myaw) n T tr ms t R Ht) as (ia & HI' & Li & Ai).
  assert (ia = acts) as -> by congruence.
  eexists. split; [apply (Ai i p0 p1); auto|].
  split; [eapply global_in_spec; eauto|]. split; [reflexivity|].
  intros V. rewrite global_inverse_invalid; auto.
Qed.

Lemma spec_delta_local n T tr ms (t : nat) dt mx my myaw acts i p0 p1 k0 k1 :
  0 <= mx -> 0 <= my -> PI <= myaw -> rect n T tr -> (t + 1 < T)%nat -> (i < n)%nat ->
  d_inverse (DeltaLocal (dparams dt mx my myaw)) tr ms (Z.of_nat t) = Ok acts ->
  at2 tr i t = Some p0 -> at2 tr i (t + 1) = Some p1 -> has_kin p0 k0 -> has_kin p1 k1 ->
  exists a, nth_error acts i = Some a /\
    in_spec (delta_spec (dparams dt mx my myaw)) (a_data a) /\
    a_valid a = p_valid p0 && p_valid p1 /\
    (a_valid a = false -> a_data a = [Fin 0; Fin 0; Fin 0]).
Proof.
  intros Hx Hy Hw R Ht Hi HI E0 E1 K0 K1.
  destruct (delta_local_inverse_Ok (dparams dt mx my myaw) n T tr ms t R Ht) as (ia & HI' & Li & Ai).
  assert (ia = acts) as -> by congruence.
  eexists. split; [apply (Ai i p0 p1); auto|].
  split; [eapply local_in_spec; eauto|].
  destruct (local_inverse_form dt mx my myaw p0 p1 k0 k1) as (x & y & w & E & _ & _); auto.
  assert (VV : a_valid (delta_local_inverse1 (dparams dt mx my myaw) p0 p1 p0) = p_valid p0 && p_valid p1).
  { rewrite E. cbn [a_valid]. now destruct (p_valid p0). }
  split; [exact VV|].
  intros V. rewrite VV in V. erewrite local_inverse_invalid; eauto.
Qed.

Lemma spec_state n T (tr : traj (S := XR)) ms (t : nat) acts i p k :
  rect n T tr -> (t + 1 < T)%nat -> (i < n)%nat ->
  d_inverse StateDynamics tr ms (Z.of_nat t) = Ok acts ->
  at2 tr i (t + 1) = Some p -> has_kin p k ->
  exists a, nth_error acts i = Some a /\ in_spec state_spec (a_data a) /\ a_valid a = p_valid p.
Proof.
  intros R Ht Hi HI E K.
  destruct (state_inverse_Ok n T tr ms t R Ht) as (ia & HI' & Li & Ai).
  change (d_inverse StateDynamics tr ms (Z.of_nat t)) with (state_inverse tr ms (Z.of_nat t)) in HI.
  assert (ia = acts) as -> by congruence.
  eexists. split; [apply (Ai i p); auto|]. cbn [a_data a_valid]. split; [|reflexivity].
  destruct K as (-> & -> & -> & -> & ->).
  unfold in_spec, state_spec; simpl. split; repeat constructor.
Qed.

Lemma spec_yaw_refuted dt mx my myaw :
  0 <= mx -> 0 <= my -> 0 <= myaw < PI ->
  exists (p0 p1 : pt (S := XR)) k0 k1 ag al, has_kin p0 k0 /\ has_kin p1 k1 /\
    p_valid p0 = true /\ p_valid p1 = true /\
    d_inverse (DeltaGlobal (dparams dt mx my myaw)) [[p0; p1]] [] 0 = Ok [ag] /\
    d_inverse (DeltaLocal (dparams dt mx my myaw)) [[p0; p1]] [] 0 = Ok [al] /\
    ~ in_spec (delta_spec (dparams dt mx my myaw)) (a_data ag) /\
    ~ in_spec (delta_spec (dparams dt mx my myaw)) (a_data al).
Proof.
  intros Hx Hy Hw.
  destruct (yaw_out_of_spec dt mx my myaw Hx Hy Hw) as (p0 & p1 & k0 & k1 & A & B & V0 & V1 & G & L).
  exists p0, p1, k0, k1. do 2 eexists. split; [exact A|]. split; [exact B|]. split; [exact V0|]. split; [exact V1|].
  split; [reflexivity|]. split; [reflexivity|]. split; [exact G|exact L].
Qed.
