(** The same scene in another coordinate frame (C68): metrics. *)
From Coq Require Import Reals ZArith List Bool Lia Lra.
From Verif.Lib Require Import Base JaxIndex Scalar XR.
From Verif.Model Require Import Operations State Dynamics BaseEnv Geometry Dyn_State Dyn_Delta
  Dyn_Bicycle Discretizer Comfort Metrics Observation.
From Verif.Spec Require Import StateSpec GeomSpec DynSpec DiscSpec MetricSpec ObsSpec MovedSpec.
From Verif.Proofs Require Import Core P_Angles P_Pose P_Overlap P_Delta P_Bicycle P_Metrics P_Route P_Moved.
From Verif.Spec Require Import GeomSpec.
Import ListNotations.
Open Scope R_scope.

Lemma move_dist g a b : dist (moved_point g a) (moved_point g b) = dist a b.
Proof.
  unfold dist, moved_point, move; cbn [fst snd]. f_equal.
  pose proof (cs1 (mt_turn g)) as E. set (c := cos _) in *. set (s := sin _) in *.
  set (x := fst a - fst b). set (y := snd a - snd b).
  transitivity ((x * x + y * y) * (c * c + s * s)); [unfold x, y; ring|]. rewrite E. unfold x, y. ring.
Qed.

Lemma map_rel_eq' {A B} (Q : A -> A -> Prop) (f f' : A -> B) l m :
  Forall2 Q l m -> (forall a b, Q a b -> f' b = f a) -> map f' m = map f l.
Proof. intros H F. induction H; cbn; [|f_equal]; auto. Qed.

Section G.
  Variable g : motion.

  Lemma moved_xy k k' : moved_kin g k k' -> (kx k', ky k') = moved_point g (kx k, ky k).
  Proof. intros H. apply H. Qed.

  (* ---------------- distance to the log ---------------- *)

  Lemma moved_log_divergence s s' : moved_state g s s' ->
    alike (Forall2 same_result) (log_divergence_compute s) (log_divergence_compute s').
  Proof.
    intros (Hs & Hl & _ & _ & Ht & _). unfold log_divergence_compute. rewrite Ht.
    eapply alike_bind; [apply alike_dynamic_index, Hs|]. intros cur cur' Hc.
    eapply alike_bind; [apply alike_dynamic_index, Hl|]. intros lg lg' Hg.
    cbn [alike]. clear - Hc Hg. revert lg lg' Hg. induction Hc as [|p p' cur cur' Hp Hc IH]; intros lg lg' Hg; [constructor|].
    destruct Hg as [|l l' lg lg' Hl Hg]; [constructor|]. cbn [map2]. constructor; [|now apply IH].
    destruct Hp as (_ & _ & V & K), Hl as (_ & _ & V' & K'). unfold same_result; cbn [mr_valid mr_value].
    rewrite V, V'. split; [reflexivity|]. intros E. apply andb_true_iff in E as [E1 E2].
    destruct (K E1) as (k & k' & P & P' & M), (K' E2) as (m & m' & Q & Q' & N).
    unfold log_divergence.     destruct P as (-> & -> & _), P' as (-> & -> & _), Q as (-> & -> & _), Q' as (-> & -> & _).
    pose proof (move_dist g (kx k, ky k) (kx m, ky m)) as D.
    rewrite <- (moved_xy _ _ M), <- (moved_xy _ _ N) in D. unfold dist in D; cbn [fst snd] in D.
    xr. rewrite !norm2_Fin. now rewrite D.
  Qed.

  (* ---------------- overlaps ---------------- *)

  Lemma fbox_angle (b b' : rbox) : rx b' = rx b -> ry b' = ry b -> rlen b' = rlen b -> rwid b' = rwid b ->
    same_angle (ryaw b') (ryaw b) -> forall p, interior b' p <-> interior b p.
  Proof.
    intros X Y L W A p. unfold interior, rpoint. rewrite X, Y, L, W, (same_angle_cos _ _ A), (same_angle_sin _ _ A). tauto.
  Qed.

  Lemma moved_box_pt p p' : moved_pt g p p' -> p_valid p = true ->
    exists b b', has_box p b /\ has_box p' b' /\
      forall q, interior b' (moved_point g q) <-> interior b q.
  Proof.
    intros ((_ & _ & SL & SW & _) & (z & l & w & _ & L & W) & V & K) E.
    destruct (K E) as (k & k' & (P1 & P2 & P3 & _) & (Q1 & Q2 & Q3 & _) & M).
    exists (mkrbox (kx k) (ky k) l w (kyaw k)), (mkrbox (kx k') (ky k') l w (kyaw k')).
    split; [repeat split; assumption|]. split; [repeat split; cbn; congruence|].
    intros q. destruct M as (M1 & _ & M3).
    rewrite <- (interior_move (mt_turn g) (mt_dx g) (mt_dy g) _ q).
    unfold moved_point in M1. rewrite (surjective_pairing (move _ _ _ (kx k, ky k))) in M1. injection M1 as X Y.
    apply fbox_angle; auto.
  Qed.

  Lemma moved_has_overlap p p' q q' : moved_pt g p p' -> moved_pt g q q' -> p_valid p = true -> p_valid q = true ->
    has_overlap (pt_box p') (pt_box q') = has_overlap (pt_box p) (pt_box q).
  Proof.
    intros Hp Hq Vp Vq.
    destruct (moved_box_pt _ _ Hp Vp) as (a & a' & A1 & A2 & A3), (moved_box_pt _ _ Hq Vq) as (b & b' & B1 & B2 & B3).
    rewrite (pt_box_has _ _ A1), (pt_box_has _ _ A2), (pt_box_has _ _ B1), (pt_box_has _ _ B2).
    apply eq_iff_eq_true. rewrite !overlap_exact. split.
    - intros (x & X1 & X2). destruct (move_inv (mt_turn g) (mt_dx g) (mt_dy g) x) as (y & ->).
      fold (moved_point g y) in X1, X2. exists y. rewrite A3 in X1. rewrite B3 in X2. auto.
    - intros (x & X1 & X2). exists (moved_point g x). now rewrite A3, B3.
  Qed.

  Lemma moved_overlap s s' : moved_state g s s' ->
    alike (Forall2 same_result) (overlap_compute s) (overlap_compute s').
  Proof.
    intros (Hs & _ & _ & _ & Ht & _). unfold overlap_compute. rewrite Ht.
    eapply alike_bind; [apply alike_dynamic_index, Hs|]. intros cur cur' Hc. cbn [alike].
    assert (LC : forall c : list pt, length (compute_overlap (S := XR) c) = length c) by (intros c; apply mapi_length).
    apply Forall2_nth. rewrite !LC. split; [eapply Forall2_len; eauto|].
    intros j a b Ha Hb.
    assert (Hj : (j < length cur)%nat) by (rewrite <- LC; eapply nth_error_Some_lt; eauto).
    destruct (nth_error_lt_Some cur j Hj) as [p Hp].
    destruct (Forall2_nth1 _ _ _ _ _ Hc Hp) as (p' & Hp' & R).
    destruct (compute_overlap_spec cur j p Hp) as (x & Ex & Bx), (compute_overlap_spec cur' j p' Hp') as (y & Ey & By).
    rewrite Ha in Ex. rewrite Hb in Ey. apply Some_inj in Ex, Ey. subst a b.
    destruct R as (S0 & S1 & V & K). split; [exact V|]. cbn [mr_valid mr_value]. intros E.
    f_equal. apply eq_iff_eq_true. rewrite Bx, By.
    assert (Rp : moved_pt g p p') by (split; auto).
    split; intros (i & q & Ni & Hq & Vq & O).
    - assert (Hi : (i < length cur)%nat) by (rewrite (Forall2_len _ _ _ Hc); eapply nth_error_Some_lt; eauto).
      destruct (nth_error_lt_Some cur i Hi) as [q0 Hq0].
      destruct (Forall2_nth1 _ _ _ _ _ Hc Hq0) as (q1 & Hq1 & Rq). rewrite Hq in Hq1. apply Some_inj in Hq1. subst q1.
      assert (Vq0 : p_valid q0 = true) by (destruct Rq as (_ & _ & Z & _); congruence).
      exists i, q0. rewrite <- (moved_has_overlap q0 q p p'); auto.
    - destruct (Forall2_nth1 _ _ _ _ _ Hc Hq) as (q1 & Hq1 & Rq).
      exists i, q1. rewrite (moved_has_overlap q q1 p p'); auto. destruct Rq as (_ & _ & Z & _). rewrite Z. auto.
  Qed.

  (* ---------------- bicycle controls ---------------- *)

  Lemma atan2_moved k k' : moved_kin g k k' -> 0 < speed k ->
    same_angle (Ratan2 (kvy k') (kvx k')) (Ratan2 (kvy k) (kvx k) + mt_turn g).
  Proof.
    intros (_ & M2 & _) Hs. set (a := Ratan2 (kvy k) (kvx k)).
    assert (N : kvx k <> 0 \/ kvy k <> 0).
    { destruct (Req_dec (kvx k) 0) as [X|X]; [right|now left]. intros Y. unfold speed in Hs.
      rewrite X, Y in Hs. replace (0 * 0 + 0 * 0) with 0 in Hs by ring. rewrite sqrt_0 in Hs. lra. }
    pose proof (Ratan2_polar (kvy k) (kvx k) N) as [P1 P2]. fold a in P1, P2.
    change (sqrt (kvx k * kvx k + kvy k * kvy k)) with (speed k) in P1, P2.
    injection M2 as X Y.
    assert (Ex : kvx k' = speed k * cos (a + mt_turn g)).
    { rewrite X, cos_plus. cbn [fst snd].
      transitivity (speed k * cos a * cos (mt_turn g) - speed k * sin a * sin (mt_turn g)); [rewrite <- P1, <- P2; ring|ring]. }
    assert (Ey : kvy k' = speed k * sin (a + mt_turn g)).
    { rewrite Y, sin_plus. cbn [fst snd].
      transitivity (speed k * cos a * sin (mt_turn g) + speed k * sin a * cos (mt_turn g)); [rewrite <- P1, <- P2; ring|ring]. }
    rewrite Ex, Ey. set (b := a + mt_turn g).
    rewrite <- (cos_wrap b), <- (sin_wrap b).
    destruct (Rwrap_range b) as [B1 B2]. apply same_angle_trans with (Rwrap b); [|apply Rwrap_cong].
    destruct B1 as [B1|B1].
    - rewrite Ratan2_of_polar; [apply same_angle_refl|auto|lra].
    - rewrite <- B1. replace (cos (- PI)) with (cos PI) by (rewrite cos_neg; reflexivity).
      replace (sin (- PI)) with (sin PI) by (rewrite sin_neg, sin_PI; ring).
      rewrite Ratan2_of_polar by (auto; pose proof PI_RGT_0; lra). exists 1%Z. simpl. ring.
  Qed.

  Lemma inverse1_moved dt p0 p0' p1 p1' : 0 < dt -> moved_pt g p0 p0' -> moved_pt g p1 p1' ->
    bicycle_inverse1 (S := XR) (Fin dt) true p0' p1' = bicycle_inverse1 (Fin dt) true p0 p1.
  Proof.
    intros Hd (_ & _ & V0 & K0) (_ & _ & V1 & K1).
    destruct (p_valid p0 && p_valid p1) eqn:E.
    2:{ rewrite !inverse1_invalid; auto. now rewrite V0, V1. }
    apply andb_true_iff in E as [E0 E1].
    destruct (K0 E0) as (k & k' & P & P' & M), (K1 E1) as (m & m' & Q & Q' & N).
    pose proof (move_speed g _ _ M) as SM. pose proof (move_speed g _ _ N) as SN.
    assert (V0' : p_valid p0' = true) by congruence. assert (V1' : p_valid p1' = true) by congruence.
    assert (Hd' : dt <> 0) by lra.
    assert (LOW : speed k < 6 / 10 \/ speed m < 6 / 10 ->
      bicycle_inverse1 (S := XR) (Fin dt) true p0' p1' = bicycle_inverse1 (Fin dt) true p0 p1).
    { intros L. rewrite (inverse1_low dt p0 p1 k m Hd' P Q L E0 E1).
      rewrite (inverse1_low dt p0' p1' k' m' Hd' P' Q'); auto; rewrite SM, SN; auto. }
    destruct (Rlt_dec (speed k) (6 / 10)) as [L|L]; [auto|].
    destruct (Rlt_dec (speed m) (6 / 10)) as [L'|L']; [auto|].
    assert (GE : 6 / 10 <= speed k /\ 6 / 10 <= speed m) by lra. destruct GE as [G1 G2].
    rewrite (inverse1_high dt p0 p1 k m Hd P Q G1 G2 E0 E1).
    rewrite (inverse1_high dt p0' p1' k' m' Hd P' Q'); [|rewrite SM; exact G1|rewrite SN; exact G2|exact V0'|exact V1'].
    rewrite SM, SN. f_equal. f_equal. f_equal. f_equal. apply Rwrap_same.
    assert (A : same_angle (if Rleb (speed m) (6 / 10) then Rwrap (kyaw m') else Ratan2 (kvy m') (kvx m'))
                 ((if Rleb (speed m) (6 / 10) then Rwrap (kyaw m) else Ratan2 (kvy m) (kvx m)) + mt_turn g)).
    { destruct (Rleb _ _).
      - eapply same_angle_trans; [apply Rwrap_cong|]. eapply same_angle_trans; [apply N|].
        apply same_angle_plus, same_angle_sym, Rwrap_cong.
      - apply atan2_moved; [exact N|lra]. }
    set (y' := if Rleb (speed m) (6 / 10) then Rwrap (kyaw m') else _) in *.
    set (y := if Rleb (speed m) (6 / 10) then Rwrap (kyaw m) else _) in *.
    destruct A as [i A]. destruct M as (_ & _ & [j B]).
    destruct (Rwrap_cong (kyaw k')) as [a C]. destruct (Rwrap_cong (kyaw k)) as [b D].
    exists (i - j - a + b)%Z. rewrite A, C, B, D, plus_IZR, !minus_IZR. ring.
  Qed.

  Lemma moved_two_frames tr tr' t : moved_traj g tr tr' ->
    alike (Forall2 (fun pq pq' => moved_pt g (fst pq) (fst pq') /\ moved_pt g (snd pq) (snd pq')))
      (two_frames tr t) (two_frames tr' t).
  Proof.
    intros H. unfold two_frames. eapply alike_bind; [apply alike_dynamic_slice, H|]. intros a a' Ha.
    eapply alike_mapM; [exact Ha|]. intros r r' Hr.
    destruct Hr as [|p p' r r' Hp Hr]; [reflexivity|]. destruct Hr as [|q q' r r' Hq Hr]; [reflexivity|].
    cbn. auto.
  Qed.

  Lemma moved_inverse dt ma ms nrm tr tr' ms0 t : 0 < dt -> moved_traj g tr tr' ->
    alike eq (bicycle_inverse (bparams dt ma ms nrm) tr ms0 t) (bicycle_inverse (bparams dt ma ms nrm) tr' ms0 t).
  Proof.
    intros Hd H. unfold bicycle_inverse. eapply alike_bind; [apply moved_two_frames, H|].
    intros a a' Ha. cbn [alike]. symmetry. apply map_rel_eq with (1 := Ha).
    intros pq pq' (A & B). unfold bicycle_inverse_action. cbn [bparams bc_dt].
    rewrite (inverse1_moved dt (fst pq) (fst pq') (snd pq) (snd pq')); auto.
  Qed.

  Lemma moved_kim dt ma ms s s' : 0 < dt -> moved_state g s s' ->
    alike eq (kim_compute (mkkim (Fin dt) ma ms) s) (kim_compute (mkkim (Fin dt) ma ms) s').
  Proof.
    intros Hd (Hs & _ & _ & _ & Ht & _). unfold kim_compute, compute_kinematics_infeasibility. rewrite Ht.
    apply alike_bind with (R := eq); [|intros a _ <-; reflexivity].
    unfold compute_inverse. eapply alike_bind; [apply moved_two_frames, Hs|].
    intros a a' Ha. cbn [alike km_dt]. symmetry. apply map_rel_eq with (1 := Ha).
    intros pq pq' (A & B). rewrite (inverse1_moved dt (fst pq) (fst pq') (snd pq) (snd pq')); auto.
  Qed.

  (* ---------------- displacements as expert actions ---------------- *)

  Definition short_pair (m : R) (p q : pt (S := XR)) : Prop :=
    forall k l, p_valid p = true -> p_valid q = true -> has_kin p k -> has_kin q l ->
      dist (kx k, ky k) (kx l, ky l) <= m.

  Lemma Forall2_In_l {A B} (P : A -> B -> Prop) l l' : Forall2 P l l' ->
    Forall2 (fun a b => P a b /\ In a l) l l'.
  Proof.
    induction 1 as [|a b l l' Hab H IH]; constructor; [split; [auto|now left]|].
    clear H Hab. cut (forall q, Forall2 (fun x y => P x y /\ In x q) l l' -> Forall2 (fun x y => P x y /\ In x (a :: q)) l l');
      [intros C; now apply C|].
    intros q. clear. induction 1 as [|x y m m' [? ?] H IH]; constructor; auto. split; [auto|now right].
  Qed.

  Lemma moved_two_frames_short m tr tr' t : moved_traj g tr tr' -> short_steps m tr ->
    alike (Forall2 (fun pq pq' => moved_pt g (fst pq) (fst pq') /\ moved_pt g (snd pq) (snd pq') /\ short_pair m (fst pq) (snd pq)))
      (two_frames tr t) (two_frames tr' t).
  Proof.
    intros H SH. unfold two_frames.
    assert (SL : alike (Forall2 (fun r r' => Forall2 (moved_pt g) r r' /\
                   forall p q, nth_error r 0 = Some p -> nth_error r 1 = Some q -> short_pair m p q))
                 (dynamic_slice tr t 2) (dynamic_slice tr' t 2)).
    { unfold dynamic_slice. apply alike_mapM with (P := fun r r' => Forall2 (moved_pt g) r r' /\ In r tr).
      - apply Forall2_In_l, H.
      - intros r r' (Hr & Hin). unfold dyn_slice. rewrite <- (Forall2_len _ _ _ Hr).
        destruct (_ <=? _)%nat; cbn [guard bind]; [|reflexivity]. cbn [alike]. split.
        + apply Forall2_firstn, Forall2_skipn, Hr.
        + intros p q Hp Hq k l Vp Vq Kp Kq. set (st := norm_start _ _ _) in *.
          rewrite nth_error_firstn_lt in Hp, Hq by lia. rewrite nth_error_skipn_add in Hp, Hq.
          apply (SH r (st + 0)%nat p q k l); auto. now replace (st + 0 + 1)%nat with (st + 1)%nat by lia. }
    eapply alike_bind; [exact SL|]. intros a a' Ha.
    eapply alike_mapM; [exact Ha|]. intros r r' (Hr & Sr).
    destruct Hr as [|p p' r r' Hp Hr]; [reflexivity|]. destruct Hr as [|q q' r r' Hq Hr]; [reflexivity|].
    cbn. split; [auto|]. split; [auto|]. apply Sr; reflexivity.
  Qed.

  Lemma abs_le_dist x y a b : Rabs (a - x) <= dist (x, y) (a, b) /\ Rabs (b - y) <= dist (x, y) (a, b).
  Proof.
    unfold dist; cbn [fst snd]. split; rewrite <- sqrt_Rsqr_abs; apply sqrt_le_1_alt; unfold Rsqr.
    - pose proof (Rle_0_sqr (y - b)) as Q. unfold Rsqr in Q. lra.
    - pose proof (Rle_0_sqr (x - a)) as Q. unfold Rsqr in Q. lra.
  Qed.

  Lemma global_short dt mx my myaw p0 p1 k l : 0 <= mx -> 0 <= my -> has_kin p0 k -> has_kin p1 l ->
    p_valid p0 = true -> p_valid p1 = true -> dist (kx k, ky k) (kx l, ky l) <= Rmin mx my ->
    delta_global_inverse1 (dparams dt mx my myaw) p0 p1
    = mkact [Fin (kx l - kx k); Fin (ky l - ky k); Fin (Rwrap (kyaw l - kyaw k))] true.
  Proof.
    intros Hx Hy P Q V0 V1 D. rewrite (global_inverse_Fin dt mx my myaw p0 p1 k l) by auto.
    destruct (abs_le_dist (kx k) (ky k) (kx l) (ky l)) as (A & B).
    pose proof (Rmin_l mx my). pose proof (Rmin_r mx my).
    rewrite !clamp_id by lra. reflexivity.
  Qed.

  Lemma moved_delta k k' l l' : moved_kin g k k' -> moved_kin g l l' ->
    (kx l' - kx k', ky l' - ky k') = moved_vector g (kx l - kx k, ky l - ky k) /\
    Rwrap (kyaw l' - kyaw k') = Rwrap (kyaw l - kyaw k) /\
    dist (kx k', ky k') (kx l', ky l') = dist (kx k, ky k) (kx l, ky l).
  Proof.
    intros M N. split; [|split].
    - destruct M as (M & _), N as (N & _). unfold moved_point, moved_vector, move in *; cbn [fst snd] in *.
      injection M as -> ->. injection N as -> ->. f_equal; ring.
    - destruct M as (_ & _ & [i M]), N as (_ & _ & [j N]). apply Rwrap_same. exists (j - i)%Z. rewrite M, N, minus_IZR. ring.
    - rewrite (moved_xy _ _ M), (moved_xy _ _ N). apply move_dist.
  Qed.

  Lemma moved_global_inverse dt mx my myaw tr tr' ms t : 0 <= mx -> 0 <= my -> moved_traj g tr tr' ->
    short_steps (Rmin mx my) tr ->
    alike (Forall2 (turned_expert g)) (delta_global_inverse (dparams dt mx my myaw) tr ms t)
      (delta_global_inverse (dparams dt mx my myaw) tr' ms t).
  Proof.
    intros Hx Hy H SH. unfold delta_global_inverse. eapply alike_bind; [apply (moved_two_frames_short _ _ _ t H SH)|].
    intros a a' Ha. cbn [alike]. apply Forall2_map with (1 := Ha). intros (p & q) (p' & q') (Hp & Hq & S0). cbn [fst snd] in *.
    destruct Hp as (_ & _ & V0 & K0), Hq as (_ & _ & V1 & K1).
    destruct (p_valid p && p_valid q) eqn:E.
    2:{ rewrite !global_inverse_invalid; auto; [|now rewrite V0, V1]. split; [reflexivity|discriminate]. }
    apply andb_true_iff in E as [E0 E1]. destruct (K0 E0) as (k & k' & P & P' & M), (K1 E1) as (l & l' & Q & Q' & N).
    destruct (moved_delta k k' l l' M N) as (D1 & D2 & D3).
    rewrite (global_short dt mx my myaw p q k l) by auto.
    rewrite (global_short dt mx my myaw p' q' k' l'); try congruence; auto; [|rewrite D3; auto].
    split; [reflexivity|]. intros _. exists (kx l - kx k), (ky l - ky k), (Rwrap (kyaw l - kyaw k)).
    split; [reflexivity|]. split; [|reflexivity]. cbn [a_data]. rewrite <- D1, D2. reflexivity.
  Qed.

  Lemma moved_local_inverse dt mx my myaw tr tr' ms t : 0 <= mx -> 0 <= my -> moved_traj g tr tr' ->
    short_steps (Rmin mx my) tr ->
    alike (Forall2 same_expert) (delta_local_inverse (dparams dt mx my myaw) tr ms t)
      (delta_local_inverse (dparams dt mx my myaw) tr' ms t).
  Proof.
    intros Hx Hy H SH. unfold delta_local_inverse. eapply alike_bind; [apply (moved_two_frames_short _ _ _ t H SH)|].
    intros a a' Ha. eapply alike_bind; [apply (alike_dynamic_index (moved_pt g) t _ _ H)|]. intros c c' Hc.
    cbn [alike]. revert c c' Hc. induction Ha as [|(p & q) (p' & q') a a' (Hp & Hq & S0) Ha IH]; intros c c' Hc; [constructor|].
    destruct Hc as [|pc pc' c c' Hpc Hc]; [constructor|]. cbn [map2]. constructor; [|now apply IH]. clear IH Ha Hc.
    cbn [fst snd] in *.
    destruct Hp as (_ & _ & V0 & K0), Hq as (_ & _ & V1 & K1), Hpc as (_ & _ & V2 & K2). unfold delta_local_inverse1.
    destruct (p_valid p && p_valid q) eqn:E.
    2:{ rewrite !global_inverse_invalid; auto; [|now rewrite V0, V1]. cbn [a_data a_valid].
        repeat (destruct (delta_clip _ _ _ _) as [[? ?] ?]). split; cbn [a_valid]; rewrite !andb_false_r; [reflexivity|discriminate]. }
    apply andb_true_iff in E as [E0 E1]. destruct (K0 E0) as (k & k' & P & P' & M), (K1 E1) as (l & l' & Q & Q' & N).
    destruct (moved_delta k k' l l' M N) as (D1 & D2 & D3).
    rewrite (global_short dt mx my myaw p q k l) by auto.
    rewrite (global_short dt mx my myaw p' q' k' l'); try congruence; auto; [|rewrite D3; auto].
    cbn [a_data a_valid]. rewrite !andb_true_r.
    destruct (p_valid pc) eqn:E2.
    2:{ repeat (destruct (delta_clip _ _ _ _) as [[? ?] ?]). split; cbn [a_valid]; [exact V2|discriminate]. }
    destruct (K2 eq_refl) as (kc & kc' & (_ & _ & C & _) & (_ & _ & C' & _) & MC).
    rewrite C, C'. xr. rewrite !rotate_Fin, D2. cbn [fst snd].
    assert (R : rot (- kyaw kc') (kx l' - kx k', ky l' - ky k') = rot (- kyaw kc) (kx l - kx k, ky l - ky k)).
    { rewrite D1. unfold rot, moved_vector, move; cbn [fst snd]. rewrite !cos_neg, !sin_neg, (turn_cos g _ _ MC), (turn_sin g _ _ MC).
      pose proof (cs1 (mt_turn g)) as CS. set (co := cos (mt_turn g)) in *. set (si := sin (mt_turn g)) in *.
      set (ca := cos (kyaw kc)). set (sa := sin (kyaw kc)). set (x := kx l - kx k). set (y := ky l - ky k). f_equal.
      - transitivity ((ca * x + sa * y) * (co * co + si * si)); [ring|rewrite CS; ring].
      - transitivity ((- sa * x + ca * y) * (co * co + si * si)); [ring|rewrite CS; ring]. }
    rewrite R, V2. destruct (delta_clip _ _ _ _) as [[? ?] ?]. split; auto.
  Qed.

  (* ---------------- off the road ---------------- *)

  Lemma edge_key q z p p' : moved_rgpt g p p' ->
    edge_sq_dist (S := XR) (Fin (fst (moved_point g q)), Fin (snd (moved_point g q)), Fin z) p'
    = edge_sq_dist (Fin (fst q), Fin (snd q), Fin z) p.
  Proof.
    intros (Z & DZ & T & I & V & K). unfold edge_sq_dist. rewrite V, T.
    destruct (rg_valid p) eqn:E; [|reflexivity]. destruct (is_road_edge (rg_type p)); [|reflexivity]. cbn [andb].
    destruct (K eq_refl) as ((pz & Ez) & c & d & (X & Y & _) & (X' & Y' & _)).
    rewrite Z, Ez, X, Y, X', Y'. xr. f_equal.
    unfold moved_point, move; cbn [fst snd]. pose proof (cs1 (mt_turn g)) as C.
    set (co := cos _) in *. set (si := sin _) in *. set (x := fst c - fst q). set (y := snd c - snd q).
    replace ((fst c * co - snd c * si + mt_dx g - (fst q * co - snd q * si + mt_dx g)) * 1) with (x * co - y * si) by (unfold x, y; ring).
    replace ((fst c * si + snd c * co + mt_dy g - (fst q * si + snd q * co + mt_dy g)) * 1) with (x * si + y * co) by (unfold x, y; ring).
    rewrite !Rmult_1_r. f_equal.
    transitivity ((x * x + y * y) * (co * co + si * si)); [ring|]. rewrite C. unfold x, y. ring.
  Qed.

  Lemma edge_okd q z p p' : moved_rgpt g p p' ->
    okd (edge_sq_dist (S := XR) (Fin (fst q), Fin (snd q), Fin z) p) /\
    (edge_sq_dist (S := XR) (Fin (fst q), Fin (snd q), Fin z) p <> PInf <->
     rg_valid p = true /\ is_road_edge (rg_type p) = true).
  Proof.
    intros (Z & DZ & T & I & V & K). unfold edge_sq_dist.
    destruct (rg_valid p) eqn:E; [|cbn; split; [exact Logic.I|split; [congruence|intros [A _]; discriminate]]].
    destruct (is_road_edge (rg_type p)); [|cbn; split; [exact Logic.I|split; [congruence|intros [_ A]; discriminate]]].
    destruct (K eq_refl) as ((pz & Ez) & c & d & (X & Y & _) & _). rewrite Ez, X, Y. xr. cbn.
    split; [exact Logic.I|]. split; [auto|discriminate].
  Qed.

  Lemma moved_signed_distance rg rg' q z : Forall2 (moved_rgpt g) rg rg' -> edges_clean rg ->
    signed_distance (S := XR) rg' (Fin (fst (moved_point g q)), Fin (snd (moved_point g q)), Fin z)
    = signed_distance rg (Fin (fst q), Fin (snd q), Fin z).
  Proof.
    intros H (EX & CL). unfold signed_distance. rewrite <- (Forall2_len _ _ _ H).
    assert (KE : map (edge_sq_dist (S := XR) (Fin (fst (moved_point g q)), Fin (snd (moved_point g q)), Fin z)) rg'
                 = map (edge_sq_dist (Fin (fst q), Fin (snd q), Fin z)) rg).
    { clear EX CL. induction H; cbn [map]; [reflexivity|]. f_equal; [now apply edge_key|assumption]. }
    rewrite KE. set (keys := map _ rg). set (n := argmin keys).
    destruct EX as (e0 & I0 & V0 & R0).
    assert (NE : keys <> []) by (unfold keys; destruct rg; [contradiction|discriminate]).
    assert (OK : Forall okd keys).
    { apply Forall_forall. intros k Hk. apply in_map_iff in Hk as (p & <- & Hp). apply In_nth_error in Hp as (i & Hi).
      destruct (Forall2_nth1 _ _ _ _ _ H Hi) as (p' & _ & R). apply (edge_okd q z p p' R). }
    destruct (argmin_okd keys NE OK) as (r & Hr & MIN). fold n in Hr, MIN.
    unfold keys in Hr. rewrite nth_error_map in Hr. destruct (nth_error rg n) as [e|] eqn:En; [|discriminate].
    cbn [option_map] in Hr. apply Some_inj in Hr.
    destruct (Forall2_nth1 _ _ _ _ _ H En) as (e' & En' & Re).
    assert (VE : rg_valid e = true /\ is_road_edge (rg_type e) = true).
    { apply (edge_okd q z e e' Re). rewrite Hr. intros ->.
      apply In_nth_error in I0 as (i0 & Hi0). destruct (Forall2_nth1 _ _ _ _ _ H Hi0) as (e0' & _ & R0').
      destruct (edge_okd q z e0 e0' R0') as (O1 & O2). destruct O2 as (_ & O2). specialize (O2 (conj V0 R0)).
      destruct (MIN i0 (edge_sq_dist (S := XR) (Fin (fst q), Fin (snd q), Fin z) e0)) as (M1 & _).
      { unfold keys. rewrite nth_error_map, Hi0. reflexivity. }
      destruct (edge_sq_dist (S := XR) (Fin (fst q), Fin (snd q), Fin z) e0); cbn in *; try contradiction; try discriminate; congruence. }
    destruct VE as (Ve & Te).
    assert (Hn1 : (n - 1 < length rg)%nat) by (apply nth_error_Some_lt in En; lia).
    destruct (nth_error_lt_Some rg _ Hn1) as [ep Ep]. destruct (Forall2_nth1 _ _ _ _ _ H Ep) as (ep' & Ep' & Rp).
    rewrite (nth_error_nth rg n zero_rg En), (nth_error_nth rg' n zero_rg En').
    rewrite (nth_error_nth rg (n - 1) zero_rg Ep), (nth_error_nth rg' (n - 1) zero_rg Ep').
    destruct (negb (length rg =? 0)%nat); [|reflexivity]. cbn [guard bind]. f_equal.
    destruct Re as (_ & _ & _ & Ie & _ & Ke). destruct (Ke Ve) as (_ & c & d & (X & Y & DX & DY) & (X' & Y' & DX' & DY')).
    rewrite Ie, X, Y, DX, DY, X', Y', DX', DY'.
    assert (CR : forall v, cross2 (S := XR) (fsub (Fin (fst (moved_point g q))) (Fin (fst (moved_point g c))), fsub (Fin (snd (moved_point g q))) (Fin (snd (moved_point g c))))
                 (@pair (F (Scalar := XR)) (F (Scalar := XR)) (Fin (fst (moved_vector g v))) (Fin (snd (moved_vector g v))))
               = cross2 (fsub (Fin (fst q)) (Fin (fst c)), fsub (Fin (snd q)) (Fin (snd c))) (@pair (F (Scalar := XR)) (F (Scalar := XR)) (Fin (fst v)) (Fin (snd v)))).
    { intros v. unfold cross2; cbn [fst snd]. xr. f_equal. unfold moved_point, moved_vector, move; cbn [fst snd].
      pose proof (cs1 (mt_turn g)) as C. set (co := cos _) in *. set (si := sin _) in *.
      set (x := fst q - fst c). set (y := snd q - snd c).
      transitivity ((x * snd v - y * fst v) * (co * co + si * si)); [unfold x, y; ring|]. rewrite C. ring. }
    rewrite (CR d).
    assert (DI : norm2 (S := XR) (fsub (Fin (fst (moved_point g c))) (Fin (fst (moved_point g q)))) (fsub (Fin (snd (moved_point g c))) (Fin (snd (moved_point g q))))
               = norm2 (fsub (Fin (fst c)) (Fin (fst q))) (fsub (Fin (snd c)) (Fin (snd q)))).
    { xr. rewrite !norm2_Fin. f_equal. apply (move_dist g c q). }
    rewrite DI. destruct Rp as (_ & _ & _ & Ip & _ & Kp). rewrite Ip.
    destruct (Z.eqb_spec (rg_id e) (rg_id ep)) as [IE|IE]; [|reflexivity].
    destruct (Kp (CL n e ep En Ve Te Ep (eq_sym IE))) as (_ & c1 & d1 & (_ & _ & U & W) & (_ & _ & U' & W')).
    rewrite U, W, U', W', (CR d1). reflexivity.
  Qed.

  Lemma moved_corners p p' : moved_pt g p p' -> p_valid p = true ->
    exists cs, bbox_corners p = map finv cs /\ bbox_corners p' = map finv (map (moved_point g) cs).
  Proof.
    intros ((_ & _ & SL & SW & _) & (z & l & w & _ & L & W) & V & K) E.
    destruct (K E) as (k & k' & (P1 & P2 & P3 & _) & (Q1 & Q2 & Q3 & _) & M).
    pose proof (turn_cos g _ _ M) as TC. pose proof (turn_sin g _ _ M) as TS.
    set (b := mkrbox (kx k) (ky k) l w (kyaw k)). set (b' := mkrbox (kx k') (ky k') l w (kyaw k')).
    assert (B : pt_box p = fbox b) by (apply pt_box_has; repeat split; assumption).
    assert (B' : pt_box p' = fbox b') by (apply pt_box_has; repeat split; cbn; congruence).
    unfold bbox_corners. rewrite B, B', !corners_Fin.
    eexists. split; [reflexivity|]. f_equal. cbn [map].
    destruct M as (M1 & _). unfold moved_point, move in M1; cbn [fst snd] in M1. injection M1 as X Y.
    unfold rpoint, moved_point, move, b, b'; cbn [rx ry rlen rwid ryaw fst snd]. rewrite TC, TS, X, Y.
    repeat (apply f_equal2; [apply f_equal2; ring|]). reflexivity.
  Qed.

  Lemma moved_offroad1 rg rg' p p' : Forall2 (moved_rgpt g) rg rg' -> edges_clean rg -> moved_pt g p p' ->
    p_valid p = true -> is_offroad1 (S := XR) rg' p' = is_offroad1 rg p.
  Proof.
    intros H C M V. destruct (moved_corners p p' M V) as (cs & E & E'). unfold is_offroad1. rewrite E, E'.
    destruct M as ((SZ & _) & (z & l & w & PZ & _) & _). rewrite SZ, PZ.
    assert (EZ : fmul (Scalar := XR) f1 (Fin z) = Fin z) by (xr; f_equal; ring). rewrite EZ.
    assert (MM : mapM (fun c => signed_distance rg' (fst c, snd c, Fin z)) (map finv (map (moved_point g) cs))
               = mapM (fun c => signed_distance rg (fst c, snd c, Fin z)) (map finv cs)).
    { clear E E'. induction cs as [|c cs IH]; [reflexivity|]. cbn [map mapM].
      assert (E1 : signed_distance (S := XR) rg' (fst (finv (moved_point g c)), snd (finv (moved_point g c)), (Fin z : F (Scalar := XR)))
                 = signed_distance rg (fst (finv c), snd (finv c), (Fin z : F (Scalar := XR))))
        by exact (moved_signed_distance rg rg' c z H C).
      etransitivity; [apply f_equal2; [exact E1|reflexivity]|].
      cbv beta. rewrite IH. reflexivity. }
    apply f_equal2; [exact MM|reflexivity].
  Qed.

  Lemma moved_offroad s s' rg : moved_state g s s' -> s_rg s = Some rg -> edges_clean rg ->
    alike (same_for_valid s) (offroad_compute s) (offroad_compute s').
  Proof.
    intros (Hs & _ & _ & _ & Ht & _ & Hr) Er CL. unfold offroad_compute. rewrite Ht.
    rewrite Er in *. destruct (s_rg s') as [rg'|]; [|contradiction]. cbn [opt_rel] in Hr.
    pose proof (alike_dynamic_index (moved_pt g) (s_t s) _ _ Hs) as HC.
    destruct (dynamic_index (s_sim s) (s_t s)) as [cur|] eqn:Ec, (dynamic_index (s_sim s') (s_t s)) as [cur'|];
      cbn in HC; try contradiction; [|cbn; auto].
    cbn [bind].
    assert (NE : rg <> [] /\ rg' <> []).
    { destruct CL as ((e & I & _) & _). destruct Hr; [contradiction|split; discriminate]. }
    destruct NE as (N1 & N2).
    assert (TOT : forall r (c : list pt), r <> [] -> exists ms, mapM (fun p => let* b := is_offroad1 (S := XR) r p in Ok (mkmres (fbool b) true)) c = Ok ms).
    { intros r c Nr. apply mapM_total. intros p _. unfold is_offroad1.
      destruct (mapM_total (fun c => signed_distance r (fst c, snd c, fmul f1 (p_z p))) (bbox_corners p)) as [ds E].
      - intros q _. now apply signed_distance_total.
      - rewrite E. cbn [bind]. eauto. }
    destruct (TOT rg cur N1) as [ms Em], (TOT rg' cur' N2) as [ms' Em']. rewrite Em, Em'. cbn [alike]. split.
    - rewrite (mapM_length _ _ _ Em), (mapM_length _ _ _ Em'). symmetry. eapply Forall2_len; eauto.
    - intros cur0 i p E0 Hp Vp. unfold current_sim in E0. rewrite Ec in E0. apply Ok_inj in E0. subst cur0.
      destruct (Forall2_nth1 _ _ _ _ _ HC Hp) as (p' & Hp' & M).
      destruct (mapM_nth _ _ _ _ _ Em Hp) as (m & F1 & ->), (mapM_nth _ _ _ _ _ Em' Hp') as (m' & F2 & ->).
      f_equal. rewrite (moved_offroad1 rg rg' p p' Hr CL M Vp) in F2. rewrite F1 in F2. now apply Ok_inj in F2.
  Qed.

  (* ---------------- routes ---------------- *)

  Lemma moved_sdc_xy ms fr fr' i : Forall2 (moved_pt g) fr fr' -> readable ms fr i -> readable ms fr' i ->
    exists c, sdc_xy (S := XR) fr ms = Ok (finv c) /\ sdc_xy fr' ms = Ok (finv (moved_point g c)) /\
      sdc_valid fr ms = Ok true /\ sdc_valid fr' ms = Ok true.
  Proof.
    intros H (L & U & Fi & p & Hp & Vp) (L' & _ & Fi' & p1 & Hp1 & Vp1).
    destruct (Forall2_nth1 _ _ _ _ _ H Hp) as (p' & Hp' & (_ & _ & _ & K)).
    rewrite Hp' in Hp1. apply Some_inj in Hp1. subst p1.
    destruct (K Vp) as (k & k' & (P1 & P2 & _) & (Q1 & Q2 & _) & M).
    exists (kx k, ky k).
    assert (SX : forall (f : list pt) (c : R * R) (q : pt (S := XR)), length f = length ms -> (forall q, In q f -> exists c, has_xy q c) ->
              nth_error f i = Some q -> has_xy q c -> sdc_xy (S := XR) f ms = Ok (finv c)).
    { intros f c q Lf Ff Hq (X & Y). unfold sdc_xy.
      rewrite (select_onehot_Fin (map p_x f) ms i (fst c)); [| |exact U| |].
      - cbn [bind]. rewrite (select_onehot_Fin (map p_y f) ms i (snd c)); [reflexivity| |exact U| |].
        + now rewrite map_length.
        + intros y Hy. apply in_map_iff in Hy as (r & <- & Hr). destruct (Ff r Hr) as (d & _ & E). eauto.
        + rewrite nth_error_map, Hq. cbn. congruence.
      - now rewrite map_length.
      - intros y Hy. apply in_map_iff in Hy as (r & <- & Hr). destruct (Ff r Hr) as (d & E & _). eauto.
      - rewrite nth_error_map, Hq. cbn. congruence. }
    split; [apply (SX fr _ p); auto; split; auto|].
    split; [apply (SX fr' _ p'); auto; rewrite <- (moved_xy _ _ M); split; auto|].
    split; unfold sdc_valid; rewrite (select_onehot_b _ ms i true); auto; rewrite ?map_length; auto;
      rewrite nth_error_map; [rewrite Hp|rewrite Hp']; cbn; congruence.
  Qed.

  Lemma path_dist_moved c q q' : moved_pathpt g q q' -> pp_valid q = true ->
    path_dist (S := XR) (finv (moved_point g c)) q' = path_dist (finv c) q.
  Proof.
    intros (_ & _ & _ & _ & K) V. destruct (K V) as (d & P & P').
    unfold finv. rewrite (path_dist_Fin (moved_point g c) q' _ P'), (path_dist_Fin c q d P), move_dist. reflexivity.
  Qed.

  Lemma flat_rel {A} (f f' : path (S := XR) -> pathpt (S := XR) -> A) paths paths' :
    Forall2 (moved_path g) paths paths' ->
    (forall pa pa' q q', path_on_route pa' = path_on_route pa -> moved_pathpt g q q' -> f' pa' q' = f pa q) ->
    flat_map (fun pa => map (f' pa) (path_pts pa)) paths' = flat_map (fun pa => map (f pa) (path_pts pa)) paths.
  Proof.
    intros H F. induction H as [|pa pa' ps ps' (O & P) H IH]; [reflexivity|]. cbn [flat_map]. rewrite IH. f_equal.
    clear IH H. induction P; [reflexivity|]. cbn [map]. rewrite IHP. f_equal. now apply F.
  Qed.

  Lemma moved_wrongway s s' cur cur' i : moved_state g s s' ->
    current_sim s = Ok cur -> current_sim s' = Ok cur' ->
    readable (s_meta s) cur i -> readable (s_meta s) cur' i ->
    alike eq (wrongway_compute s) (wrongway_compute s').
  Proof.
    intros (Hs & _ & _ & Hm & Ht & Hp & _) Ec Ec' Rd Rd'. unfold wrongway_compute. unfold current_sim in Ec, Ec'.
    pose proof (alike_dynamic_index (moved_pt g) (s_t s) _ _ Hs) as HC. rewrite <- Ht in HC at 2.
    rewrite Ec, Ec' in HC. cbn in HC. rewrite Ec, Ec'. cbn [bind]. rewrite Hm.
    destruct (moved_sdc_xy _ _ _ i HC Rd Rd') as (c & -> & -> & _). cbn [bind].
    destruct (s_paths s) as [ps|], (s_paths s') as [ps'|]; try contradiction; [|reflexivity].
    assert (E : flat_map (fun pa : path => map (fun p => if pp_valid p then path_dist (finv (moved_point g c)) p else finf) (path_pts pa)) ps'
              = flat_map (fun pa : path => map (fun p => if pp_valid p then path_dist (S := XR) (finv c) p else finf) (path_pts pa)) ps).
    { apply (flat_rel (fun _ p => if pp_valid p then path_dist (S := XR) (finv c) p else finf)
                      (fun _ p => if pp_valid p then path_dist (S := XR) (finv (moved_point g c)) p else finf) _ _ Hp).
      intros pa pa' q q' _ Q. pose proof Q as (_ & _ & _ & V & _). rewrite V. destruct (pp_valid q) eqn:Eq; [|reflexivity].
      now apply path_dist_moved. }
    rewrite E. apply alike_eq.
  Qed.

  Lemma moved_off_route s s' cur cur' i : moved_state g s s' ->
    current_sim s = Ok cur -> current_sim s' = Ok cur' ->
    readable (s_meta s) cur i -> readable (s_meta s) cur' i ->
    alike eq (off_route_compute s) (off_route_compute s').
  Proof.
    intros (Hs & _ & _ & Hm & Ht & Hp & _) Ec Ec' Rd Rd'. unfold off_route_compute.
    unfold current_sim in Ec, Ec'.
    pose proof (alike_dynamic_index (moved_pt g) (s_t s) _ _ Hs) as HC. rewrite <- Ht in HC at 2.
    rewrite Ec, Ec' in HC. cbn in HC.
    destruct (s_paths s) as [ps|], (s_paths s') as [ps'|]; try contradiction; [|reflexivity].
    rewrite Ec, Ec'. cbn [bind]. rewrite Hm.
    destruct (moved_sdc_xy _ _ _ i HC Rd Rd') as (c & -> & -> & V1 & V2). cbn [bind]. rewrite V1, V2. cbn [bind].
    assert (E : forall flag : bool -> bool,
      flat_map (fun pa : path => map (fun p => if flag (path_on_route pa) then (if pp_valid p then path_dist (finv (moved_point g c)) p else finf) else finf) (path_pts pa)) ps'
      = flat_map (fun pa : path => map (fun p => if flag (path_on_route pa) then (if pp_valid p then path_dist (S := XR) (finv c) p else finf) else finf) (path_pts pa)) ps).
    { intros flag.
      apply (flat_rel (fun pa p => if flag (path_on_route pa) then (if pp_valid p then path_dist (S := XR) (finv c) p else finf) else finf)
                      (fun pa p => if flag (path_on_route pa) then (if pp_valid p then path_dist (S := XR) (finv (moved_point g c)) p else finf) else finf) _ _ Hp).
      intros pa pa' q q' O Q. pose proof Q as (_ & _ & _ & V & _). rewrite V, O.
      destruct (flag _); [|reflexivity]. destruct (pp_valid q) eqn:Eq; [|reflexivity].
      now apply path_dist_moved. }
    rewrite (E (fun b => b)), (E negb). apply alike_eq.
  Qed.

  Lemma arclength_moved c pts pts' : Forall2 (moved_pathpt g) pts pts' ->
    arclength_for (S := XR) (finv (moved_point g c)) pts' = arclength_for (finv c) pts.
  Proof.
    intros H. unfold arclength_for.
    assert (E : map (fun p => if pp_valid p then path_dist (S := XR) (finv (moved_point g c)) p else finf) pts'
              = map (fun p => if pp_valid p then path_dist (finv c) p else finf) pts).
    { apply map_rel_eq' with (1 := H). intros q q' Q. pose proof Q as (_ & _ & _ & V & _). rewrite V.
      destruct (pp_valid q) eqn:Eq; [|reflexivity]. now apply path_dist_moved. }
    rewrite E. set (n := argmin _). clearbody n. clear E. revert n.
    induction H as [|q q' pts pts' Q H IH]; intros n; [reflexivity|]. destruct n as [|n]; cbn [nth]; [apply Q|apply IH].
  Qed.

  Lemma alike_log_frame tr tr' t : moved_traj g tr tr' -> alike (Forall2 (moved_pt g)) (log_frame tr t) (log_frame tr' t).
  Proof.
    intros H. unfold log_frame. eapply alike_mapM; [exact H|]. intros r r' Hr.
    destruct (nth_error r t) as [p|] eqn:E.
    - destruct (Forall2_nth1 _ _ _ _ _ Hr E) as (p' & -> & R). exact R.
    - apply nth_error_None in E. rewrite (Forall2_len _ _ _ Hr) in E. apply nth_error_None in E. rewrite E. reflexivity.
  Qed.

  Lemma moved_progression s s' i cur cur' fst0 fst0' lst lst' : moved_state g s s' ->
    current_sim s = Ok cur -> current_sim s' = Ok cur' ->
    log_frame (s_log s) 0 = Ok fst0 -> log_frame (s_log s') 0 = Ok fst0' ->
    log_frame (s_log s) (num_timesteps (s_log s) - 1) = Ok lst -> log_frame (s_log s') (num_timesteps (s_log s') - 1) = Ok lst' ->
    readable (s_meta s) cur i -> readable (s_meta s) cur' i ->
    readable (s_meta s) fst0 i -> readable (s_meta s) fst0' i ->
    readable (s_meta s) lst i -> readable (s_meta s) lst' i ->
    alike eq (progression_compute s) (progression_compute s').
  Proof.
    intros (Hs & Hl & _ & Hm & Ht & Hp & _) Ec Ec' E0 E0' E1 E1' Rd Rd' R0 R0' R1 R1'. unfold progression_compute.
    unfold current_sim in Ec, Ec'.
    pose proof (alike_dynamic_index (moved_pt g) (s_t s) _ _ Hs) as HC. rewrite <- Ht in HC at 2.
    rewrite Ec, Ec' in HC. cbn in HC.
    pose proof (alike_log_frame _ _ 0 Hl) as H0. rewrite E0, E0' in H0. cbn in H0.
    assert (TN : num_timesteps (s_log s') = num_timesteps (s_log s)).
    { unfold num_timesteps. destruct Hl as [|r r' ? ? Hr]; [reflexivity|]. symmetry. eapply Forall2_len; eauto. }
    pose proof (alike_log_frame _ _ (num_timesteps (s_log s) - 1) Hl) as H1. rewrite TN in E1'. rewrite E1, E1' in H1. cbn in H1.
    destruct (s_paths s) as [ps|], (s_paths s') as [ps'|]; try contradiction; [|reflexivity].
    rewrite Ec, Ec'. cbn [bind]. rewrite Hm, TN.
    destruct (moved_sdc_xy _ _ _ i HC Rd Rd') as (c & -> & -> & V1 & V2). cbn [bind]. rewrite E0, E0'. cbn [bind].
    destruct (moved_sdc_xy _ _ _ i H0 R0 R0') as (c0 & -> & -> & _). cbn [bind]. rewrite E1, E1'. cbn [bind].
    destruct (moved_sdc_xy _ _ _ i H1 R1 R1') as (c1 & -> & -> & _). cbn [bind]. rewrite V1, V2. cbn [bind].
    apply alike_bind with (R := eq).
    { assert (X : mapM (fun pa : path => jmin (map (fun p => if pp_valid p && path_on_route pa then norm2 (S := XR) (fsub (pp_x p) (fst (finv (moved_point g c)))) (fsub (pp_y p) (snd (finv (moved_point g c)))) else finf) (path_pts pa))) ps'
                = mapM (fun pa : path => jmin (map (fun p => if pp_valid p && path_on_route pa then norm2 (S := XR) (fsub (pp_x p) (fst (finv c))) (fsub (pp_y p) (snd (finv c))) else finf) (path_pts pa))) ps).
      { clear - Hp. cbn [opt_rel] in Hp. induction Hp as [|pa pa' ps ps' (O & P) H IH]; [reflexivity|]. cbn [mapM]. rewrite IH.
        replace (map _ (path_pts pa')) with (map (fun p => if pp_valid p && path_on_route pa then norm2 (S := XR) (fsub (pp_x p) (fst (finv c))) (fsub (pp_y p) (snd (finv c))) else finf) (path_pts pa)); [reflexivity|].
        rewrite O. clear IH. symmetry. apply map_rel_eq' with (1 := P). intros q q' (_ & _ & _ & V & K). rewrite V.
        destruct (pp_valid q) eqn:Eq; [|reflexivity]. destruct (path_on_route pa); [|reflexivity]. cbn [andb].
        destruct (K eq_refl) as (d & (A & B) & (A' & B')). rewrite A, B, A', B'. unfold finv; cbn [fst snd]. xr.
        rewrite !norm2_Fin. f_equal. apply (move_dist g d c). }
      rewrite X. apply alike_eq. }
    intros dp _ <-. apply alike_bind with (R := eq); [apply alike_eq|]. intros md _ <-.
    assert (RP : Forall2 (moved_pathpt g) (path_pts (nth (argmin dp) ps (mkpath [] false))) (path_pts (nth (argmin dp) ps' (mkpath [] false)))).
    { clear - Hp. cbn [opt_rel] in Hp. set (n := argmin dp). clearbody n. revert n.
      induction Hp as [|pa pa' ps ps' (O & P) H IH]; intros n; [destruct n; constructor|]. destruct n; cbn [nth]; auto. }
    rewrite !(arclength_moved _ _ _ RP). reflexivity.
  Qed.
End G.
