(** C79: the map and route metrics in float32.  [F32 lm] is IEEE binary32; of the maths
    library [lm] only sine and cosine to within 2^-23 are assumed, for the corners of
    the boxes. *)
From Coq Require Import List ZArith Reals Lra Lia Bool.
From Flocq Require Import IEEE754.BinarySingleNaN.
From Verif.Lib Require Import Base JaxIndex Scalar F32.
From Verif.Model Require Import Operations State Geometry Discretizer Comfort Metrics.
From Verif.Spec Require Import StateSpec GeomSpec MetricSpec F32Spec F32EpisodeSpec F32GeomSpec F32MapSpec.
From Verif.Proofs Require Import Core P_Metrics P_F32 P_F32Wrap P_Offroad P_F32Map P_Libm.
Import ListNotations.
Open Scope R_scope.

(* ---------------- off road ---------------- *)

(** All coordinates of the map and of the object at most [P].  The value is 0 or 1.  It
    is 1 only if some corner of the box is to the right of an edge point that is nearest
    to it, both up to [P / 2^17] (about 8 mm per kilometre from the origin).  It is 1 if
    some corner is more than that to the right of every edge point that can count as
    nearest. *)
Theorem C79_offroad_report lm P n T (s : state (S := F32 lm)) t rg es ms j p b z :
  accurate32 lm -> 1 <= P <= 2 ^ 30 ->
  wf_state n T s -> s_t s = Z.of_nat t -> (t < T)%nat -> s_rg s = Some rg -> Forall2 (edge32 P) rg es ->
  (exists e, In e es /\ is_edge e) -> offroad_compute s = Ok ms -> at2 (s_sim s) j t = Some p ->
  box32 P (pt_box p) b -> fin (p_z p) z -> Rabs z <= P ->
  exists v, nth_error ms j = Some (mkmres v true) /\ (fin v 0 \/ fin v 1) /\
    (fin v 1 -> exists c k e, corner_of b c /\ almost_nearest (P / 2 ^ 17) es (c, z) k e /\ beyond (- (P / 2 ^ 17)) es (c, z) k e) /\
    ((exists c, corner_of b c /\ forall k e, almost_nearest (P / 2 ^ 17) es (c, z) k e -> beyond (P / 2 ^ 17) es (c, z) k e) -> fin v 1).
Proof. intros AC HP. exact (offroad32 lm P HP n T s t rg es ms j p b z AC). Qed.

(* ---------------- routes ---------------- *)

(** Wrong way: 0 and invalid without valid path points; otherwise valid, and either 0 or
    the distance to the nearest one up to [P / 2^18], and not below 3.5 m.  It is 0 if
    that distance is clearly below 3.5 m, and the distance if it is clearly above. *)
Theorem C79_wrongway_report lm P n T (s : state (S := F32 lm)) t i p x paths m :
  1 <= P <= 2 ^ 30 ->
  wf_state n T s -> s_t s = Z.of_nat t -> (t < T)%nat -> the_sdc (s_meta s) i ->
  frame32 P (s_sim s) t -> at2 (s_sim s) i t = Some p -> fin (p_x p) (fst x) -> fin (p_y p) (snd x) ->
  s_paths s = Some paths -> paths32 P paths -> wrongway_compute s = Ok m ->
  ((~ exists c, path_point32 paths c) /\ mr_valid m = false /\ fin (mr_value m) 0) \/
  (exists d v, nearest_dist (path_point32 paths) x d /\ mr_valid m = true /\ fin (mr_value m) v /\
     (v = 0 \/ (7 / 2 <= v /\ Rabs (v - d) <= P / 2 ^ 18)) /\
     (d < 7 / 2 - P / 2 ^ 18 -> v = 0) /\ (7 / 2 + P / 2 ^ 18 <= d -> Rabs (v - d) <= P / 2 ^ 18)).
Proof. intros HP. exact (wrongway32 lm P HP n T s t i p x paths m). Qed.

(** Off route: 0 and invalid if the SDC is invalid or no on-route path has a valid
    point; otherwise valid, and 0 or the distance [d] to the route.  It is the distance
    if [d] is clearly above 5 m or another path is clearly more than 2 m closer, and 0
    if neither can be the case. *)
Theorem C79_off_route_report lm P n T (s : state (S := F32 lm)) t i p x paths m :
  1 <= P <= 2 ^ 30 ->
  wf_state n T s -> s_t s = Z.of_nat t -> (t < T)%nat -> the_sdc (s_meta s) i ->
  frame32 P (s_sim s) t -> at2 (s_sim s) i t = Some p -> fin (p_x p) (fst x) -> fin (p_y p) (snd x) ->
  s_paths s = Some paths -> paths32 P paths -> off_route_compute s = Ok m ->
  ((p_valid p = false \/ ~ exists c, path_point_with32 true paths c) /\ mr_valid m = false /\ fin (mr_value m) 0) \/
  (p_valid p = true /\ mr_valid m = true /\
   exists d v, nearest_dist (path_point_with32 true paths) x d /\ fin (mr_value m) v /\
     (v = 0 \/ Rabs (v - d) <= P / 2 ^ 18) /\
     (5 + P / 2 ^ 18 < d \/ (exists d', nearest_dist (path_point_with32 false paths) x d' /\ 2 + P / 2 ^ 17 < d - d') ->
      Rabs (v - d) <= P / 2 ^ 18) /\
     (d <= 5 - P / 2 ^ 18 -> (forall d', nearest_dist (path_point_with32 false paths) x d' -> d - d' <= 2 - P / 2 ^ 17) -> v = 0)).
Proof. intros HP. exact (off_route32 lm P HP n T s t i p x paths m). Qed.

(* ---------------- a concrete case ---------------- *)

Section Case.
  Variable lm : libm.

  (** A road edge along the y axis; cars of 4 m by 2 m 10 m to its left (the SDC) and
      10 m to its right; a route 10 m from the SDC. *)
  Definition mcar (x : Z) : pt (S := F32 lm) :=
    mkpt (S := F32 lm) (f32_ofZ x) (f32_ofZ 0) (f32_ofZ 0) (f32_ofZ 0) (f32_ofZ 0) (f32_ofZ 0) true 0
      (f32_ofZ 4) (f32_ofZ 2) (f32_ofZ 1).
  Definition medge (y ty id : Z) : rgpt (S := F32 lm) :=
    mkrg (S := F32 lm) (f32_ofZ 0) (f32_ofZ y) (f32_ofZ 0) (f32_ofZ 0) (f32_ofZ 1) (f32_ofZ 0) ty id true.
  Definition mmap : list (rgpt (S := F32 lm)) := [medge 0 2 4; medge 0 15 7; medge 1 15 7].
  Definition mroute : list (path (S := F32 lm)) :=
    [mkpath (S := F32 lm) [mkpp (S := F32 lm) (f32_ofZ (-16)) (f32_ofZ 8) (f32_ofZ 0) 1 true (f32_ofZ 0);
                           mkpp (S := F32 lm) (f32_ofZ (-10)) (f32_ofZ 0) (f32_ofZ 0) 1 false (f32_ofZ 0)] true].
  Definition mscn : state (S := F32 lm) :=
    mkstate (S := F32 lm) [[mcar (-10)]; [mcar 10]] [[mcar (-10)]; [mcar 10]] []
      [mkmeta 1 1 true true true false false; mkmeta 2 1 false true true false false] 0 (Some mroute) (Some mmap).
  Definition redges : list redge :=
    [mkre (0, 0, 0) (0, 1, 0) 2 4 true; mkre (0, 0, 0) (0, 1, 0) 15 7 true; mkre (0, 1, 0) (0, 1, 0) 15 7 true].

  Lemma small z : (Z.abs z <= 128)%Z -> fin (f32_ofZ z) (IZR z).
  Proof. intros; apply ofZ_fin; lia. Qed.

  Lemma mscn_wf : wf_state 2 1 mscn.
  Proof.
    split; [split; [reflexivity | intros r [<-|[<-|[]]]; reflexivity]|].
    split; [split; [reflexivity | intros r [<-|[<-|[]]]; reflexivity]|].
    split; [reflexivity|]. lia.
  Qed.

  Lemma mmap32 : Forall2 (edge32 128) mmap redges.
  Proof.
    assert (M : forall y ty id, (Z.abs y <= 128)%Z -> edge32 128 (medge y ty id) (mkre (0, IZR y, 0) (0, 1, 0) ty id true)).
    { intros y ty id Hy. unfold edge32; cbn [re_p re_d re_type re_id re_valid medge rg_x rg_y rg_z rg_dx rg_dy rg_type rg_id rg_valid].
      pose proof (small 0 ltac:(lia)) as F0. pose proof (small 1 ltac:(lia)) as F1. pose proof (small y Hy) as Fy.
      repeat (split; [assumption|]). rewrite Rabs_R0, Rabs_R1.
      repeat split; try lra. rewrite <- abs_IZR. apply IZR_le. lia. }
    constructor; [exact (M 0%Z 2%Z 4%Z ltac:(lia))|]. constructor; [exact (M 0%Z 15%Z 7%Z ltac:(lia))|].
    constructor; [exact (M 1%Z 15%Z 7%Z ltac:(lia))|]. constructor.
  Qed.

  Lemma mcar32 x : (Z.abs x <= 128)%Z -> box32 128 (pt_box (mcar x)) (mkrbox (IZR x) 0 4 2 0).
  Proof.
    intros Hx. unfold box32, pt_box; cbn [b_x b_y b_len b_wid b_yaw rx ry rlen rwid ryaw mcar p_x p_y p_len p_wid p_yaw].
    split; [now apply small|]. split; [apply (small 0); lia|]. split; [apply (small 4); lia|]. split; [apply (small 2); lia|].
    split; [apply (small 0); lia|]. rewrite Rabs_R0. repeat split; try lra. rewrite <- abs_IZR. apply IZR_le. lia.
  Qed.

  Lemma mroute32 : paths32 128 mroute.
  Proof.
    intros pa q [<-|[]] [<-|[<-|[]]] V; [|discriminate].
    exists (-16, 8). cbn [fst snd]. split.
    - split; cbn [pp_x pp_y fst snd]; [apply (small (-16)) | apply (small 8)]; lia.
    - split; apply Rabs_le; lra.
  Qed.

  Lemma mroute_dist f : f = true -> nearest_dist (path_point_with32 f mroute) (-10, 0) 10 /\ nearest_dist (path_point32 mroute) (-10, 0) 10.
  Proof.
    intros ->.
    assert (D : dist (-10, 0) (-16, 8) = 10).
    { unfold dist; cbn [fst snd]. replace (_ + _) with (10 * 10) by ring. apply sqrt_square. lra. }
    assert (X : xy32 (mkpp (S := F32 lm) (f32_ofZ (-16)) (f32_ofZ 8) (f32_ofZ 0) 1 true (f32_ofZ 0)) (-16, 8)).
    { split; cbn [pp_x pp_y fst snd]; [apply (small (-16)) | apply (small 8)]; lia. }
    assert (U : forall q c, In q (path_pts (mkpath (S := F32 lm) [mkpp (S := F32 lm) (f32_ofZ (-16)) (f32_ofZ 8) (f32_ofZ 0) 1 true (f32_ofZ 0);
                           mkpp (S := F32 lm) (f32_ofZ (-10)) (f32_ofZ 0) (f32_ofZ 0) 1 false (f32_ofZ 0)] true)) -> pp_valid q = true -> xy32 q c -> 10 <= dist (-10, 0) c).
    { intros q c [<-|[<-|[]]] V (X1 & X2); [|discriminate]. destruct X as (Y1 & Y2). destruct c as [c1 c2]. cbn [fst snd] in *.
      rewrite (fin_fun _ _ _ X1 Y1), (fin_fun _ _ _ X2 Y2), D. lra. }
    split; (split; [exists (-16, 8); split; [|exact D]|]).
    - exists (mkpath (S := F32 lm) [mkpp (S := F32 lm) (f32_ofZ (-16)) (f32_ofZ 8) (f32_ofZ 0) 1 true (f32_ofZ 0);
                           mkpp (S := F32 lm) (f32_ofZ (-10)) (f32_ofZ 0) (f32_ofZ 0) 1 false (f32_ofZ 0)] true). eexists.
      split; [left; reflexivity|]. split; [reflexivity|]. split; [left; reflexivity|]. split; [reflexivity | exact X].
    - intros c (pa & q & [<-|[]] & _ & Hq & V & Xq). exact (U q c Hq V Xq).
    - exists (mkpath (S := F32 lm) [mkpp (S := F32 lm) (f32_ofZ (-16)) (f32_ofZ 8) (f32_ofZ 0) 1 true (f32_ofZ 0);
                           mkpp (S := F32 lm) (f32_ofZ (-10)) (f32_ofZ 0) (f32_ofZ 0) 1 false (f32_ofZ 0)] true). eexists.
      split; [left; reflexivity|]. split; [left; reflexivity|]. split; [reflexivity | exact X].
    - intros c (pa & q & [<-|[]] & Hq & V & Xq). exact (U q c Hq V Xq).
  Qed.
End Case.

(** The SDC is on the road, the other car is not; the SDC is reported 10 m from its
    route by both route metrics. *)
Example C79_ex : exists ms v0 v1 m1 d1 m2 d2, offroad_compute (mscn ideal_libm) = Ok ms /\
  nth_error ms 0 = Some (mkmres v0 true) /\ fin v0 0 /\ nth_error ms 1 = Some (mkmres v1 true) /\ fin v1 1 /\
  wrongway_compute (mscn ideal_libm) = Ok m1 /\ mr_valid m1 = true /\ fin (mr_value m1) d1 /\ Rabs (d1 - 10) <= / 2 ^ 11 /\
  off_route_compute (mscn ideal_libm) = Ok m2 /\ mr_valid m2 = true /\ fin (mr_value m2) d2 /\ Rabs (d2 - 10) <= / 2 ^ 11.
Proof.
  destruct (proj1 (offroad_total 2 1 (mscn ideal_libm) _ (mscn_wf _) eq_refl) ltac:(discriminate)) as (ms & Hm & _).
  assert (HE : exists e, In e redges /\ is_edge e). { exists (mkre (0, 0, 0) (0, 1, 0) 15 7 true). split; [right; left; reflexivity | split; auto]. }
  assert (Z0 : fin (p_z (mcar ideal_libm (-10))) 0) by (apply (small 0); lia).
  destruct (C79_offroad_report ideal_libm 128 2 1 (mscn _) 0 _ _ ms 0 _ (mkrbox (-10) 0 4 2 0) 0 ideal_accurate ltac:(lra) (mscn_wf _) eq_refl (le_n 1) eq_refl
    (mmap32 _) HE Hm eq_refl (mcar32 _ (-10) ltac:(lia)) Z0 ltac:(rewrite Rabs_R0; lra)) as (v0 & N0 & O0 & A0 & _).
  destruct (C79_offroad_report ideal_libm 128 2 1 (mscn _) 0 _ _ ms 1 _ (mkrbox 10 0 4 2 0) 0 ideal_accurate ltac:(lra) (mscn_wf _) eq_refl (le_n 1) eq_refl
    (mmap32 _) HE Hm eq_refl (mcar32 _ 10 ltac:(lia)) Z0 ltac:(rewrite Rabs_R0; lra)) as (v1 & N1 & _ & _ & B1).
  assert (Hw : exists m1, wrongway_compute (mscn ideal_libm) = Ok m1) by (eexists; reflexivity).
  assert (Hr : exists m2, off_route_compute (mscn ideal_libm) = Ok m2) by (eexists; reflexivity).
  destruct Hw as (m1 & Hw). destruct Hr as (m2 & Hr).
  assert (SD : the_sdc (s_meta (mscn ideal_libm)) 0).
  { split; [eexists; split; reflexivity|]. intros [|[|j]] m Hj V; [reflexivity | | destruct j; discriminate].
    cbn in Hj. assert (m = mkmeta 2 1 false true true false false) by congruence. subst m. discriminate. }
  assert (FX : frame32 128 (s_sim (mscn ideal_libm)) 0).
  { intros [|[|i]] q Hq; [| |destruct i; discriminate].
    - exists (-10), 0. assert (Some (mcar ideal_libm (-10)) = Some q) as E by exact Hq. assert (mcar ideal_libm (-10) = q) by congruence. subst q.
      split; [apply (small (-10)); lia|]. split; [apply (small 0); lia|]. split; apply Rabs_le; lra.
    - exists 10, 0. assert (Some (mcar ideal_libm 10) = Some q) as E by exact Hq. assert (mcar ideal_libm 10 = q) by congruence. subst q.
      split; [apply (small 10); lia|]. split; [apply (small 0); lia|]. split; apply Rabs_le; lra. }
  assert (X0 : fin (p_x (mcar ideal_libm (-10))) (fst (-10, 0))) by (apply (small (-10)); lia).
  assert (Y0 : fin (p_y (mcar ideal_libm (-10))) (snd (-10, 0))) by (apply (small 0); lia).
  destruct (mroute_dist ideal_libm true eq_refl) as (ND1 & ND2).
  assert (E18 : 128 / 2 ^ 18 = / 2 ^ 11) by (simpl; lra).
  assert (E11 : / 2 ^ 11 < 1) by (simpl; lra).
  destruct (C79_wrongway_report ideal_libm 128 2 1 (mscn _) 0 0 _ (-10, 0) _ m1 ltac:(lra) (mscn_wf _) eq_refl (le_n 1) SD FX eq_refl X0 Y0 eq_refl (mroute32 _) Hw)
    as [(N & _)|(d & d1 & ND & V1 & F1 & _ & _ & K1)].
  { exfalso. apply N. destruct ND2 as ((c & Hc & _) & _). exists c. exact Hc. }
  destruct (C79_off_route_report ideal_libm 128 2 1 (mscn _) 0 0 _ (-10, 0) _ m2 ltac:(lra) (mscn_wf _) eq_refl (le_n 1) SD FX eq_refl X0 Y0 eq_refl (mroute32 _) Hr)
    as [([N|N] & _)|(_ & V2 & d' & d2 & ND' & F2 & _ & K2 & _)].
  { discriminate. }
  { exfalso. apply N. destruct ND1 as ((c & Hc & _) & _). exists c. exact Hc. }
  rewrite (nearest_unique _ _ _ _ ND ND2) in K1. rewrite (nearest_unique _ _ _ _ ND' ND1) in K2. rewrite E18 in *.
  exists ms, v0, v1, m1, d1, m2, d2. split; [exact Hm|]. split; [exact N0|]. split.
  { destruct O0 as [O0|O0]; [exact O0|]. exfalso. destruct (A0 O0) as (c & k & e & Hc & (Hk & _) & (B & _)).
    destruct Hc as (u & v & Hu & Hv & ->). unfold rpoint in B; cbn [rx ry rlen rwid ryaw] in *. rewrite cos_0, sin_0 in B.
    destruct k as [|[|[|k]]]; [| | |destruct k; discriminate]; cbn [nth_error redges] in Hk;
      (match type of Hk with Some ?e0 = Some _ => assert (e = e0) by congruence; subst e end);
      unfold to_right in B; cbn [re_p re_d] in B;
      destruct Hu as [-> | ->], Hv as [-> | ->]; lra. }
  split; [exact N1|]. split.
  { apply B1. exists (rpoint (mkrbox 10 0 4 2 0) 2 1). split.
    - exists 2, 1. cbn [rlen rwid]. split; [left; lra|]. split; [left; lra | reflexivity].
    - intros k e (Hk & _ & _). unfold rpoint; cbn [rx ry ryaw]. rewrite cos_0, sin_0.
      destruct k as [|[|[|k]]]; [| | |destruct k; discriminate]; cbn [nth_error redges] in Hk;
        (match type of Hk with Some ?e0 = Some _ => assert (e = e0) by congruence; subst e end);
        (split; [unfold to_right; cbn [re_p re_d]; lra|]; intros ep Hp _; cbn [nth_error redges Nat.sub] in Hp;
         match type of Hp with Some ?e0 = Some _ => assert (ep = e0) by congruence; subst ep end;
         unfold to_right; cbn [re_p re_d]; lra). }
  split; [exact Hw|]. split; [exact V1|]. split; [exact F1|]. split; [apply K1; lra|].
  split; [exact Hr|]. split; [exact V2|]. split; [exact F2|]. apply K2. left. lra.
Qed.

(** The tolerance is needed: 100 m from the origin a corner 2^-22 m beyond the edge is
    rounded onto it and not reported. *)
Theorem C79_offroad_exact_refuted : exists (rg : list (rgpt (S := F32 ideal_libm))) es (p : pt (S := F32 ideal_libm)) b c,
  accurate32 ideal_libm /\ Forall2 (edge32 128) rg es /\ box32 128 (pt_box p) b /\ fin (p_z p) 0 /\
  corner_of b c /\ off_road es (c, 0) /\ is_offroad1 rg p = Ok false.
Proof.
  pose (p := mkpt (S := F32 ideal_libm) (f32_ofZ 100) (f32_ofZ 0) (f32_ofZ 0) (f32_ofZ 0) (f32_ofZ 0) (f32_ofZ 0) true 0
      (f32_norm 8388609 (-21) false) (f32_ofZ 2) (f32_ofZ 1)).
  exists [mkrg (S := F32 ideal_libm) (f32_ofZ 102) (f32_ofZ 0) (f32_ofZ 0) (f32_ofZ 0) (f32_ofZ 1) (f32_ofZ 0) 15 7 true],
    [mkre (102, 0, 0) (0, 1, 0) 15 7 true], p, (mkrbox 100 0 (8388609 / 2097152) 2 0),
    (rpoint (mkrbox 100 0 (8388609 / 2097152) 2 0) (8388609 / 2097152 / 2) (- (2 / 2))).
  pose proof (small 0 ltac:(lia)) as F0. pose proof (small 1 ltac:(lia)) as F1. pose proof (small 2 ltac:(lia)) as F2.
  split; [exact ideal_accurate|]. split.
  { constructor; [|constructor]. unfold edge32; cbn [re_p re_d re_type re_id re_valid rg_x rg_y rg_z rg_dx rg_dy rg_type rg_id rg_valid].
    split; [apply (small 102); lia|]. repeat (split; [assumption|]). rewrite Rabs_R0, Rabs_R1, (Rabs_pos_eq 102) by lra. repeat split; lra. }
  split.
  { unfold box32, pt_box, p; cbn [b_x b_y b_len b_wid b_yaw rx ry rlen rwid ryaw p_x p_y p_len p_wid p_yaw].
    split; [apply (small 100); lia|]. split; [exact F0|]. split.
    { replace (8388609 / 2097152) with (IZR 8388609 * b32 (-21)) by (simpl; lra). apply norm_fin; [lia | lia |].
      rewrite Rabs_pos_eq by (simpl; lra). apply Rlt_trans with 8; [simpl; lra|]. change 8 with (b32 3). apply Raux.bpow_lt. lia. }
    split; [exact F2|]. split; [exact F0|]. rewrite Rabs_R0, (Rabs_pos_eq 100) by lra. repeat split; lra. }
  split; [exact F0|]. split.
  { exists (8388609 / 2097152 / 2), (- (2 / 2)). cbn [rlen rwid]. auto. }
  split.
  { unfold rpoint; cbn [rx ry ryaw]. rewrite cos_0, sin_0. exists 0%nat. do 2 eexists. split; [reflexivity|]. split; [reflexivity|].
    split; [split; auto|]. split; [|split; [unfold right_of; cbn [re_p re_d]; lra | intros _; unfold right_of; cbn [re_p re_d]; lra]].
    intros [|j] e' Hj _; [|destruct j; discriminate]. cbn [nth_error] in Hj. assert (e' = mkre (102, 0, 0) (0, 1, 0) 15 7 true) by congruence. subst e'.
    split; [lra | intros; lia]. }
  assert (Z : B2R (f32_ofZ 0) = 0) by apply F0.
  assert (C : fcos (Scalar := F32 ideal_libm) (b_yaw (pt_box p)) = f32_ofZ 1).
  { unfold p, pt_box; cbn [b_yaw p_yaw]. change (f32_of (cos (B2R (f32_ofZ 0))) = f32_ofZ 1). rewrite Z, cos_0.
    pose proof (of_fin 1 ltac:(rewrite Rabs_R1; apply one_127)) as [G1 V1]. destruct F1 as [G2 V2].
    assert (R1 : rnd 1 = 1) by (apply rnd_id, (rep_IZR 1); lia). rewrite R1 in V1.
    apply B2R_inj.
    - apply is_finite_strict_B2R. rewrite V1. lra.
    - apply is_finite_strict_B2R. rewrite V2. lra.
    - now rewrite V1, V2. }
  assert (N : fsin (Scalar := F32 ideal_libm) (b_yaw (pt_box p)) = B754_zero true \/ fsin (Scalar := F32 ideal_libm) (b_yaw (pt_box p)) = B754_zero false).
  { unfold p, pt_box; cbn [b_yaw p_yaw].
    change (f32_of (sin (B2R (f32_ofZ 0))) = B754_zero true \/ f32_of (sin (B2R (f32_ofZ 0))) = B754_zero false). rewrite Z, sin_0.
    pose proof (of_fin 0 ltac:(rewrite Rabs_R0; apply Raux.bpow_ge_0)) as [G1 V1]. rewrite rnd_0 in V1.
    destruct (f32_of 0) as [[|]| | |s m e H]; auto; try discriminate G1.
    exfalso. revert V1. apply Core.Float_prop.F2R_neq_0. simpl. destruct s; discriminate. }
  unfold is_offroad1, bbox_corners, corners_from_bbox. rewrite C.
  destruct N as [-> | ->]; vm_compute; reflexivity.
Qed.

Print Assumptions C79_offroad_report.
Print Assumptions C79_wrongway_report.
Print Assumptions C79_off_route_report.
Print Assumptions C79_ex.
Print Assumptions C79_offroad_exact_refuted.
