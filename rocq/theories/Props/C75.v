(** C75: collision and log divergence reports in float32.  [F32 lm] is IEEE binary32;
    of the maths library [lm] only sine and cosine to within 2^-23 are assumed. *)
From Coq Require Import List ZArith Reals Lra Lia Bool.
From Flocq Require Import IEEE754.BinarySingleNaN.
From Verif.Lib Require Import Base JaxIndex Scalar F32.
From Verif.Model Require Import Operations State Dynamics BaseEnv Geometry Dyn_State Expert Discretizer Comfort Metrics.
From Verif.Spec Require Import StateSpec GeomSpec DynSpec MetricSpec F32Spec F32EpisodeSpec F32GeomSpec.
From Verif.Proofs Require Import Core P_Metrics P_F32 P_F32Wrap P_Overlap P_F32Overlap P_F32Report P_Libm.
Import ListNotations.
Open Scope R_scope.

(* ---------------- collisions ---------------- *)

(** The test is symmetric, for every number type and every input, NaN included. *)
Theorem C75_overlap_symmetric {S : Scalar} (a b : box) : has_overlap a b = has_overlap b a.
Proof. exact (overlap_sym_any a b). Qed.

(** With all coordinates at most [P], a reported overlap is real or missed by at most
    [P / 2^20] (about a millimetre per kilometre from the origin), and an overlap
    deeper than that is reported. *)
Theorem C75_overlap_test lm P (a b : box (S := F32 lm)) ra rb :
  accurate32 lm -> 1 <= P <= 2 ^ 60 -> box32 P a ra -> box32 P b rb ->
  (has_overlap a b = true -> share (grown (P / 2 ^ 20) ra) (grown (P / 2 ^ 20) rb)) /\
  (wide (2 * (P / 2 ^ 20)) ra -> wide (2 * (P / 2 ^ 20)) rb ->
   share (grown (- (P / 2 ^ 20)) ra) (grown (- (P / 2 ^ 20)) rb) -> has_overlap a b = true).
Proof.
  intros AC HP Ha Hb. destruct (overlap_test32 lm AC P HP a b ra rb Ha Hb) as [H1 H2].
  split; [exact H1|]. intros (W1 & W2) (W3 & W4). exact (H2 W1 W2 W3 W4).
Qed.

(** The same for the overlap metric of a state: the value of each object is 0 or 1;
    it is 1 only if another valid object comes that close, and it is 1 if the object
    and another valid one overlap by more than that. *)
Theorem C75_overlap_report lm P n T (s : state (S := F32 lm)) t ms j p (bx : nat -> rbox) :
  accurate32 lm -> 1 <= P <= 2 ^ 60 ->
  wf_state n T s -> s_t s = Z.of_nat t -> (t < T)%nat -> overlap_compute s = Ok ms ->
  (forall i q, at2 (s_sim s) i t = Some q -> box32 P (pt_box q) (bx i)) ->
  at2 (s_sim s) j t = Some p ->
  exists v, nth_error ms j = Some (mkmres v (p_valid p)) /\ (fin v 0 \/ fin v 1) /\
    (fin v 1 -> exists i, i <> j /\ sim_valid s i t /\ share (grown (P / 2 ^ 20) (bx i)) (grown (P / 2 ^ 20) (bx j))) /\
    (forall i, i <> j -> sim_valid s i t -> wide (2 * (P / 2 ^ 20)) (bx i) -> wide (2 * (P / 2 ^ 20)) (bx j) ->
       share (grown (- (P / 2 ^ 20)) (bx i)) (grown (- (P / 2 ^ 20)) (bx j)) -> fin v 1).
Proof. exact (overlap_report32 lm P n T s t ms j p bx). Qed.

(* ---------------- log divergence ---------------- *)

(** The reported divergence is finite, not negative, and the true distance up to
    [B / 2^21], [B] a bound of that distance.  No maths library is involved. *)
Theorem C75_divergence_report lm n T (s : state (S := F32 lm)) t ms j p l x y x' y' B :
  wf_state n T s -> s_t s = Z.of_nat t -> (t < T)%nat -> log_divergence_compute s = Ok ms ->
  at2 (s_sim s) j t = Some p -> at2 (s_log s) j t = Some l ->
  fin (p_x p) x -> fin (p_y p) y -> fin (p_x l) x' -> fin (p_y l) y' -> 1 <= B <= 2 ^ 40 -> dist (x, y) (x', y') <= B ->
  exists v d, nth_error ms j = Some (mkmres v (p_valid p && p_valid l)) /\ fin v d /\ 0 <= d /\
    Rabs (d - dist (x, y) (x', y')) <= B / 2 ^ 21.
Proof. exact (divergence_report32 lm n T s t ms j p l x y x' y' B). Qed.

(** Replaying the log with StateDynamics has divergence exactly 0 in float32 too. *)
Theorem C75_expert_has_no_divergence lm n T c (s s' : state (S := F32 lm)) k i :
  wf_scenario n T s -> run_policy StateDynamics c (infer_expert_action StateDynamics) s k = Ok s' ->
  (1 <= c_init_steps c)%nat -> (c_init_steps c + k <= T)%nat -> (i < n)%nat ->
  (exists l x y, at2 (s_log s) i (c_init_steps c + k - 1) = Some l /\ fin (p_x l) x /\ fin (p_y l) y) ->
  exists ms v b, log_divergence_compute s' = Ok ms /\ nth_error ms i = Some (mkmres v b) /\ fin v 0.
Proof. exact (expert_divergence32 lm n T c s s' k i). Qed.

(* ---------------- a concrete case ---------------- *)

Section Case.
  Variable lm : libm.

  (** Cars of 4 m by 2 m at (100, 0), (102, 1) and (0, 0). *)
  Definition kpt (x y : Z) : pt (S := F32 lm) :=
    mkpt (S := F32 lm) (f32_ofZ x) (f32_ofZ y) (f32_ofZ 0) (f32_ofZ 0) (f32_ofZ 0) (f32_ofZ 0) true 0
      (f32_ofZ 4) (f32_ofZ 2) (f32_ofZ 1).
  Definition kscn : state (S := F32 lm) :=
    mkstate (S := F32 lm) [[kpt 100 0]; [kpt 102 1]; [kpt 0 0]] [[kpt 97 4]; [kpt 102 1]; [kpt 0 0]] []
      (repeat (mkmeta 1 1 true true true false false) 3) 0 None None.
  Definition kbox (i : nat) : rbox :=
    match i with 0 => mkrbox 100 0 4 2 0 | 1 => mkrbox 102 1 4 2 0 | _ => mkrbox 0 0 4 2 0 end%nat.

  Lemma kbox32 x y : (Z.abs x <= 128)%Z -> (Z.abs y <= 128)%Z -> box32 128 (pt_box (kpt x y)) (mkrbox (IZR x) (IZR y) 4 2 0).
  Proof.
    intros Hx Hy. unfold box32, pt_box; cbn [b_x b_y b_len b_wid b_yaw rx ry rlen rwid ryaw kpt p_x p_y p_len p_wid p_yaw].
    assert (A : forall z, (Z.abs z <= 128)%Z -> fin (f32_ofZ z) (IZR z)) by (intros; apply ofZ_fin; lia).
    split; [auto|]. split; [auto|]. split; [apply (A 4%Z); lia|]. split; [apply (A 2%Z); lia|]. split; [apply (A 0%Z); lia|].
    rewrite Rabs_R0. repeat split; try lra; rewrite <- abs_IZR; apply IZR_le; lia.
  Qed.

  Lemma kscn_boxes i q : at2 (s_sim kscn) i 0 = Some q -> box32 128 (pt_box q) (kbox i).
  Proof.
    destruct i as [|[|[|i]]]; cbn [at2 kscn s_sim nth_error]; intros H; [| | |destruct i; discriminate];
      assert (E : forall (a b : pt (S := F32 lm)), Some a = Some b -> a = b) by (intros; congruence);
      apply E in H; subst q; apply kbox32; lia.
  Qed.

  Lemma kscn_wf : wf_state 3 1 kscn.
  Proof.
    split; [split; [reflexivity | intros r [<-|[<-|[<-|[]]]]; reflexivity]|].
    split; [split; [reflexivity | intros r [<-|[<-|[<-|[]]]]; reflexivity]|].
    split; [reflexivity|]. lia.
  Qed.
End Case.

(** Cars 0 and 1 are reported, car 2 is not; car 0 is 5 m from its logged place. *)
Example C75_ex : exists ms v0 v1 v2 ds v d, overlap_compute (kscn ideal_libm) = Ok ms /\
  nth_error ms 0 = Some (mkmres v0 true) /\ fin v0 1 /\ nth_error ms 1 = Some (mkmres v1 true) /\ fin v1 1 /\
  nth_error ms 2 = Some (mkmres v2 true) /\ fin v2 0 /\
  log_divergence_compute (kscn ideal_libm) = Ok ds /\ nth_error ds 0 = Some (mkmres v true) /\
  fin v d /\ Rabs (d - 5) <= / 2 ^ 18.
Proof.
  destruct (overlap_total 3 1 (kscn ideal_libm) (kscn_wf _)) as [ms Hm].
  destruct (log_divergence_total 3 1 (kscn ideal_libm) (kscn_wf _)) as [ds Hd].
  assert (W : forall i, wide (2 * (128 / 2 ^ 20)) (kbox i)).
  { intros i. unfold wide. destruct i as [|[|i]]; cbn [kbox rlen rwid]; lra. }
  assert (I : forall e x y px py, -1 / 2 <= e -> Rabs (px - x) < 2 + e -> Rabs (py - y) < 1 + e ->
            interior (grown e (mkrbox x y 4 2 0)) (px, py)).
  { intros e x y px py He H1 H2. apply interior_local. unfold grown; cbn [rx ry rlen rwid ryaw fst snd].
    rewrite cos_0, sin_0, (Rabs_pos_eq (4 + 2 * e)), (Rabs_pos_eq (2 + 2 * e)) by lra.
    replace ((px - x) * 1 + (py - y) * 0) with (px - x) by ring.
    replace (- (px - x) * 0 + (py - y) * 1) with (py - y) by ring. lra. }
  assert (Sh : share (grown (- (128 / 2 ^ 20)) (kbox 0)) (grown (- (128 / 2 ^ 20)) (kbox 1))).
  { exists (101, 1 / 2). split; apply I; try lra; apply Rabs_def1; lra. }
  assert (Sh' : share (grown (- (128 / 2 ^ 20)) (kbox 1)) (grown (- (128 / 2 ^ 20)) (kbox 0))).
  { destruct Sh as (c & A & B). exists c. auto. }
  destruct (C75_overlap_report ideal_libm 128 3 1 (kscn _) 0 ms 0 _ kbox ideal_accurate ltac:(lra) (kscn_wf _) eq_refl (le_n 1) Hm
    (kscn_boxes _) eq_refl) as (v0 & N0 & _ & _ & Y0).
  destruct (C75_overlap_report ideal_libm 128 3 1 (kscn _) 0 ms 1 _ kbox ideal_accurate ltac:(lra) (kscn_wf _) eq_refl (le_n 1) Hm
    (kscn_boxes _) eq_refl) as (v1 & N1 & _ & _ & Y1).
  destruct (C75_overlap_report ideal_libm 128 3 1 (kscn _) 0 ms 2 _ kbox ideal_accurate ltac:(lra) (kscn_wf _) eq_refl (le_n 1) Hm
    (kscn_boxes _) eq_refl) as (v2 & N2 & Z2 & X2 & _).
  assert (A : forall z, (Z.abs z <= 128)%Z -> fin (f32_ofZ z) (IZR z)) by (intros; apply ofZ_fin; lia).
  assert (D5 : dist (100, 0) (97, 4) = 5).
  { unfold dist; cbn [fst snd]. replace (_ + _) with (5 * 5) by ring. apply sqrt_square. lra. }
  destruct (C75_divergence_report ideal_libm 3 1 (kscn _) 0 ds 0 _ _ 100 0 97 4 8 (kscn_wf _) eq_refl (le_n 1) Hd eq_refl eq_refl
    (A 100%Z ltac:(lia)) (A 0%Z ltac:(lia)) (A 97%Z ltac:(lia)) (A 4%Z ltac:(lia)) ltac:(lra) ltac:(lra)) as (v & d & Nd & Fd & _ & Ed).
  exists ms, v0, v1, v2, ds, v, d.
  split; [exact Hm|]. split; [exact N0|].
  split; [apply (Y0 1%nat); [lia | exists (kpt ideal_libm 102 1); split; reflexivity | apply W | apply W | exact Sh']|].
  split; [exact N1|].
  split; [apply (Y1 0%nat); [lia | exists (kpt ideal_libm 100 0); split; reflexivity | apply W | apply W | exact Sh]|].
  split; [exact N2|]. split.
  - destruct Z2 as [Z2|Z2]; [exact Z2|]. exfalso.
    destruct (X2 Z2) as (i & Hi & (q & Hq & _) & (cx & cy) & K1 & K2).
    apply interior_local in K1, K2.
    assert (Hi' : (i = 0 \/ i = 1)%nat).
    { destruct i as [|[|[|i]]]; auto; [lia|]. exfalso. revert Hq. cbn [at2 kscn s_sim nth_error]. destruct i; discriminate. }
    destruct Hi' as [-> | ->]; unfold grown, kbox in K1, K2; cbn [rx ry rlen rwid ryaw fst snd] in K1, K2;
      rewrite cos_0, sin_0, (Rabs_pos_eq (4 + _)), (Rabs_pos_eq (2 + _)) in K1, K2 by lra;
      destruct K1 as [K1 _], K2 as [K2 _]; apply Rabs_def2 in K1, K2; lra.
  - split; [exact Hd|]. split; [exact Nd|]. split; [exact Fd|]. rewrite D5 in Ed.
    eapply Rle_trans; [exact Ed|]. lra.
Qed.

(** The tolerance is needed: far from the origin a car 1 m long and wide does not
    even overlap itself, because its corners round to the same point. *)
Theorem C75_overlap_without_tolerance_refuted :
  accurate32 ideal_libm /\ exists (b : box (S := F32 ideal_libm)) r,
    box32 (2 ^ 24) b r /\ rlen r = 1 /\ rwid r = 1 /\ share r r /\ has_overlap b b = false.
Proof.
  split; [exact ideal_accurate|].
  pose (b := mkbox (S := F32 ideal_libm) (f32_ofZ 16777216) (f32_ofZ 0) (f32_ofZ 1) (f32_ofZ 1) (f32_ofZ 0)).
  exists b, (mkrbox 16777216 0 1 1 0). split.
  { unfold box32; cbn [b b_x b_y b_len b_wid b_yaw rx ry rlen rwid ryaw].
    split; [apply (ofZ_fin 16777216); lia|]. split; [apply (ofZ_fin 0); lia|]. split; [apply (ofZ_fin 1); lia|].
    split; [apply (ofZ_fin 1); lia|]. split; [apply (ofZ_fin 0); lia|].
    rewrite Rabs_R0, (Rabs_pos_eq 16777216) by lra. repeat split; lra. }
  split; [reflexivity|]. split; [reflexivity|]. split.
  { exists (16777216, 0). assert (I : interior (mkrbox 16777216 0 1 1 0) (16777216, 0)); [|split; exact I].
    apply interior_local. cbn [rx ry rlen rwid ryaw fst snd]. rewrite cos_0, sin_0, Rabs_R1.
    split; apply Rabs_def1; lra. }
  assert (Z : B2R (f32_ofZ 0) = 0) by apply (ofZ_fin 0 ltac:(lia)).
  assert (C : fcos (Scalar := F32 ideal_libm) (b_yaw b) = f32_ofZ 1).
  { unfold b; cbn [b_yaw]. change (f32_of (cos (B2R (f32_ofZ 0))) = f32_ofZ 1). rewrite Z, cos_0.
    pose proof (of_fin 1 ltac:(rewrite Rabs_R1; apply one_127)) as [F1 V1].
    pose proof (ofZ_fin 1 ltac:(lia)) as [F2 V2].
    assert (R1 : rnd 1 = 1) by (apply rnd_id, (rep_IZR 1); lia). rewrite R1 in V1.
    apply B2R_inj; [|  |].
    - apply is_finite_strict_B2R. rewrite V1. lra.
    - apply is_finite_strict_B2R. rewrite V2. lra.
    - now rewrite V1, V2. }
  assert (N : fsin (Scalar := F32 ideal_libm) (b_yaw b) = B754_zero true \/ fsin (Scalar := F32 ideal_libm) (b_yaw b) = B754_zero false).
  { unfold b; cbn [b_yaw].
    change (f32_of (sin (B2R (f32_ofZ 0))) = B754_zero true \/ f32_of (sin (B2R (f32_ofZ 0))) = B754_zero false). rewrite Z, sin_0.
    pose proof (of_fin 0 ltac:(rewrite Rabs_R0; apply Raux.bpow_ge_0)) as [F1 V1]. rewrite rnd_0 in V1.
    destruct (f32_of 0) as [[|]| | |s m e H]; auto; try discriminate F1.
    exfalso. revert V1. apply Core.Float_prop.F2R_neq_0. simpl. destruct s; discriminate. }
  unfold has_overlap, overlap_a_over_b, corners_from_bbox. rewrite C.
  destruct N as [-> | ->]; vm_compute; reflexivity.
Qed.

(** Divergence 0 does not mean the same place: the square of a distance below 2^-75
    underflows. *)
Theorem C75_zero_divergence_refuted lm : exists (p l : pt (S := F32 lm)) x,
  fin (p_x p) x /\ fin (p_x l) 0 /\ p_y p = p_y l /\ x <> 0 /\ fin (log_divergence p l) 0.
Proof.
  exists (mkpt (S := F32 lm) (f32_norm 1 (-100) false) (f32_ofZ 0) (f32_ofZ 0) (f32_ofZ 0) (f32_ofZ 0) (f32_ofZ 0) true 0 (f32_ofZ 4) (f32_ofZ 2) (f32_ofZ 1)),
    (mkpt (S := F32 lm) (f32_ofZ 0) (f32_ofZ 0) (f32_ofZ 0) (f32_ofZ 0) (f32_ofZ 0) (f32_ofZ 0) true 0 (f32_ofZ 4) (f32_ofZ 2) (f32_ofZ 1)),
    (IZR 1 * b32 (-100)).
  cbn [p_x p_y]. split.
  { apply norm_fin; [lia | lia |]. rewrite Rmult_1_l, Rabs_pos_eq by apply Raux.bpow_ge_0. apply Raux.bpow_lt. lia. }
  split; [apply (ofZ_fin 0); lia|]. split; [reflexivity|].
  split; [rewrite Rmult_1_l; apply Rgt_not_eq, Raux.bpow_gt_0|].
  assert (E : log_divergence (S := F32 lm)
    (mkpt (S := F32 lm) (f32_norm 1 (-100) false) (f32_ofZ 0) (f32_ofZ 0) (f32_ofZ 0) (f32_ofZ 0) (f32_ofZ 0) true 0 (f32_ofZ 4) (f32_ofZ 2) (f32_ofZ 1))
    (mkpt (S := F32 lm) (f32_ofZ 0) (f32_ofZ 0) (f32_ofZ 0) (f32_ofZ 0) (f32_ofZ 0) (f32_ofZ 0) true 0 (f32_ofZ 4) (f32_ofZ 2) (f32_ofZ 1)) = B754_zero false)
    by (vm_compute; reflexivity).
  rewrite E. exact zero_fin.
Qed.

Print Assumptions C75_overlap_symmetric.
Print Assumptions C75_overlap_test.
Print Assumptions C75_overlap_report.
Print Assumptions C75_divergence_report.
Print Assumptions C75_expert_has_no_divergence.
Print Assumptions C75_overlap_without_tolerance_refuted.
Print Assumptions C75_zero_divergence_refuted.
