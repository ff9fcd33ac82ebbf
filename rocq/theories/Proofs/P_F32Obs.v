(** Observations in float32. *)
From Coq Require Import List ZArith Reals Lra Lia Bool.
From Flocq Require Import Core.Raux IEEE754.BinarySingleNaN.
From Verif.Lib Require Import Base JaxIndex Scalar XR F32.
From Verif.Model Require Import Operations State Geometry Pose Roadgraph Observation.
From Verif.Spec Require Import StateSpec GeomSpec DynSpec MetricSpec ObsSpec F32Spec F32EpisodeSpec F32GeomSpec F32ObsSpec.
From Verif.Proofs Require Import Core P_Metrics P_Pose P_Observation P_OwnFrame P_F32 P_F32Wrap P_F32Delta P_F32Bicycle P_F32Kim P_F32Special P_F32Overlap P_F32Idm P_F32Route.
Import ListNotations.
Open Scope R_scope.

(** * Exact operations *)
Lemma mul1_fin (x y : f32) r : fin x r -> fin y 1 -> Rabs r <= 2 ^ 70 -> fin (Bmult mode_NE x y) r.
Proof.
  intros F G B. pose proof (mul_fin _ _ _ _ F G) as H. rewrite Rmult_1_r in H. rewrite (rnd_id r (fin_rep _ _ F)) in H.
  apply H. now apply big127.
Qed.
Lemma mul1l_fin (x y : f32) r : fin x 1 -> fin y r -> Rabs r <= 2 ^ 70 -> fin (Bmult mode_NE x y) r.
Proof.
  intros F G B. pose proof (mul_fin _ _ _ _ F G) as H. rewrite Rmult_1_l in H. rewrite (rnd_id r (fin_rep _ _ G)) in H.
  apply H. now apply big127.
Qed.
Lemma mul0_fin (x y : f32) r : fin x r -> fin y 0 -> fin (Bmult mode_NE x y) 0.
Proof.
  intros F G. pose proof (mul_fin _ _ _ _ F G) as H. rewrite Rmult_0_r, rnd_0 in H.
  apply H. rewrite Rabs_R0. apply bpow_ge_0.
Qed.
Lemma mul0l_fin (x y : f32) r : fin x 0 -> fin y r -> fin (Bmult mode_NE x y) 0.
Proof.
  intros F G. pose proof (mul_fin _ _ _ _ F G) as H. rewrite Rmult_0_l, rnd_0 in H.
  apply H. rewrite Rabs_R0. apply bpow_ge_0.
Qed.
Lemma add0_fin (x y : f32) r : fin x r -> fin y 0 -> Rabs r <= 2 ^ 70 -> fin (Bplus mode_NE x y) r.
Proof.
  intros F G B. pose proof (add_fin _ _ _ _ F G) as H. rewrite Rplus_0_r in H. rewrite (rnd_id r (fin_rep _ _ F)) in H.
  apply H. now apply big127.
Qed.
Lemma add0l_fin (x y : f32) r : fin x 0 -> fin y r -> Rabs r <= 2 ^ 70 -> fin (Bplus mode_NE x y) r.
Proof.
  intros F G B. pose proof (add_fin _ _ _ _ F G) as H. rewrite Rplus_0_l in H. rewrite (rnd_id r (fin_rep _ _ G)) in H.
  apply H. now apply big127.
Qed.
Lemma sub0_fin (x y : f32) r : fin x r -> fin y 0 -> Rabs r <= 2 ^ 70 -> fin (Bminus mode_NE x y) r.
Proof.
  intros F G B. pose proof (sub_fin _ _ _ _ F G) as H. rewrite Rminus_0_r in H. rewrite (rnd_id r (fin_rep _ _ F)) in H.
  apply H. now apply big127.
Qed.
Lemma div1_fin (x y : f32) r : fin x r -> fin y 1 -> Rabs r <= 2 ^ 70 -> fin (Bdiv mode_NE x y) r.
Proof.
  intros F G B. pose proof (div_fin _ _ _ _ F G) as H. unfold Rdiv in H. rewrite Rinv_1, Rmult_1_r in H. rewrite (rnd_id r (fin_rep _ _ F)) in H.
  apply H; [lra | now apply big127].
Qed.
Lemma opp0_fin (x : f32) : fin x 0 -> fin (Bopp x) 0.
Proof. intros F. rewrite <- Ropp_0. now apply opp_fin. Qed.

Section Obs.
  Variable lm : libm.
  Notation S32 := (F32 lm).
  Variable P : R.
  Hypothesis P1 : 1 <= P <= 2 ^ 30.
  Hypothesis AC : accurate32 lm.
  Hypothesis TZ : trig_zero32 lm.
  Notation K := (P / 16777216).

  Let small0 : Rabs 0 <= 2 ^ 70. Proof. rewrite Rabs_R0. apply pow_le. lra. Qed.
  Let small1 : Rabs 1 <= 2 ^ 70. Proof. rewrite Rabs_R1. apply pow_R1_Rle. lra. Qed.

  (** The matrix of a pose is the identity if its entries have these values. *)
  Definition eye32 (m : mat3 (S := S32)) : Prop :=
    fin (m3_00 m) 1 /\ fin (m3_01 m) 0 /\ fin (m3_02 m) 0 /\
    fin (m3_10 m) 0 /\ fin (m3_11 m) 1 /\ fin (m3_12 m) 0 /\
    fin (m3_20 m) 0 /\ fin (m3_21 m) 0 /\ fin (m3_22 m) 1.

  Lemma zero_mat32 : eye32 (ps_mat (zero_pose (S := S32))).
  Proof.
    pose proof (f0_fin lm) as Z. pose proof (f1_fin lm) as O. pose proof (opp0_fin _ Z) as Z'.
    destruct (TZ _ Z') as (C & S).
    unfold eye32, zero_pose, from_center_and_yaw, pose_from_xy_yaw; cbn [ps_mat m3_00 m3_01 m3_02 m3_10 m3_11 m3_12 m3_20 m3_21 m3_22 fst snd].
    split; [exact C|]. split; [exact (opp0_fin _ S)|].
    split; [exact (opp0_fin _ (sub0_fin _ _ _ (mul0_fin _ _ _ C Z) (mul0_fin _ _ _ S Z) small0))|].
    split; [exact S|]. split; [exact C|].
    split; [exact (opp0_fin _ (add0_fin _ _ _ (mul0_fin _ _ _ S Z) (mul0_fin _ _ _ C Z) small0))|].
    split; [exact Z|]. split; [exact Z | exact O].
  Qed.

  Lemma inv_eye32 m : eye32 m -> eye32 (mat3_inv (S := S32) m).
  Proof.
    intros (A & B & C & D & E & F & G & H & I).
    pose proof (sub0_fin _ _ _ (mul1_fin _ _ _ E I small1) (mul0_fin _ _ _ F H) small1) as c00.
    pose proof (sub0_fin _ _ _ (mul0_fin _ _ _ F G) (mul0l_fin _ _ _ D I) small0) as c01.
    pose proof (sub0_fin _ _ _ (mul0_fin _ _ _ D H) (mul0_fin _ _ _ E G) small0) as c02.
    pose proof (add0_fin _ _ _ (add0_fin _ _ _ (mul1_fin _ _ _ A c00 small1) (mul0_fin _ _ _ B c01) small1) (mul0_fin _ _ _ C c02) small1) as det.
    unfold eye32, mat3_inv; cbn [m3_00 m3_01 m3_02 m3_10 m3_11 m3_12 m3_20 m3_21 m3_22].
    split; [exact (div1_fin _ _ _ c00 det small1)|].
    split; [exact (div1_fin _ _ _ (sub0_fin _ _ _ (mul0_fin _ _ _ C H) (mul0l_fin _ _ _ B I) small0) det small0)|].
    split; [exact (div1_fin _ _ _ (sub0_fin _ _ _ (mul0_fin _ _ _ B F) (mul0l_fin _ _ _ C E) small0) det small0)|].
    split; [exact (div1_fin _ _ _ c01 det small0)|].
    split; [exact (div1_fin _ _ _ (sub0_fin _ _ _ (mul1_fin _ _ _ A I small1) (mul0_fin _ _ _ C G) small1) det small1)|].
    split; [exact (div1_fin _ _ _ (sub0_fin _ _ _ (mul0_fin _ _ _ C D) (mul0_fin _ _ _ A F) small0) det small0)|].
    split; [exact (div1_fin _ _ _ c02 det small0)|].
    split; [exact (div1_fin _ _ _ (sub0_fin _ _ _ (mul0_fin _ _ _ B G) (mul0_fin _ _ _ A H) small0) det small0)|].
    exact (div1_fin _ _ _ (sub0_fin _ _ _ (mul1_fin _ _ _ A E small1) (mul0_fin _ _ _ B D) small1) det small1).
  Qed.

  (** Multiplying by it leaves the first two rows as they are. *)
  Lemma mul_eye32 (m i : mat3 (S := S32)) a b c d e f : eye32 i ->
    fin (m3_00 m) a -> fin (m3_01 m) b -> fin (m3_02 m) c -> fin (m3_10 m) d -> fin (m3_11 m) e -> fin (m3_12 m) f ->
    Rabs a <= 2 ^ 70 -> Rabs b <= 2 ^ 70 -> Rabs c <= 2 ^ 70 -> Rabs d <= 2 ^ 70 -> Rabs e <= 2 ^ 70 -> Rabs f <= 2 ^ 70 ->
    let r := mat3_mul (S := S32) m i in
    fin (m3_00 r) a /\ fin (m3_01 r) b /\ fin (m3_02 r) c /\ fin (m3_10 r) d /\ fin (m3_11 r) e /\ fin (m3_12 r) f.
  Proof.
    intros (A & B & C & D & E & F & G & H & I) Fa Fb Fc Fd Fe Ff Ba Bb Bc Bd Be Bf.
    assert (R0 : forall (x y z : f32) u v w, fin x u -> fin y v -> fin z w -> Rabs u <= 2 ^ 70 ->
       fin (Bplus mode_NE (Bplus mode_NE (Bmult mode_NE x (m3_00 i)) (Bmult mode_NE y (m3_10 i))) (Bmult mode_NE z (m3_20 i))) u).
    { intros x y z u v w X Y Z U. exact (add0_fin _ _ _ (add0_fin _ _ _ (mul1_fin _ _ _ X A U) (mul0_fin _ _ _ Y D) U) (mul0_fin _ _ _ Z G) U). }
    assert (R1 : forall (x y z : f32) u v w, fin x u -> fin y v -> fin z w -> Rabs v <= 2 ^ 70 ->
       fin (Bplus mode_NE (Bplus mode_NE (Bmult mode_NE x (m3_01 i)) (Bmult mode_NE y (m3_11 i))) (Bmult mode_NE z (m3_21 i))) v).
    { intros x y z u v w X Y Z U. exact (add0_fin _ _ _ (add0l_fin _ _ _ (mul0_fin _ _ _ X B) (mul1_fin _ _ _ Y E U) U) (mul0_fin _ _ _ Z H) U). }
    assert (R2 : forall (x y z : f32) u v w, fin x u -> fin y v -> fin z w -> Rabs w <= 2 ^ 70 ->
       fin (Bplus mode_NE (Bplus mode_NE (Bmult mode_NE x (m3_02 i)) (Bmult mode_NE y (m3_12 i))) (Bmult mode_NE z (m3_22 i))) w).
    { intros x y z u v w X Y Z U. exact (add0l_fin _ _ _ (add0_fin _ _ _ (mul0_fin _ _ _ X C) (mul0_fin _ _ _ Y F) small0) (mul1_fin _ _ _ Z I U) U). }
    cbv zeta. unfold mat3_mul; cbn [m3_00 m3_01 m3_02 m3_10 m3_11 m3_12].
    split; [exact (R0 _ _ _ _ _ _ Fa Fb Fc Ba)|]. split; [exact (R1 _ _ _ _ _ _ Fa Fb Fc Bb)|]. split; [exact (R2 _ _ _ _ _ _ Fa Fb Fc Bc)|].
    split; [exact (R0 _ _ _ _ _ _ Fd Fe Ff Bd)|]. split; [exact (R1 _ _ _ _ _ _ Fd Fe Ff Be)|]. exact (R2 _ _ _ _ _ _ Fd Fe Ff Bf).
  Qed.

  Definition own32 (c : pt (S := S32)) : pose2d (S := S32) := combine_two_object_pose_2d (S := S32) (zero_pose (S := S32)) (pose_of_pt (S := S32) c).

  (** The own pose of a centre. *)
  Lemma own_mat32 V (p : pt (S := S32)) o : kin32 P V p o ->
    exists cv sv, Rabs (cv - cos (kyaw o)) <= 2 * u32 /\ Rabs (sv + sin (kyaw o)) <= 2 * u32 /\ Rabs cv <= 1 /\ Rabs sv <= 1 /\
      fin (m3_00 (ps_mat (own32 p))) cv /\ fin (m3_01 (ps_mat (own32 p))) (- sv) /\
      fin (m3_10 (ps_mat (own32 p))) sv /\ fin (m3_11 (ps_mat (own32 p))) cv /\
      fin (m3_02 (ps_mat (own32 p))) (- rnd (rnd (cv * kx o) - rnd (sv * ky o))) /\
      fin (m3_12 (ps_mat (own32 p))) (- rnd (rnd (sv * kx o) + rnd (cv * ky o))) /\
      ap (m3_02 (ps_mat (own32 p))) (- (cos (kyaw o) * kx o + sin (kyaw o) * ky o)) (9 * K) (2 * P) /\
      ap (m3_12 (ps_mat (own32 p))) (- (- sin (kyaw o) * kx o + cos (kyaw o) * ky o)) (9 * K) (2 * P) /\
      fin (ps_dyaw (own32 p)) (- kyaw o).
  Proof.
    intros (FX & FY & FA & _ & _ & BX & BY & BA & _).
    assert (U : u32 = / 16777216) by reflexivity. pose proof tiny_small as TS.
    assert (P30 : 2 ^ 30 = 1073741824) by (simpl; lra). assert (P70 : 2 ^ 70 = 1180591620717411303424) by (simpl; lra).
    pose proof (opp_fin _ _ FA) as FO.
    destruct (proj1 AC _ _ FO ltac:(rewrite Rabs_Ropp; exact BA)) as (cv & sv & Fc & Fs & Bc & Bs & Ec & Es).
    replace (/ 2 ^ 23) with (2 * u32) in * by (unfold u32; simpl; lra). rewrite cos_neg in Ec. rewrite sin_neg in Es.
    replace (sv - - sin (kyaw o)) with (sv + sin (kyaw o)) in Es by ring.
    assert (Ac : ap (lm_cos lm (Bopp (p_yaw p))) (cos (kyaw o)) (2 * u32) 1) by (exists cv; split; [exact Fc|]; split; [exact Ec | apply Rabs_le, COS_bound]).
    assert (As : ap (lm_sin lm (Bopp (p_yaw p))) (- sin (kyaw o)) (2 * u32) 1).
    { exists sv. split; [exact Fs|]. split; [replace (sv - - sin (kyaw o)) with (sv + sin (kyaw o)) by ring; exact Es | rewrite Rabs_Ropp; apply Rabs_le, SIN_bound]. }
    assert (Ax : ap (p_x p) (kx o) 0 P) by (exact (ap_exact _ _ _ FX BX)).
    assert (Ay : ap (p_y p) (ky o) 0 P) by (exact (ap_exact _ _ _ FY BY)).
    assert (PR : forall (f g : f32) r w, ap f r (2 * u32) 1 -> ap g w 0 P -> ap (Bmult mode_NE f g) (r * w) (31 / 10 * K) P).
    { intros f g r w Hf Hg. refine (ap_weaken _ _ _ _ _ _ (ap_mul _ _ _ _ _ _ _ _ Hf Hg ltac:(rewrite U; lra)) _ _); rewrite ?U; lra. }
    pose proof (ap_opp _ _ _ _ (ap_sub _ _ _ _ _ _ _ _ (PR _ _ _ _ Ac Ax) (PR _ _ _ _ As Ay) ltac:(lra))) as AT.
    pose proof (ap_opp _ _ _ _ (ap_add _ _ _ _ _ _ _ _ (PR _ _ _ _ As Ax) (PR _ _ _ _ Ac Ay) ltac:(lra))) as AS.
    pose proof (ap_weaken _ _ _ _ (9 * K) (2 * P) AT ltac:(rewrite U; lra) ltac:(lra)) as AT'.
    pose proof (ap_weaken _ _ _ _ (9 * K) (2 * P) AS ltac:(rewrite U; lra) ltac:(lra)) as AS'.
    replace (cos (kyaw o) * kx o - - sin (kyaw o) * ky o) with (cos (kyaw o) * kx o + sin (kyaw o) * ky o) in AT' by ring.
    assert (CV : forall r w, Rabs r <= 1 -> Rabs w <= P -> Rabs (r * w) <= P).
    { intros r w Hr Hw. rewrite Rabs_mult. replace P with (1 * P) by ring. apply Rmult_le_compat; auto using Rabs_pos. }
    assert (RC : forall r, Rabs r <= P -> Rabs (rnd r) <= 2 * P).
    { intros r Hr. pose proof (rnd_cap r P Hr) as E. rewrite U in E. replace (rnd r) with ((rnd r - r) + r) by ring.
      eapply Rle_trans; [apply Rabs_triang|]. lra. }
    assert (AB : forall r w, Rabs r <= 2 * P -> Rabs w <= 2 * P -> Rabs (r + w) <= 2 ^ 70).
    { intros r w Hr Hw. eapply Rle_trans; [apply Rabs_triang|]. lra. }
    assert (MF : forall (f g : f32) r w, fin f r -> fin g w -> Rabs r <= 1 -> Rabs w <= P -> fin (Bmult mode_NE f g) (rnd (r * w))).
    { intros f g r w Hf Hg Hr Hw. apply mul_fin; auto. apply big127. eapply Rle_trans; [apply CV; eauto|]. lra. }
    pose proof (opp_fin _ _ (sub_fin _ _ _ _ (MF _ _ _ _ Fc FX Bc BX) (MF _ _ _ _ Fs FY Bs BY)
      ltac:(apply big127; unfold Rminus; apply AB; [|rewrite Rabs_Ropp]; apply RC, CV; auto))) as TX.
    pose proof (opp_fin _ _ (add_fin _ _ _ _ (MF _ _ _ _ Fs FX Bs BX) (MF _ _ _ _ Fc FY Bc BY)
      ltac:(apply big127; apply AB; apply RC, CV; auto))) as TY.
    set (tx := - rnd (rnd (cv * kx o) - rnd (sv * ky o))) in *. set (ty := - rnd (rnd (sv * kx o) + rnd (cv * ky o))) in *.
    assert (BT : forall (f : f32) r v e, fin f v -> ap f r e (2 * P) -> e <= 9 * K -> Rabs v <= 2 ^ 70).
    { intros f r v e Hf (v' & Hv & E & M) Le. rewrite (fin_fun _ _ _ Hf Hv). replace v' with ((v' - r) + r) by ring.
      eapply Rle_trans; [apply Rabs_triang|]. lra. }
    pose proof (BT _ _ _ _ TX AT' ltac:(lra)) as BTX. pose proof (BT _ _ _ _ TY AS' ltac:(lra)) as BTY.
    destruct (mul_eye32 (ps_mat (pose_of_pt (S := S32) p)) (mat3_inv (S := S32) (ps_mat (zero_pose (S := S32)))) cv (- sv) tx sv cv ty
      (inv_eye32 _ zero_mat32) Fc (opp_fin _ _ Fs) TX Fs Fc TY ltac:(lra) ltac:(rewrite Rabs_Ropp; lra) BTX ltac:(lra) ltac:(lra) BTY)
      as (M0 & M1 & M2 & M3 & M4 & M5).
    assert (TR : forall (f g : f32) v r e m, fin f v -> fin g v -> ap f r e m -> ap g r e m).
    { intros f g v r e m Hf Hg (v' & Hv & E). exists v. split; [exact Hg|]. now rewrite (fin_fun _ _ _ Hf Hv). }
    exists cv, sv. split; [exact Ec|]. split; [exact Es|]. split; [exact Bc|]. split; [exact Bs|].
    split; [exact M0|]. split; [exact M1|]. split; [exact M3|]. split; [exact M4|]. split; [exact M2|]. split; [exact M5|].
    split; [exact (TR _ _ _ _ _ _ TX M2 AT')|]. split; [exact (TR _ _ _ _ _ _ TY M5 AS')|].
    exact (sub0_fin _ _ _ FO (opp0_fin _ (f0_fin lm)) ltac:(rewrite Rabs_Ropp; lra)).
  Qed.

  (** Points. *)
  Lemma own_point32 V (c : pt (S := S32)) o (x y : f32) g : kin32 P V c o -> at32 P x y g ->
    let r := transform_point (S := S32) (ps_mat (own32 c)) (x, y) in
    near32 (P / 2 ^ 19) (fst r) (snd r) (to_local (kx o) (ky o) (kyaw o) g).
  Proof.
    intros KC (FX & FY & BX & BY). destruct (own_mat32 V c o KC) as (cv & sv & Ec & Es & Bc & Bs & M00 & M01 & M10 & M11 & _ & _ & A02 & A12 & _).
    assert (U : u32 = / 16777216) by reflexivity. pose proof tiny_small as TS.
    assert (P30 : 2 ^ 30 = 1073741824) by (simpl; lra). assert (P70 : 2 ^ 70 = 1180591620717411303424) by (simpl; lra).
    pose proof (ap_exact _ _ _ FX BX) as Ax. pose proof (ap_exact _ _ _ FY BY) as Ay.
    assert (A00 : ap (m3_00 (ps_mat (own32 c))) (cos (kyaw o)) (2 * u32) 1) by (exists cv; split; [exact M00|]; split; [exact Ec | apply Rabs_le, COS_bound]).
    assert (A11 : ap (m3_11 (ps_mat (own32 c))) (cos (kyaw o)) (2 * u32) 1) by (exists cv; split; [exact M11|]; split; [exact Ec | apply Rabs_le, COS_bound]).
    assert (A01 : ap (m3_01 (ps_mat (own32 c))) (sin (kyaw o)) (2 * u32) 1).
    { exists (- sv). split; [exact M01|]. split; [|apply Rabs_le, SIN_bound]. replace (- sv - sin (kyaw o)) with (- (sv + sin (kyaw o))) by ring. now rewrite Rabs_Ropp. }
    assert (A10 : ap (m3_10 (ps_mat (own32 c))) (- sin (kyaw o)) (2 * u32) 1).
    { exists sv. split; [exact M10|]. split; [|rewrite Rabs_Ropp; apply Rabs_le, SIN_bound]. replace (sv - - sin (kyaw o)) with (sv + sin (kyaw o)) by ring. exact Es. }
    assert (PR : forall (f g : f32) r w, ap g r (2 * u32) 1 -> ap f w 0 P -> ap (Bmult mode_NE f g) (w * r) (31 / 10 * K) P).
    { intros f h r w Hf Hg. refine (ap_weaken _ _ _ _ _ _ (ap_mul _ _ _ _ _ _ _ _ Hg Hf ltac:(rewrite U; lra)) _ _); rewrite ?U; lra. }
    assert (ONE : forall (t : f32) r, ap t r (9 * K) (2 * P) -> ap (Bmult mode_NE (f1 (S := S32)) t) r (9 * K) (2 * P)).
    { intros t r (v & F & E & M). exists v. split; [|auto]. apply mul1l_fin; [exact (f1_fin lm) | exact F|].
      replace v with ((v - r) + r) by ring. eapply Rle_trans; [apply Rabs_triang|]. lra. }
    assert (SUM : forall (f h t : f32) r w z, ap f r (31 / 10 * K) P -> ap h w (31 / 10 * K) P -> ap t z (9 * K) (2 * P) ->
      exists v, fin (Bplus mode_NE (Bplus mode_NE f h) t) v /\ Rabs (v - (r + w + z)) <= P / 2 ^ 19).
    { intros f h t r w z Hf Hh Ht.
      pose proof (ap_add _ _ _ _ _ _ _ _ Hf Hh ltac:(lra)) as S1.
      pose proof (ap_weaken _ _ _ _ (9 * K) (2 * P) S1 ltac:(rewrite U; lra) ltac:(lra)) as S1'.
      destruct (ap_add _ _ _ _ _ _ _ _ S1' Ht ltac:(lra)) as (v & F & E & _). exists v. split; [exact F|].
      eapply Rle_trans; [exact E|]. rewrite U. replace (2 ^ 19) with 524288 by (simpl; lra). lra. }
    destruct (SUM _ _ _ _ _ _ (PR _ _ _ _ A00 Ax) (PR _ _ _ _ A01 Ay) (ONE _ _ A02)) as (a & Fa & Ea).
    destruct (SUM _ _ _ _ _ _ (PR _ _ _ _ A10 Ax) (PR _ _ _ _ A11 Ay) (ONE _ _ A12)) as (b & Fb & Eb).
    exists a, b. split; [exact Fa|]. split; [exact Fb|]. unfold to_local; cbn [fst snd].
    split; [match goal with |- Rabs (a - ?z) <= _ => replace z with (fst g * cos (kyaw o) + snd g * sin (kyaw o) + - (cos (kyaw o) * kx o + sin (kyaw o) * ky o)) by ring end; exact Ea
           |match goal with |- Rabs (b - ?z) <= _ => replace z with (fst g * - sin (kyaw o) + snd g * cos (kyaw o) + - (- sin (kyaw o) * kx o + cos (kyaw o) * ky o)) by ring end; exact Eb].
  Qed.

  (** Directions. *)
  Lemma own_direction32 V W (c : pt (S := S32)) o (x y : f32) g : kin32 P V c o -> 1 <= W <= 2 ^ 30 -> at32 W x y g ->
    let r := transform_direction (S := S32) (ps_mat (own32 c)) (x, y) in
    near32 (W / 2 ^ 20) (fst r) (snd r) (to_local 0 0 (kyaw o) g).
  Proof.
    intros KC HW (FX & FY & BX & BY). destruct (own_mat32 V c o KC) as (cv & sv & Ec & Es & Bc & Bs & M00 & M01 & M10 & M11 & _).
    assert (U : u32 = / 16777216) by reflexivity. pose proof tiny_small as TS.
    assert (P30 : 2 ^ 30 = 1073741824) by (simpl; lra). assert (P70 : 2 ^ 70 = 1180591620717411303424) by (simpl; lra).
    pose proof (ap_exact _ _ _ FX BX) as Ax. pose proof (ap_exact _ _ _ FY BY) as Ay.
    assert (A00 : ap (m3_00 (ps_mat (own32 c))) (cos (kyaw o)) (2 * u32) 1) by (exists cv; split; [exact M00|]; split; [exact Ec | apply Rabs_le, COS_bound]).
    assert (A11 : ap (m3_11 (ps_mat (own32 c))) (cos (kyaw o)) (2 * u32) 1) by (exists cv; split; [exact M11|]; split; [exact Ec | apply Rabs_le, COS_bound]).
    assert (A01 : ap (m3_01 (ps_mat (own32 c))) (sin (kyaw o)) (2 * u32) 1).
    { exists (- sv). split; [exact M01|]. split; [|apply Rabs_le, SIN_bound]. replace (- sv - sin (kyaw o)) with (- (sv + sin (kyaw o))) by ring. now rewrite Rabs_Ropp. }
    assert (A10 : ap (m3_10 (ps_mat (own32 c))) (- sin (kyaw o)) (2 * u32) 1).
    { exists sv. split; [exact M10|]. split; [|rewrite Rabs_Ropp; apply Rabs_le, SIN_bound]. replace (sv - - sin (kyaw o)) with (sv + sin (kyaw o)) by ring. exact Es. }
    assert (PR : forall (f g : f32) r w, ap f r (2 * u32) 1 -> ap g w 0 W -> ap (Bmult mode_NE f g) (r * w) (31 / 10 * (W / 16777216)) W).
    { intros f h r w Hf Hg. refine (ap_weaken _ _ _ _ _ _ (ap_mul _ _ _ _ _ _ _ _ Hf Hg ltac:(rewrite U; lra)) _ _); rewrite ?U; lra. }
    assert (SUM : forall (f h : f32) r w, ap f r (31 / 10 * (W / 16777216)) W -> ap h w (31 / 10 * (W / 16777216)) W ->
      exists v, fin (Bplus mode_NE f h) v /\ Rabs (v - (r + w)) <= W / 2 ^ 20).
    { intros f h r w Hf Hh. destruct (ap_add _ _ _ _ _ _ _ _ Hf Hh ltac:(lra)) as (v & F & E & _). exists v. split; [exact F|].
      eapply Rle_trans; [exact E|]. rewrite U. replace (2 ^ 20) with 1048576 by (simpl; lra). lra. }
    destruct (SUM _ _ _ _ (PR _ _ _ _ A00 Ax) (PR _ _ _ _ A01 Ay)) as (a & Fa & Ea).
    destruct (SUM _ _ _ _ (PR _ _ _ _ A10 Ax) (PR _ _ _ _ A11 Ay)) as (b & Fb & Eb).
    exists a, b. split; [exact Fa|]. split; [exact Fb|]. unfold to_local; cbn [fst snd].
    split; [match goal with |- Rabs (a - ?z) <= _ => replace z with (cos (kyaw o) * fst g + sin (kyaw o) * snd g) by ring end; exact Ea
           |match goal with |- Rabs (b - ?z) <= _ => replace z with (- sin (kyaw o) * fst g + cos (kyaw o) * snd g) by ring end; exact Eb].
  Qed.

  (** Headings. *)
  Lemma own_yaw32 V (c : pt (S := S32)) o (x : f32) a : kin32 P V c o -> fin x a -> Rabs a <= 4 ->
    exists v, fin (Bplus mode_NE x (ps_dyaw (own32 c))) v /\ Rabs (v - (a - kyaw o)) <= Rabs (a - kyaw o) / 2 ^ 24 /\ (a = kyaw o -> v = 0).
  Proof.
    intros KC Fa Ba. pose proof KC as (_ & _ & _ & _ & _ & _ & _ & BA & _).
    destruct (own_mat32 V c o KC) as (cv & sv & _ & _ & _ & _ & _ & _ & _ & _ & _ & _ & _ & _ & FD).
    assert (P70 : 2 ^ 70 = 1180591620717411303424) by (simpl; lra).
    pose proof (add_fin _ _ _ _ Fa FD ltac:(apply big127; eapply Rle_trans; [apply Rabs_triang|]; rewrite Rabs_Ropp; lra)) as F.
    exists (rnd (a + - kyaw o)). split; [exact F|]. change (a + - kyaw o) with (a - kyaw o).
    pose proof (fin_rep _ _ FD) as RD. apply rep_opp in RD. rewrite Ropp_involutive in RD.
    pose proof (sub_err a (kyaw o) (fin_rep _ _ Fa) RD) as E.
    split; [|intros ->; rewrite Rminus_eq_0; apply rnd_0].
    assert (U : u32 = / 2 ^ 24) by (unfold u32; simpl; lra). rewrite U in E. lra.
  Qed.

  (** The centre itself. *)
  Lemma own_self32 V (c : pt (S := S32)) o : kin32 P V c o ->
    let q := transform_pt (S := S32) (own32 c) c in fin (p_x q) 0 /\ fin (p_y q) 0 /\ fin (p_yaw q) 0.
  Proof.
    intros KC. pose proof KC as (FX & FY & FA & _ & _ & BX & BY & BA & _).
    destruct (own_mat32 V c o KC) as (cv & sv & _ & _ & Bc & Bs & M00 & M01 & M10 & M11 & M02 & M12 & A02 & A12 & FD).
    assert (U : u32 = / 16777216) by reflexivity. pose proof tiny_small as TS.
    assert (P30 : 2 ^ 30 = 1073741824) by (simpl; lra). assert (P70 : 2 ^ 70 = 1180591620717411303424) by (simpl; lra).
    assert (MF : forall (f g : f32) r w, fin f r -> fin g w -> Rabs w <= 1 -> Rabs r <= P -> fin (Bmult mode_NE f g) (rnd (w * r)) /\ Rabs (rnd (w * r)) <= 2 * P).
    { intros f g r w Hf Hg Hr Hw. rewrite (Rmult_comm w r).
      assert (B : Rabs (r * w) <= P). { rewrite Rabs_mult. replace P with (P * 1) by ring. apply Rmult_le_compat; auto using Rabs_pos. }
      split; [apply mul_fin; auto; apply big127; lra|].
      pose proof (rnd_cap _ P B) as E. rewrite U in E. replace (rnd (r * w)) with ((rnd (r * w) - r * w) + r * w) by ring.
      eapply Rle_trans; [apply Rabs_triang|]. lra. }
    assert (BT : forall (f : f32) r v, fin f v -> ap f r (9 * K) (2 * P) -> Rabs v <= 2 ^ 70).
    { intros f r v Hf (v' & Hv & E & M). rewrite (fin_fun _ _ _ Hf Hv). replace v' with ((v' - r) + r) by ring.
      eapply Rle_trans; [apply Rabs_triang|]. lra. }
    pose proof (BT _ _ _ M02 A02) as B02. pose proof (BT _ _ _ M12 A12) as B12.
    pose proof (mul1l_fin _ _ _ (f1_fin lm) M02 B02) as T0. pose proof (mul1l_fin _ _ _ (f1_fin lm) M12 B12) as T1.
    destruct (MF _ _ _ _ FX M00 Bc BX) as (X0 & BX0). destruct (MF _ _ _ _ FY M01 ltac:(rewrite Rabs_Ropp; exact Bs) BY) as (Y0 & BY0).
    destruct (MF _ _ _ _ FX M10 Bs BX) as (X1 & BX1). destruct (MF _ _ _ _ FY M11 Bc BY) as (Y1 & BY1).
    assert (AB : forall r w, Rabs r <= 2 * P -> Rabs w <= 2 * P -> Rabs (r + w) <= b32 127).
    { intros r w Hr Hw. apply big127. eapply Rle_trans; [apply Rabs_triang|]. lra. }
    pose proof (add_fin _ _ _ _ X0 Y0 (AB _ _ BX0 BY0)) as S0. pose proof (add_fin _ _ _ _ X1 Y1 (AB _ _ BX1 BY1)) as S1.
    rewrite Ropp_mult_distr_l_reverse, rnd_opp in S0. change (rnd (cv * kx o) + - rnd (sv * ky o)) with (rnd (cv * kx o) - rnd (sv * ky o)) in S0.
    cbv zeta. unfold transform_pt, transform_point; cbn [p_x p_y p_yaw fst snd].
    assert (Z : forall (f g : f32) v, fin f v -> fin g (- v) -> fin (Bplus mode_NE f g) 0).
    { intros f g v Hf Hg. pose proof (add_fin _ _ _ _ Hf Hg) as H. rewrite Rplus_opp_r, rnd_0 in H. apply H. rewrite Rabs_R0. apply bpow_ge_0. }
    split; [exact (Z _ _ _ S0 T0)|]. split; [exact (Z _ _ _ S1 T1)|]. exact (Z _ _ _ FA FD).
  Qed.

  Lemma own_valid32 (c : pt (S := S32)) : ps_valid (own32 c) = p_valid c.
  Proof. unfold own32, combine_two_object_pose_2d, from_transformation, pose_of_pt, zero_pose, from_center_and_yaw. cbn [pose_from_xy_yaw ps_valid]. apply andb_true_r. Qed.

  (** A whole frame. *)
  Lemma own_pt32 V (c p : pt (S := S32)) o g : 1 <= V <= 2 ^ 30 -> kin32 P V c o -> kin32 P V p g ->
    exists l, shows32 (P / 2 ^ 19) (V / 2 ^ 20) (transform_pt (S := S32) (own32 c) p) l /\ seen_as o g l /\
      (kx l, ky l) = to_local (kx o) (ky o) (kyaw o) (kx g, ky g).
  Proof.
    intros HV KC (FX & FY & FA & FVX & FVY & BX & BY & BA & BVX & BVY).
    destruct (own_point32 V c o (p_x p) (p_y p) (kx g, ky g) KC ltac:(unfold at32; auto)) as (a & b & Fa & Fb & Ea & Eb).
    destruct (own_direction32 V V c o (p_vx p) (p_vy p) (kvx g, kvy g) KC HV ltac:(unfold at32; auto)) as (u & w & Fu & Fw & Eu & Ew).
    destruct (own_yaw32 V c o (p_yaw p) (kyaw g) KC FA BA) as (h & Fh & Eh & _).
    set (xy := to_local (kx o) (ky o) (kyaw o) (kx g, ky g)) in *. set (v := to_local 0 0 (kyaw o) (kvx g, kvy g)) in *.
    exists (mkkin (fst xy) (snd xy) (kyaw g - kyaw o) (fst v) (snd v)).
    split; [|split].
    - exists a, b, h, u, w. cbn [kx ky kyaw kvx kvy]. split; [exact Fa|]. split; [exact Fb|]. split; [exact Fh|]. split; [exact Fu|]. split; [exact Fw|]. auto.
    - unfold seen_as. cbn [kx ky kyaw kvx kvy]. split; [|split; [|lra]].
      + apply (to_local_components (kx o) (ky o) (kyaw o) (kx g, ky g)).
      + pose proof (to_local_components 0 0 (kyaw o) (kvx g, kvy g)) as C. cbn [fst snd] in C. rewrite !Rminus_0_r in C. exact C.
    - cbn [kx ky]. destruct xy; reflexivity.
  Qed.

  (** What a view transformed to the pose of [c] shows. *)
  Lemma own_view32 V n L t k (s : state (S := S32)) win tlw ego rgf paths c oc v : 1 <= V <= 2 ^ 30 ->
    (forall j x p, at2 (s_sim s) j x = Some p -> (j < n)%nat) -> (forall j x p, at2 (s_tls s) j x = Some p -> (j < L)%nat) ->
    (forall j x, (j < n)%nat -> (x < k)%nat -> at2 win j x = at2 (s_sim s) j (t + 1 - k + x)) ->
    (forall j x, (j < L)%nat -> (x < k)%nat -> at2 tlw j x = at2 (s_tls s) j (t + 1 - k + x)) ->
    v = transform_view (S := S32) (mkview win ego (zero_pose (S := S32)) (s_meta s) rgf tlw paths) (pose_of_pt (S := S32) c) ->
    kin32 P V c oc ->
    (forall j x p g, (x < k)%nat -> at2 (s_sim s) j (t + 1 - k + x) = Some p -> kin32 P V p g ->
       exists q l, at2 (v_traj v) j x = Some q /\ shows32 (P / 2 ^ 19) (V / 2 ^ 20) q l /\ seen_as oc g l /\
         p_valid q = p_valid p && p_valid c /\
         p_z q = p_z p /\ p_ts q = p_ts p /\ p_len q = p_len p /\ p_wid q = p_wid p /\ p_hei q = p_hei p /\
         (kx l, ky l) = to_local (kx oc) (ky oc) (kyaw oc) (kx g, ky g)) /\
    (forall j x p g, (x < k)%nat -> at2 (s_tls s) j (t + 1 - k + x) = Some p -> at32 P (tl_x p) (tl_y p) g ->
       exists q l, at2 (v_tls v) j x = Some q /\ near32 (P / 2 ^ 19) (tl_x q) (tl_y q) l /\ seen_at oc g l /\
         tl_state q = tl_state p /\ tl_lane q = tl_lane p /\ tl_z q = tl_z p /\ tl_valid q = tl_valid p && p_valid c) /\
    length (v_rg v) = length rgf /\
    (forall a p g d, nth_error rgf a = Some p -> at32 P (rg_x p) (rg_y p) g -> at32 1 (rg_dx p) (rg_dy p) d ->
       exists q l e, nth_error (v_rg v) a = Some q /\ near32 (P / 2 ^ 19) (rg_x q) (rg_y q) l /\ seen_at oc g l /\
         near32 (/ 2 ^ 20) (rg_dx q) (rg_dy q) e /\ components (kyaw oc) d (fst e) (snd e) /\
         rg_z q = rg_z p /\ rg_type q = rg_type p /\ rg_id q = rg_id p /\ rg_valid q = rg_valid p && p_valid c) /\
    (forall j, (k <> 0)%nat -> at2 (s_sim s) j t = Some c -> (1 <= k <= t + 1)%nat ->
       exists q, at2 (v_traj v) j (k - 1) = Some q /\ fin (p_x q) 0 /\ fin (p_y q) 0 /\ fin (p_yaw q) 0 /\ p_valid q = p_valid c).
  Proof.
    intros HV NS NL F1 F2 -> KC. unfold transform_view; cbn [v_pose v_traj v_tls v_rg]. fold (own32 c).
    split; [|split; [|split; [|split]]].
    - intros j x p g Hx Ep Kp. unfold transform_trajectory. rewrite at2_map, F1 by (eauto). rewrite Ep. cbn [option_map].
      destruct (own_pt32 V c p oc g HV KC Kp) as (l & L1 & L2 & L3). exists (transform_pt (own32 c) p), l.
      split; [reflexivity|]. split; [exact L1|]. split; [exact L2|].
      split; [cbn [transform_pt p_valid]; now rewrite own_valid32|]. repeat (split; [reflexivity|]). exact L3.
    - intros j x p g Hx Ep Kp. rewrite at2_map, F2 by (eauto). rewrite Ep. cbn [option_map].
      exists (transform_tlight (own32 c) p), (to_local (kx oc) (ky oc) (kyaw oc) g). split; [reflexivity|].
      split; [exact (own_point32 V c oc _ _ g KC Kp)|]. split; [apply to_local_components|].
      repeat (split; [reflexivity|]). cbn [transform_tlight tl_valid]. now rewrite own_valid32.
    - apply map_length.
    - intros a p g d Ep Kp Kd. rewrite nth_error_map, Ep. cbn [option_map].
      exists (transform_rgpt (own32 c) p), (to_local (kx oc) (ky oc) (kyaw oc) g), (to_local 0 0 (kyaw oc) d). split; [reflexivity|].
      split; [exact (own_point32 V c oc _ _ g KC Kp)|]. split; [apply to_local_components|].
      split; [replace (/ 2 ^ 20) with (1 / 2 ^ 20) by (simpl; lra); exact (own_direction32 V 1 c oc _ _ d KC ltac:(simpl; lra) Kd)|].
      split; [pose proof (to_local_components 0 0 (kyaw oc) d) as C; rewrite !Rminus_0_r in C; destruct d; exact C|].
      repeat (split; [reflexivity|]). cbn [transform_rgpt rg_valid]. now rewrite own_valid32.
    - intros j Hk0 Ej Hk. unfold transform_trajectory. rewrite at2_map, F1; [|eauto | lia].
      replace (t + 1 - k + (k - 1))%nat with t by lia. rewrite Ej. cbn [option_map].
      exists (transform_pt (own32 c) c). split; [reflexivity|].
      destruct (own_self32 V c oc KC) as (S1 & S2 & S3). split; [exact S1|]. split; [exact S2|]. split; [exact S3|].
      cbn [transform_pt p_valid]. rewrite own_valid32. apply andb_diag.
  Qed.

  Lemma obs_centre32 n L T t (s : state (S := S32)) k topk fr rg o i v ci c :
    obs_wf n L T t s -> (k <= t + 1)%nat -> s_rg s = Some rg -> (topk <= length rg)%nat ->
    observation_from_state s k topk fr = Ok o -> nth_error o i = Some v ->
    centre32 fr s i ci -> at2 (s_sim s) ci t = Some c ->
    exists win tlw p rgf,
      (forall j x, (j < n)%nat -> (x < k)%nat -> at2 win j x = at2 (s_sim s) j (t + 1 - k + x)) /\
      (forall j x, (j < L)%nat -> (x < k)%nat -> at2 tlw j x = at2 (s_tls s) j (t + 1 - k + x)) /\
      at2 (s_sim s) i t = Some p /\ filter_topk_roadgraph_points rg (p_x p, p_y p) topk = Ok rgf /\
      v = transform_view (S := S32) (mkview win (is_ego_row n i) (zero_pose (S := S32)) (s_meta s) rgf tlw (no_paths (S := S32))) (pose_of_pt (S := S32) c).
  Proof.
    intros W Hk Hr Hkk Ho Hv Hc Ec.
    destruct (observation_spec n L T t s k topk fr rg W Hk Hr Hkk)
      as (o' & win & tlw & isdc & psdc & E & Lo & R1 & R2 & F1 & F2 & Ei & Li & Ep & N).
    rewrite Ho in E. apply Ok_inj in E. subst o'.
    assert (Hi : (i < n)%nat) by (rewrite <- Lo; eapply nth_error_Some_lt; eauto).
    destruct (N i Hi) as (p & rgf & E1 & E2 & E3). rewrite Hv in E3. apply Some_inj in E3.
    exists win, tlw, p, rgf. split; [exact F1|]. split; [exact F2|]. split; [exact E1|]. split; [exact E2|].
    destruct Hc as [[-> ->]|[[-> Hs]|(-> & Hs & ->)]]; cbn [frame_view] in E3.
    - rewrite E1 in Ec. apply Some_inj in Ec. congruence.
    - apply the_sdc_index in Hs. rewrite Ei in Hs. apply Ok_inj in Hs. subst isdc. rewrite Ep in Ec. apply Some_inj in Ec. congruence.
    - apply no_sdc_index in Hs; [|destruct W as ((_ & _ & Lm & Hn & _) & _); intros Em; rewrite Em in Lm; cbn in Lm; lia].
      rewrite Ei in Hs. apply Ok_inj in Hs. subst isdc. rewrite Ep in Ec. apply Some_inj in Ec. congruence.
  Qed.

  Lemma obs_rows32 n L T t (s : state (S := S32)) : obs_wf n L T t s ->
    (forall j x p, at2 (s_sim s) j x = Some p -> (j < n)%nat) /\ (forall j x p, at2 (s_tls s) j x = Some p -> (j < L)%nat).
  Proof.
    intros ((A1 & _) & A2 & _). split; intros j x p E; (eapply at2_Some_lt in E; [|eassumption]; tauto).
  Qed.

  Lemma obs_distances32 V (q1 q2 : pt (S := S32)) l1 l2 o g1 g2 :
    shows32 (P / 2 ^ 19) V q1 l1 -> shows32 (P / 2 ^ 19) V q2 l2 ->
    (kx l1, ky l1) = to_local (kx o) (ky o) (kyaw o) (kx g1, ky g1) -> (kx l2, ky l2) = to_local (kx o) (ky o) (kyaw o) (kx g2, ky g2) ->
    exists c1 c2, fin (p_x q1) (fst c1) /\ fin (p_y q1) (snd c1) /\ fin (p_x q2) (fst c2) /\ fin (p_y q2) (snd c2) /\
      Rabs (dist c1 c2 - dist (kx g1, ky g1) (kx g2, ky g2)) <= P / 2 ^ 17.
  Proof.
    intros (x1 & y1 & a1 & u1 & w1 & X1 & Y1 & _ & _ & _ & E1 & E1' & _) (x2 & y2 & a2 & u2 & w2 & X2 & Y2 & _ & _ & _ & E2 & E2' & _) T1 T2.
    exists (x1, y1), (x2, y2). cbn [fst snd]. repeat (split; [assumption|]).
    rewrite <- (to_local_dist (kx o) (ky o) (kyaw o) (kx g1, ky g1) (kx g2, ky g2)). rewrite <- T1, <- T2. rewrite !dist_len.
    eapply Rle_trans; [apply len_triangle|].
    replace (P / 2 ^ 17) with (P / 2 ^ 19 + P / 2 ^ 19 + (P / 2 ^ 19 + P / 2 ^ 19)) by (simpl; lra).
    apply Rplus_le_compat.
    - replace (x1 - x2 - (kx l1 - kx l2)) with ((x1 - kx l1) + - (x2 - kx l2)) by ring. apply abs_add; [|rewrite Rabs_Ropp]; assumption.
    - replace (y1 - y2 - (ky l1 - ky l2)) with ((y1 - ky l1) + - (y2 - ky l2)) by ring. apply abs_add; [|rewrite Rabs_Ropp]; assumption.
  Qed.
End Obs.
