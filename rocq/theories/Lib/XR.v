(** The scalar instance for numeric theorems: real numbers with +inf, -inf and
    NaN.  Special values follow IEEE 754; there is no rounding, no overflow and
    one unsigned zero (division by zero takes the sign of the numerator). *)
From Coq Require Import Reals ZArith Lra Lia Bool.
From Verif.Lib Require Import Scalar.
Open Scope R_scope.

Inductive xr := Fin (r : R) | PInf | MInf | NaN.

Definition Rltb (a b : R) : bool := if Rlt_dec a b then true else false.
Definition Rleb (a b : R) : bool := if Rle_dec a b then true else false.
Definition Reqb (a b : R) : bool := if Req_EM_T a b then true else false.

Definition xopp (a : xr) : xr :=
  match a with Fin r => Fin (- r) | PInf => MInf | MInf => PInf | NaN => NaN end.

Definition xadd (a b : xr) : xr :=
  match a, b with
  | Fin x, Fin y => Fin (x + y)
  | NaN, _ | _, NaN => NaN
  | PInf, MInf | MInf, PInf => NaN
  | PInf, _ | _, PInf => PInf
  | MInf, _ | _, MInf => MInf
  end.
Definition xsub (a b : xr) : xr := xadd a (xopp b).

(** Infinity with the sign of [r], NaN for 0. *)
Definition inf_times (r : R) : xr :=
  if Rlt_dec 0 r then PInf else if Rlt_dec r 0 then MInf else NaN.

Definition xmul (a b : xr) : xr :=
  match a, b with
  | NaN, _ | _, NaN => NaN
  | Fin x, Fin y => Fin (x * y)
  | PInf, Fin y => inf_times y
  | MInf, Fin y => inf_times (- y)
  | Fin x, PInf => inf_times x
  | Fin x, MInf => inf_times (- x)
  | PInf, PInf | MInf, MInf => PInf
  | PInf, MInf | MInf, PInf => MInf
  end.

Definition xdiv (a b : xr) : xr :=
  match a, b with
  | NaN, _ | _, NaN => NaN
  | Fin x, Fin y => if Req_EM_T y 0 then inf_times x else Fin (x / y)
  | Fin _, _ => Fin 0
  | PInf, Fin y => if Rlt_dec y 0 then MInf else PInf
  | MInf, Fin y => if Rlt_dec y 0 then PInf else MInf
  | _, _ => NaN
  end.

Definition Rfloor (x : R) : Z := Int_part x.

(** jnp.remainder on finite reals: the sign of the divisor. *)
Definition Rmod (a b : R) : R := a - b * IZR (Rfloor (a / b)).

Definition xmod (a b : xr) : xr :=
  match a, b with
  | Fin x, Fin y => if Req_EM_T y 0 then NaN else Fin (Rmod x y)
  | Fin x, PInf => if Rle_dec 0 x then Fin x else PInf
  | Fin x, MInf => if Rle_dec x 0 then Fin x else MInf
  | _, _ => NaN
  end.

(** Power: integer exponents by multiplication, others for positive bases.
    Infinite arguments give NaN (not needed by the modelled code). *)
Definition xpow (a b : xr) : xr :=
  match a, b with
  | Fin x, Fin y =>
      if Req_EM_T y (IZR (Rfloor y))
      then if Req_EM_T x 0
           then (if Rlt_dec y 0 then PInf else Fin (powerRZ x (Rfloor y)))
           else Fin (powerRZ x (Rfloor y))
      else if Rlt_dec 0 x then Fin (Rpower x y)
      else if Req_EM_T x 0 then (if Rlt_dec 0 y then Fin 0 else PInf)
      else NaN
  | _, _ => NaN
  end.

(** The angle of (x, y), in (-PI, PI], 0 at the origin. *)
Definition Ratan2 (y x : R) : R :=
  if Rlt_dec 0 x then atan (y / x)
  else if Rlt_dec x 0 then
    (if Rle_dec 0 y then atan (y / x) + PI else atan (y / x) - PI)
  else if Rlt_dec 0 y then PI / 2
  else if Rlt_dec y 0 then - (PI / 2)
  else 0.
(** Simplification: infinite arguments give NaN. *)
Definition xatan2 (y x : xr) : xr :=
  match y, x with Fin b, Fin a => Fin (Ratan2 b a) | _, _ => NaN end.

Definition xltb (a b : xr) : bool :=
  match a, b with
  | NaN, _ | _, NaN => false
  | Fin x, Fin y => Rltb x y
  | MInf, MInf => false
  | MInf, _ => true
  | _, MInf => false
  | PInf, _ => false
  | _, PInf => true
  end.
Definition xleb (a b : xr) : bool :=
  match a, b with
  | NaN, _ | _, NaN => false
  | Fin x, Fin y => Rleb x y
  | MInf, _ => true
  | _, PInf => true
  | _, _ => false
  end.
Definition xeqb (a b : xr) : bool :=
  match a, b with
  | Fin x, Fin y => Reqb x y
  | PInf, PInf | MInf, MInf => true
  | _, _ => false
  end.

Definition xmin (a b : xr) : xr :=
  match a, b with
  | NaN, _ | _, NaN => NaN
  | Fin x, Fin y => Fin (Rmin x y)
  | MInf, _ | _, MInf => MInf
  | PInf, x => x
  | x, PInf => x
  end.
Definition xmax (a b : xr) : xr :=
  match a, b with
  | NaN, _ | _, NaN => NaN
  | Fin x, Fin y => Fin (Rmax x y)
  | PInf, _ | _, PInf => PInf
  | MInf, x => x
  | x, MInf => x
  end.
Definition xabs (a : xr) : xr :=
  match a with Fin x => Fin (Rabs x) | NaN => NaN | _ => PInf end.
Definition xsqrt (a : xr) : xr :=
  match a with
  | Fin x => if Rle_dec 0 x then Fin (sqrt x) else NaN
  | PInf => PInf
  | _ => NaN
  end.
Definition xsin (a : xr) : xr := match a with Fin x => Fin (sin x) | _ => NaN end.
Definition xcos (a : xr) : xr := match a with Fin x => Fin (cos x) | _ => NaN end.
Definition xfinite (a : xr) : bool := match a with Fin _ => true | _ => false end.

(** Round half to even. *)
Definition Rrint (x : R) : Z :=
  let f := Rfloor x in
  if Rlt_dec (x - IZR f) (1 / 2) then f
  else if Rlt_dec (1 / 2) (x - IZR f) then (f + 1)%Z
  else if Z.even f then f else (f + 1)%Z.
(** Conversion of non-finite values saturates (NaN gives 0). *)
Definition xrint (a : xr) : Z :=
  match a with
  | Fin x => Rrint x
  | PInf => 2147483647
  | MInf => -2147483648
  | NaN => 0
  end.

(** Towards zero; non-finite values as for [xrint]. *)
Definition Rtrunc (x : R) : Z := if Rle_dec 0 x then Rfloor x else (- Rfloor (- x))%Z.
Definition xtrunc (a : xr) : Z :=
  match a with
  | Fin x => Rtrunc x
  | PInf => 2147483647
  | MInf => -2147483648
  | NaN => 0
  end.

#[global] Instance XR : Scalar := {|
  F := xr;
  flit n d := Fin (IZR n / IZR (Zpos d));
  fadd := xadd; fsub := xsub; fmul := xmul; fdiv := xdiv; fmod := xmod;
  fpow := xpow; fatan2 := xatan2; fmin := xmin; fmax := xmax;
  fopp := xopp; fabs := xabs; fsqrt := xsqrt; fsin := xsin; fcos := xcos;
  fpi := Fin PI; finf := PInf;
  fltb := xltb; fleb := xleb; feqb := xeqb; fisfinite := xfinite;
  fofZ z := Fin (IZR z); frint := xrint; ftrunc := xtrunc
|}.

(* ------------------------------------------------------------------ *)
(** Computation rules on finite values *)

Lemma Rltb_true a b : Rltb a b = true <-> a < b.
Proof. unfold Rltb. destruct (Rlt_dec a b); split; try discriminate; auto; contradiction. Qed.
Lemma Rltb_false a b : Rltb a b = false <-> b <= a.
Proof. unfold Rltb. destruct (Rlt_dec a b); split; try discriminate; auto; lra. Qed.
Lemma Rleb_true a b : Rleb a b = true <-> a <= b.
Proof. unfold Rleb. destruct (Rle_dec a b); split; try discriminate; auto; contradiction. Qed.
Lemma Rleb_false a b : Rleb a b = false <-> b < a.
Proof. unfold Rleb. destruct (Rle_dec a b); split; try discriminate; auto; lra. Qed.
Lemma Reqb_true a b : Reqb a b = true <-> a = b.
Proof. unfold Reqb. destruct (Req_EM_T a b); split; try discriminate; auto; contradiction. Qed.

Lemma flit_Fin n d : flit n d = Fin (IZR n / IZR (Zpos d)). Proof. reflexivity. Qed.
Lemma fadd_Fin a b : fadd (Fin a) (Fin b) = Fin (a + b). Proof. reflexivity. Qed.
Lemma fsub_Fin a b : fsub (Fin a) (Fin b) = Fin (a - b). Proof. reflexivity. Qed.
Lemma fmul_Fin a b : fmul (Fin a) (Fin b) = Fin (a * b). Proof. reflexivity. Qed.
Lemma fopp_Fin a : fopp (Fin a) = Fin (- a). Proof. reflexivity. Qed.
Lemma fabs_Fin a : fabs (Fin a) = Fin (Rabs a). Proof. reflexivity. Qed.
Lemma fmin_Fin a b : fmin (Fin a) (Fin b) = Fin (Rmin a b). Proof. reflexivity. Qed.
Lemma fmax_Fin a b : fmax (Fin a) (Fin b) = Fin (Rmax a b). Proof. reflexivity. Qed.
Lemma fsin_Fin a : fsin (Fin a) = Fin (sin a). Proof. reflexivity. Qed.
Lemma fcos_Fin a : fcos (Fin a) = Fin (cos a). Proof. reflexivity. Qed.
Lemma fatan2_Fin a b : fatan2 (Fin a) (Fin b) = Fin (Ratan2 a b). Proof. reflexivity. Qed.
Lemma fpi_Fin : fpi = Fin PI. Proof. reflexivity. Qed.
Lemma fltb_Fin a b : fltb (Fin a) (Fin b) = Rltb a b. Proof. reflexivity. Qed.
Lemma fleb_Fin a b : fleb (Fin a) (Fin b) = Rleb a b. Proof. reflexivity. Qed.
Lemma feqb_Fin a b : feqb (Fin a) (Fin b) = Reqb a b. Proof. reflexivity. Qed.
Lemma frint_Fin a : frint (Fin a) = Rrint a. Proof. reflexivity. Qed.
Lemma fofZ_Fin a : fofZ a = Fin (IZR a). Proof. reflexivity. Qed.
Lemma fdiv_Fin a b : b <> 0 -> fdiv (Fin a) (Fin b) = Fin (a / b).
Proof. intros H. simpl. destruct (Req_EM_T b 0); [contradiction|reflexivity]. Qed.
Lemma fmod_Fin a b : b <> 0 -> fmod (Fin a) (Fin b) = Fin (Rmod a b).
Proof. intros H. simpl. destruct (Req_EM_T b 0); [contradiction|reflexivity]. Qed.
Lemma fsqrt_Fin a : 0 <= a -> fsqrt (Fin a) = Fin (sqrt a).
Proof. intros H. simpl. destruct (Rle_dec 0 a); [reflexivity|contradiction]. Qed.

Lemma f0_Fin : f0 = Fin 0.
Proof. unfold f0. rewrite flit_Fin. f_equal. field. Qed.
Lemma f1_Fin : f1 = Fin 1.
Proof. unfold f1. rewrite flit_Fin. f_equal. field. Qed.
Lemma f2_Fin : f2 = Fin 2.
Proof. unfold f2. rewrite flit_Fin. f_equal. field. Qed.
Lemma fhalf_Fin : fhalf = Fin (1 / 2).
Proof. reflexivity. Qed.
Lemma fm1_Fin : fm1 = Fin (-1).
Proof. unfold fm1. rewrite flit_Fin. f_equal. field. Qed.
Lemma fclip_Fin x lo hi : fclip (Fin x) (Fin lo) (Fin hi) = Fin (Rmin (Rmax x lo) hi).
Proof. reflexivity. Qed.

#[global] Hint Rewrite fadd_Fin fsub_Fin fmul_Fin fopp_Fin fabs_Fin fmin_Fin fmax_Fin
  fsin_Fin fcos_Fin fatan2_Fin fpi_Fin fltb_Fin fleb_Fin feqb_Fin f0_Fin f1_Fin f2_Fin
  fhalf_Fin fm1_Fin fclip_Fin frint_Fin fofZ_Fin : xr.

Ltac xr := autorewrite with xr.

(* ------------------------------------------------------------------ *)
(** Floor, remainder, rounding *)

Lemma Rfloor_bounds x : IZR (Rfloor x) <= x < IZR (Rfloor x) + 1.
Proof. unfold Rfloor. destruct (base_Int_part x). lra. Qed.

Lemma Rfloor_unique x z : IZR z <= x < IZR z + 1 -> Rfloor x = z.
Proof.
  intros H. pose proof (Rfloor_bounds x) as K.
  assert (A : IZR (Rfloor x) < IZR (z + 1)) by (rewrite plus_IZR; lra).
  assert (B : IZR z < IZR (Rfloor x + 1)) by (rewrite plus_IZR; lra).
  apply lt_IZR in A. apply lt_IZR in B. lia.
Qed.

Lemma Rfloor_IZR z : Rfloor (IZR z) = z.
Proof. apply Rfloor_unique. lra. Qed.

Lemma Rfloor_plus_IZR x z : Rfloor (x + IZR z) = (Rfloor x + z)%Z.
Proof. apply Rfloor_unique. rewrite plus_IZR. pose proof (Rfloor_bounds x). lra. Qed.

Lemma Rmod_bounds a b : 0 < b -> 0 <= Rmod a b < b.
Proof.
  intros H. unfold Rmod. pose proof (Rfloor_bounds (a / b)) as [K1 K2].
  assert (E : a = b * (a / b)) by (field; lra).
  split.
  - assert (b * IZR (Rfloor (a / b)) <= b * (a / b)) by (apply Rmult_le_compat_l; lra). lra.
  - assert (b * (a / b) < b * (IZR (Rfloor (a / b)) + 1)) by (apply Rmult_lt_compat_l; lra). lra.
Qed.

Lemma Rmod_cong a b : exists k : Z, Rmod a b = a - IZR k * b.
Proof. exists (Rfloor (a / b)). unfold Rmod. ring. Qed.

Lemma Rmod_unique a b r (k : Z) : 0 < b -> 0 <= r < b -> a = r + IZR k * b -> Rmod a b = r.
Proof.
  intros H Hr E. unfold Rmod.
  assert (a / b = r / b + IZR k) by (rewrite E; field; lra).
  rewrite H0, Rfloor_plus_IZR.
  assert (Rfloor (r / b) = 0%Z).
  { apply Rfloor_unique. split.
    - apply Rmult_le_pos; [lra|]. left. apply Rinv_0_lt_compat. lra.
    - apply (Rmult_lt_reg_r b); auto. replace (r / b * b) with r by (field; lra). lra. }
  rewrite H1, plus_IZR. rewrite E. ring.
Qed.

Lemma Rrint_bounds x : IZR (Rrint x) - 1 / 2 <= x <= IZR (Rrint x) + 1 / 2.
Proof.
  unfold Rrint. pose proof (Rfloor_bounds x).
  destruct (Rlt_dec _ _); [lra|]. destruct (Rlt_dec _ _); [rewrite plus_IZR; lra|].
  destruct (Z.even _); [lra|rewrite plus_IZR; lra].
Qed.

Lemma Rrint_near x z : IZR z - 1 / 2 < x < IZR z + 1 / 2 -> Rrint x = z.
Proof.
  intros H. pose proof (Rrint_bounds x) as K.
  assert (A : IZR (Rrint x) < IZR (z + 1)) by (rewrite plus_IZR; lra).
  assert (B : IZR z < IZR (Rrint x + 1)) by (rewrite plus_IZR; lra).
  apply lt_IZR in A. apply lt_IZR in B. lia.
Qed.

Lemma Rrint_IZR z : Rrint (IZR z) = z.
Proof. apply Rrint_near. lra. Qed.

Lemma Rrint_mono x y : x <= y -> (Rrint x <= Rrint y)%Z.
Proof.
  intros H. destruct (Z_le_gt_dec (Rrint x) (Rrint y)) as [|G]; auto. exfalso.
  pose proof (Rrint_bounds x) as K1. pose proof (Rrint_bounds y) as K2.
  assert (A : IZR (Rrint y + 1) <= IZR (Rrint x)) by (apply IZR_le; lia).
  rewrite plus_IZR in A.
  assert (x = y) by lra. subst. lia.
Qed.

(* ------------------------------------------------------------------ *)
(** atan2 *)

Lemma Ratan2_bounds y x : - PI < Ratan2 y x <= PI.
Proof.
  pose proof PI_RGT_0. unfold Ratan2.
  destruct (Rlt_dec 0 x).
  { pose proof (atan_bound (y / x)). lra. }
  destruct (Rlt_dec x 0).
  { pose proof (atan_bound (y / x)).
    assert (N : / x < 0) by (apply Rinv_lt_0_compat; auto).
    destruct (Rle_dec 0 y).
    - assert (y / x <= 0) by (unfold Rdiv; nra).
      assert (atan (y / x) <= 0).
      { destruct (Req_dec (y / x) 0) as [E|E]; [rewrite E, atan_0; lra|].
        left. rewrite <- atan_0. apply atan_increasing. lra. }
      lra.
    - assert (0 < y / x) by (unfold Rdiv; nra).
      assert (0 < atan (y / x)) by (rewrite <- atan_0; apply atan_increasing; lra).
      lra. }
  destruct (Rlt_dec 0 y); [lra|]. destruct (Rlt_dec y 0); lra.
Qed.

Lemma cos_atan_pos t : 0 < cos (atan t).
Proof. pose proof (atan_bound t). apply cos_gt_0; lra. Qed.

Lemma sin_atan t : sin (atan t) = t * cos (atan t).
Proof.
  pose proof (cos_atan_pos t). rewrite <- (tan_atan t) at 2. unfold tan. field. lra.
Qed.

Lemma sqrt_1pt2 t : 0 < 1 + t * t.
Proof. nra. Qed.

Lemma cos_atan_eq t : cos (atan t) = / sqrt (1 + t * t).
Proof.
  pose proof (cos_atan_pos t) as C. pose proof (sin2_cos2 (atan t)) as E.
  rewrite sin_atan in E. unfold Rsqr in E.
  assert (E2 : (1 + t * t) * (cos (atan t) * cos (atan t)) = 1) by nra.
  assert (S : 0 < sqrt (1 + t * t)) by (apply sqrt_lt_R0, sqrt_1pt2).
  assert (E3 : sqrt (1 + t * t) * cos (atan t) = 1).
  { assert (Hsq : sqrt (1 + t * t) * sqrt (1 + t * t) = 1 + t * t).
    { apply sqrt_sqrt. pose proof (sqrt_1pt2 t). lra. }
    assert (P : 0 < sqrt (1 + t * t) * cos (atan t)) by nra.
    assert (Q : (sqrt (1 + t * t) * cos (atan t)) * (sqrt (1 + t * t) * cos (atan t)) = 1).
    { replace ((sqrt (1 + t * t) * cos (atan t)) * (sqrt (1 + t * t) * cos (atan t)))
        with ((sqrt (1 + t * t) * sqrt (1 + t * t)) * (cos (atan t) * cos (atan t))) by ring.
      rewrite Hsq. exact E2. }
    nra. }
  apply (Rmult_eq_reg_l (sqrt (1 + t * t))); [|lra].
  rewrite E3. field. lra.
Qed.

(** Polar form: (x, y) = r (cos, sin)(atan2 y x). *)
Lemma Ratan2_polar y x :
  let r := sqrt (x * x + y * y) in
  (x <> 0 \/ y <> 0) ->
  x = r * cos (Ratan2 y x) /\ y = r * sin (Ratan2 y x).
Proof.
  intros r Hne.
  assert (Hpos : 0 < x * x + y * y) by (destruct Hne; nra).
  assert (Key : forall s, s * s = 1 -> 0 < s * x ->
            x = r * (s * cos (atan (y / x))) /\ y = r * (s * sin (atan (y / x)))).
  { intros s Hs Hsx. assert (Hx : x <> 0) by nra.
    rewrite sin_atan, cos_atan_eq.
    assert (Er : r = s * x * sqrt (1 + y / x * (y / x))).
    { unfold r. replace (x * x + y * y) with ((s * x) * (s * x) * (1 + y / x * (y / x))).
      - rewrite sqrt_mult; [|nra|pose proof (sqrt_1pt2 (y / x)); lra].
        rewrite sqrt_square by lra. reflexivity.
      - replace ((s * x) * (s * x) * (1 + y / x * (y / x)))
          with ((s * s) * (x * x + y * y)) by (field; auto). rewrite Hs. ring. }
    assert (S : 0 < sqrt (1 + y / x * (y / x))) by (apply sqrt_lt_R0, sqrt_1pt2).
    rewrite Er. split.
    - transitivity ((s * s) * x); [rewrite Hs; ring | field; lra].
    - transitivity ((s * s) * y); [rewrite Hs; ring | field; lra]. }
  unfold Ratan2. destruct (Rlt_dec 0 x) as [Hx|Hx].
  { destruct (Key 1) as [K1 K2]; [ring|lra|]. rewrite !Rmult_1_l in K1, K2. auto. }
  destruct (Rlt_dec x 0) as [Hx'|Hx'].
  { destruct (Key (-1)) as [K1 K2]; [ring|lra|].
    destruct (Rle_dec 0 y).
    - rewrite neg_cos, neg_sin. split; [rewrite K1 at 1 | rewrite K2 at 1]; ring.
    - replace (cos (atan (y / x) - PI)) with (- cos (atan (y / x))).
      replace (sin (atan (y / x) - PI)) with (- sin (atan (y / x))).
      + split; [rewrite K1 at 1 | rewrite K2 at 1]; ring.
      + rewrite sin_minus, cos_PI, sin_PI. ring.
      + rewrite cos_minus, cos_PI, sin_PI. ring. }
  assert (x = 0) by lra. subst x.
  destruct (Rlt_dec 0 y).
  { rewrite cos_PI2, sin_PI2. unfold r.
    replace (0 * 0 + y * y) with (y * y) by ring. rewrite sqrt_square by lra. lra. }
  destruct (Rlt_dec y 0).
  { rewrite cos_neg, sin_neg, cos_PI2, sin_PI2. unfold r.
    replace (0 * 0 + y * y) with ((- y) * (- y)) by ring. rewrite sqrt_square by lra. lra. }
  exfalso. destruct Hne; lra.
Qed.

(** Two angles with the same sine and cosine differ by a multiple of 2 PI. *)
Lemma cos_eq_1_small d : - (2 * PI) < d < 2 * PI -> cos d = 1 -> d = 0.
Proof.
  intros H E. pose proof PI_RGT_0.
  replace d with (2 * (d / 2)) in E by field.
  rewrite cos_2a_sin in E. assert (S : sin (d / 2) = 0) by nra.
  destruct (Rtotal_order (d / 2) 0) as [L|[L|L]].
  - exfalso. assert (0 < sin (- (d / 2))) by (apply sin_gt_0; lra).
    rewrite sin_neg in H1. lra.
  - lra.
  - exfalso. assert (0 < sin (d / 2)) by (apply sin_gt_0; lra). lra.
Qed.

Lemma angle_unique a b :
  - PI < a <= PI -> - PI < b <= PI -> cos a = cos b -> sin a = sin b -> a = b.
Proof.
  intros Ha Hb C S. assert (E : a - b = 0); [|lra].
  apply cos_eq_1_small; [lra|]. rewrite cos_minus, C, S.
  pose proof (sin2_cos2 b). unfold Rsqr in H. lra.
Qed.

Lemma Ratan2_of_polar r a : 0 < r -> - PI < a <= PI ->
  Ratan2 (r * sin a) (r * cos a) = a.
Proof.
  intros Hr Ha.
  assert (N : r * cos a <> 0 \/ r * sin a <> 0).
  { pose proof (sin2_cos2 a) as E. unfold Rsqr in E.
    destruct (Req_dec (cos a) 0) as [C|C]; [right|left];
      apply Rmult_integral_contrapositive_currified; try lra.
    intros S0. rewrite S0, C in E. lra. }
  destruct (Ratan2_polar (r * sin a) (r * cos a) N) as [P1 P2].
  assert (Er : sqrt (r * cos a * (r * cos a) + r * sin a * (r * sin a)) = r).
  { replace (r * cos a * (r * cos a) + r * sin a * (r * sin a))
      with (r * r * ((sin a)² + (cos a)²)) by (unfold Rsqr; ring).
    rewrite sin2_cos2, Rmult_1_r. apply sqrt_square. lra. }
  rewrite Er in P1, P2.
  apply angle_unique; [apply Ratan2_bounds|auto| |].
  - apply (Rmult_eq_reg_l r); lra.
  - apply (Rmult_eq_reg_l r); lra.
Qed.
