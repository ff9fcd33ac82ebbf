(** IEEE-754 binary32 (float32) as an instance of [Scalar], built on Flocq.

    What is modelled: +, -, *, /, sqrt are the correctly rounded operations
    (round to nearest, ties to even, gradual underflow, overflow to infinity, one
    NaN); comparisons are the IEEE ones (false on NaN); min and max propagate NaN
    as jnp.minimum and jnp.maximum do; the remainder is the exact C remainder
    followed by the sign correction of jnp.remainder; int32 -> float32 rounds to
    nearest even; rint and truncation are exact (the cast of a non-finite float
    to int is 0 here, in XLA it is unspecified).
    A literal n/d is the correctly rounded quotient.
    sin, cos, atan2 and pow come from a library without accuracy guarantees: they
    are arbitrary functions, given by a [libm].
    Not modelled: a compiler that contracts a*b+c, reassociates, or flushes
    subnormal numbers to zero. *)
From Coq Require Import ZArith Bool Lia.
From Flocq Require Import Core.Zaux Core.Raux Core.FLX IEEE754.BinarySingleNaN.
From Verif.Lib Require Import Scalar.

Definition f32_prec : Z := 24.
Definition f32_emax : Z := 128.
Definition f32 : Set := binary_float f32_prec f32_emax.

#[global] Instance f32_prec_gt_0 : Prec_gt_0 f32_prec.
Proof. unfold Prec_gt_0, f32_prec. lia. Qed.
#[global] Instance f32_prec_lt_emax : Prec_lt_emax f32_prec f32_emax.
Proof. unfold Prec_lt_emax, f32_prec, f32_emax. lia. Qed.

(** m * 2^e, correctly rounded. *)
Definition f32_norm (m e : Z) (neg0 : bool) : f32 :=
  binary_normalize f32_prec f32_emax f32_prec_gt_0 f32_prec_lt_emax mode_NE m e neg0.

Definition f32_ofZ (z : Z) : f32 := f32_norm z 0 false.

Definition f32_nan : f32 := B754_nan.

(** lax.rem on floats: the exact remainder of the division rounded towards zero,
    with the sign of the dividend. *)
Definition f32_rem (x y : f32) : f32 :=
  match x, y with
  | B754_nan, _ | _, B754_nan | B754_infinity _, _ | _, B754_zero _ => f32_nan
  | B754_zero s, _ => B754_zero s
  | B754_finite _ _ _ _, B754_infinity _ => x
  | B754_finite sx mx ex _, B754_finite _ my ey _ =>
      let e := Z.min ex ey in
      f32_norm (Z.rem (cond_Zopp sx (Zpos mx) * 2 ^ (ex - e)) (Zpos my * 2 ^ (ey - e))) e sx
  end.

(** jnp.remainder: lax.rem, plus the divisor when the remainder is not zero and
    has the other sign. *)
Definition f32_mod (x y : f32) : f32 :=
  let r := f32_rem x y in
  let z : f32 := B754_zero false in
  if negb (Bool.eqb (Bltb r z) (Bltb y z)) && negb (Beqb r z)
  then Bplus mode_NE r y else r.

Definition f32_min (x y : f32) : f32 :=
  if is_nan x || is_nan y then f32_nan else if Bleb x y then x else y.
Definition f32_max (x y : f32) : f32 :=
  if is_nan x || is_nan y then f32_nan else if Bleb x y then y else x.

Definition f32_rint (x : f32) : Z := Btrunc (Bnearbyint mode_NE x).

(** The functions of the maths library, with nothing assumed about them. *)
Record libm := mklibm {
  lm_pow : f32 -> f32 -> f32; lm_atan2 : f32 -> f32 -> f32;
  lm_sin : f32 -> f32; lm_cos : f32 -> f32 }.

(** float32(pi) = 13176795 * 2^-22 = 3.1415927410125732421875 *)
Definition f32_pi : f32 := f32_norm 13176795 (-22) false.

Definition F32 (lm : libm) : Scalar := {|
  F := f32;
  flit n d := Bdiv mode_NE (f32_ofZ n) (f32_ofZ (Zpos d));
  fadd := Bplus mode_NE;
  fsub := Bminus mode_NE;
  fmul := Bmult mode_NE;
  fdiv := Bdiv mode_NE;
  fmod := f32_mod;
  fpow := lm_pow lm;
  fatan2 := lm_atan2 lm;
  fmin := f32_min;
  fmax := f32_max;
  fopp := Bopp;
  fabs := Babs;
  fsqrt := Bsqrt mode_NE;
  fsin := lm_sin lm;
  fcos := lm_cos lm;
  fpi := f32_pi;
  finf := B754_infinity false;
  fltb := Bltb;
  fleb := Bleb;
  feqb := Beqb;
  fisfinite := is_finite;
  fofZ := f32_ofZ;
  frint := f32_rint;
  ftrunc := Btrunc |}.
