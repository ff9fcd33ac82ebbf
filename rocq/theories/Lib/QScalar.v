(** A computable scalar instance on rationals, used only to evaluate concrete
    examples.  Trigonometry and square root are exact only at the points used in
    the examples (angle 0, perfect squares); no theorem is about this instance. *)
From Coq Require Import ZArith QArith Qround.
From Verif.Lib Require Import Scalar.

Definition qred2 (f : Q -> Q -> Q) (x y : Q) : Q := Qred (f x y).
Definition qfloor_mod (x y : Q) : Q := Qred (x - y * inject_Z (Qfloor (x / y))).
Definition qsqrt (x : Q) : Q :=
  let r := Qred x in
  if Qlt_le_dec r 0 then 0%Q
  else Qred (Z.sqrt (Qnum r) # Z.to_pos (Z.sqrt (Zpos (Qden r)))).
Definition qltb (x y : Q) : bool := negb (Qle_bool y x).

Definition QS : Scalar := {|
  F := Q;
  flit n d := Qred (n # d);
  fadd := qred2 Qplus; fsub := qred2 Qminus; fmul := qred2 Qmult;
  fdiv := qred2 Qdiv; fmod := qfloor_mod;
  fpow := fun x _ => x; fatan2 := fun _ _ => 0%Q;
  fmin := fun x y => if Qle_bool x y then x else y;
  fmax := fun x y => if Qle_bool x y then y else x;
  fopp := fun x => Qred (Qopp x);
  fabs := fun x => if Qle_bool 0 x then x else Qred (Qopp x);
  fsqrt := qsqrt; fsin := fun _ => 0%Q; fcos := fun _ => 1%Q;
  fpi := Qred (355 # 113); finf := Qred (1000000 # 1);
  fltb := qltb; fleb := Qle_bool; feqb := Qeq_bool;
  fisfinite := fun _ => true;
  fofZ := inject_Z;
  frint := fun x => Qfloor (x + (1 # 2));
  ftrunc := fun x => Z.quot (Qnum x) (Zpos (Qden x));
|}.
