(** C21: angle wrapping.  [normalised] is [-PI, PI), [same_angle] equality up to
    multiples of 2 PI (Spec/GeomSpec.v). *)
From Coq Require Import Reals ZArith Lra.
From Verif.Lib Require Import Base Scalar XR.
From Verif.Model Require Import Geometry.
From Verif.Spec Require Import GeomSpec.
From Verif.Proofs Require Import P_Angles.
Open Scope R_scope.

(** The result is the unique normalised angle congruent to the input. *)
Theorem C21_wrap_is_the_normal_form (a : R) : exists b,
  wrap_yaws (Fin a) = Fin b /\ normalised b /\ same_angle b a /\
  (forall b', normalised b' -> same_angle b' a -> b' = b).
Proof. exact (wrap_lemma a). Qed.

Theorem C21_wrap_idempotent (x : xr) : wrap_yaws (wrap_yaws x) = wrap_yaws x.
Proof. exact (wrap_idem x). Qed.

Theorem C21_wrap_never_increases_magnitude (a b : R) :
  wrap_yaws (Fin a) = Fin b -> Rabs b <= Rabs a.
Proof. exact (wrap_abs_lemma a b). Qed.

(** Infinite and NaN angles give NaN. *)
Theorem C21_wrap_nonfinite (x : xr) : (forall r, x <> Fin r) -> wrap_yaws x = NaN.
Proof. exact (wrap_nonfinite x). Qed.

(** 3 PI / 2 becomes - PI / 2 and PI becomes - PI. *)
Example C21_ex : wrap_yaws (Fin (3 * PI / 2)) = Fin (- (PI / 2)) /\ wrap_yaws (Fin PI) = Fin (- PI).
Proof.
  pose proof PI_RGT_0. rewrite !wrap_Fin. split; f_equal; apply Rwrap_unique.
  - unfold normalised; lra.
  - exists (-1)%Z. lra.
  - unfold normalised; lra.
  - exists (-1)%Z. lra.
Qed.

Print Assumptions C21_wrap_is_the_normal_form.
Print Assumptions C21_wrap_idempotent.
Print Assumptions C21_wrap_never_increases_magnitude.
Print Assumptions C21_wrap_nonfinite.
