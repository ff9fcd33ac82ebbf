(** C83: masked means in float32, as used for the box sizes of loaded scenarios. *)
From Coq Require Import List ZArith Reals Lra Lia Bool.
From Verif.Lib Require Import Base JaxIndex Scalar F32.
From Verif.Model Require Import Metrics Masked.
From Verif.Spec Require Import MaskSpec F32Spec F32MaskSpec.
From Verif.Proofs Require Import P_F32 P_F32Mask.
Import ListNotations.
Open Scope R_scope.

(** Every row keeps its length and holds one value: exactly the invalid value if nothing
    in the row is valid; otherwise a finite number within (n + 2) W / 2^23 of the mean of
    the n valid entries.  Entries outside the mask may be NaN or infinite. *)
Theorem C83_masked_mean lm W (x : list (list f32)) v inv m i xi vi r :
  1 <= W <= 2 ^ 60 -> (Z.of_nat (length vi) <= 2 ^ 20)%Z ->
  masked_mean_last (S := F32 lm) x v inv = Ok m ->
  nth_error x i = Some xi -> nth_error v i = Some vi -> valid_entries32 W xi vi r ->
  exists mi, nth_error m i = Some mi /\ length mi = length xi /\
    ((forall j, nth_error vi j <> Some true) -> forall y, In y mi -> y = inv) /\
    ((exists j, nth_error vi j = Some true) -> exists a, (forall y, In y mi -> fin y a) /\
       Rabs (a - valid_sum r vi / INR (valid_count vi)) <= (INR (valid_count vi) + 2) * W / 2 ^ 23).
Proof. exact (masked_mean32 lm W x v inv m i xi vi r). Qed.

(** The mean of equal float32 values need not be that value: six times 8388610 gives
    8388609. *)
Theorem C83_equal_entries_refuted :
  exists (x : list f32) v, (forall b, In b v -> b = true) /\ length x = length v /\
    (forall y, In y x -> fin y 8388610) /\
    forall lm inv, exists m, masked_mean_last (S := F32 lm) [x] [v] inv = Ok [m] /\
      forall y, In y m -> fin y 8388609.
Proof.
  exists (repeat (f32_ofZ 8388610) 6), (repeat true 6).
  split; [intros b; apply repeat_spec|]. split; [reflexivity|].
  split; [intros y Hy; apply repeat_spec in Hy; subst y; apply ofZ_fin; lia|].
  intros lm inv. eexists. split; [reflexivity|]. intros y Hy.
  apply (repeat_spec 6) in Hy. subst y. split; vm_compute; [reflexivity | lra].
Qed.

(** A row with a NaN outside the mask. *)
Example C83_ex lm : exists m mi a,
  masked_mean_last (S := F32 lm) [[f32_ofZ 4; f32_nan; f32_ofZ 5]] [[true; false; true]] (f32_ofZ (-1)) = Ok m /\
  nth_error m 0 = Some mi /\ length mi = 3%nat /\ (forall y, In y mi -> fin y a) /\ Rabs (a - 9 / 2) <= 20 / 2 ^ 23.
Proof.
  eexists.
  assert (V : valid_entries32 5 [f32_ofZ 4; f32_nan; f32_ofZ 5] [true; false; true] [4; 0; 5]).
  { split; [reflexivity|]. split; [reflexivity|]. intros [|[|[|i]]] H; cbn [nth_error] in H; try discriminate H.
    - exists (f32_ofZ 4), 4. split; [reflexivity|]. split; [reflexivity|]. split; [apply (ofZ_fin 4); lia|]. rewrite Rabs_right; lra.
    - exists (f32_ofZ 5), 5. split; [reflexivity|]. split; [reflexivity|]. split; [apply (ofZ_fin 5); lia|]. rewrite Rabs_right; lra.
    - destruct i; discriminate H. }
  destruct (C83_masked_mean lm 5 [[f32_ofZ 4; f32_nan; f32_ofZ 5]] [[true; false; true]] (f32_ofZ (-1)) _ 0 _ [true; false; true] _
    ltac:(simpl; lra) ltac:(intros E; discriminate E) eq_refl eq_refl eq_refl V) as (mi & Hm & L & _ & M).
  destruct (M (ex_intro _ 0%nat eq_refl)) as (a & Fa & Ea).
  exists mi, a. split; [reflexivity|]. split; [exact Hm|]. split; [exact L|]. split; [exact Fa|].
  cbn [valid_sum valid_count Nat.add] in Ea.
  replace ((4 + (0 + (5 + 0))) / INR 2) with (9 / 2) in Ea by (simpl; field).
  replace ((INR 2 + 2) * 5 / 2 ^ 23) with (20 / 2 ^ 23) in Ea by (simpl; field). exact Ea.
Qed.

Print Assumptions C83_masked_mean.
Print Assumptions C83_equal_entries_refuted.
Print Assumptions C83_ex.
