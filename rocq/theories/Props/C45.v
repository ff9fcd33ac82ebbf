(** C45: masked means, masked updates and one-hot selection. *)
From Coq Require Import List ZArith Reals Lra Lia Bool.
From Verif.Lib Require Import Base JaxIndex Scalar XR.
From Verif.Model Require Import Operations State Dynamics Metrics Masked PlanningEnv.
From Verif.Spec Require Import MaskSpec.
From Verif.Proofs Require Import P_Masked.
Import ListNotations.
Open Scope R_scope.

(** The masked mean over the last axis: the row keeps its length; with no valid
    entry every entry is the invalid value; otherwise every entry is the mean of the
    valid entries ([r]: their real values), which lies between their bounds.  Entries
    outside the mask may be NaN or infinite. *)
Theorem C45_masked_mean (x : list (list xr)) v inv m i xi vi r :
  masked_mean_last (S := XR) x v inv = Ok m ->
  nth_error x i = Some xi -> nth_error v i = Some vi -> valid_entries xi vi r ->
  exists mi, nth_error m i = Some mi /\ length mi = length xi /\
    ((forall j, nth_error vi j <> Some true) -> forall y, In y mi -> y = inv) /\
    ((exists j, nth_error vi j = Some true) -> forall y, In y mi ->
       y = Fin (valid_sum r vi / INR (valid_count vi)) /\
       forall lo hi, (forall j a, nth_error vi j = Some true -> nth_error r j = Some a -> lo <= a <= hi) ->
         lo <= valid_sum r vi / INR (valid_count vi) <= hi).
Proof. exact (masked_mean_spec x v inv m i xi vi r). Qed.

(** It never fails on a mask of the data's shape. *)
Theorem C45_masked_mean_total {S : Scalar} (x : list (list F)) v inv :
  Forall2 (fun a b => length a = length b) x v -> exists m, masked_mean_last x v inv = Ok m.
Proof. exact (masked_mean_total x v inv). Qed.

(** Entries outside the mask have no influence, in any number type. *)
Theorem C45_masked_mean_ignores_invalid {S : Scalar} (x x' : list (list F)) v inv :
  (forall i j, at2 v i j = Some true -> at2 x i j = at2 x' i j) ->
  Forall2 (fun a b => length a = length b) x v -> Forall2 (fun a b => length a = length b) x' v ->
  masked_mean_last x v inv = masked_mean_last x' v inv.
Proof. exact (masked_mean_ignores x x' v inv). Qed.

(** On a vector the default axis is the only one: the same mean, in every entry; a mask
    of another length (and not of length 1) is refused. *)
Theorem C45_masked_mean_vector (x : list xr) v inv :
  (forall r, valid_entries x v r ->
     exists m, masked_mean_vec (S := XR) x v inv = Ok m /\ length m = length x /\
       ((forall j, nth_error v j <> Some true) -> forall y, In y m -> y = inv) /\
       ((exists j, nth_error v j = Some true) -> forall y, In y m ->
          y = Fin (valid_sum r v / INR (valid_count v)))) /\
  (length v <> length x -> length v <> 1%nat -> masked_mean_vec (S := XR) x v inv = Err ValueError).
Proof. exact (masked_mean_vec_spec x v inv). Qed.

(** The default axis=0 on a matrix is unusable: it raises unless the matrix is square
    or has one column, *)
Theorem C45_default_axis_raises {S : Scalar} n T (x : list (list F)) v inv :
  rect n T x -> rect n T v -> T <> n -> T <> 1%nat -> masked_mean_first T x v inv = Err ValueError.
Proof. exact (masked_mean_default_fails n T x v inv). Qed.

(** ... and on a square matrix it puts the mean of column i into row i. *)
Theorem C45_default_axis_refuted :
  exists (x : list (list xr)) v m,
    masked_mean_first (S := XR) 2 x v (Fin (-1)) = Ok m /\
    (forall i j, (i < 2)%nat -> (j < 2)%nat -> at2 v i j = Some true) /\
    at2 x 0 1 = Some (Fin 5) /\ at2 x 1 1 = Some (Fin 5) /\
    exists y, at2 m 0 1 = Some y /\ y <> Fin 5.
Proof.
  exists [[Fin 1; Fin 5]; [Fin 1; Fin 5]], [[true; true]; [true; true]]. eexists.
  split; [reflexivity|]. split.
  { intros i j Hi Hj. destruct i as [|[|i]], j as [|[|j]]; try lia; reflexivity. }
  split; [reflexivity|]. split; [reflexivity|].
  eexists. split; [reflexivity|].
  change (col [[Fin 1; Fin 5]; [Fin 1; Fin 5]] 0 (f0 (S := XR))) with [Fin 1; Fin 1].
  change (col [[true; true]; [true; true]] 0 false) with [true; true].
  rewrite (line_mean_Fin [Fin 1; Fin 1] [true; true] [1; 1]).
  - simpl. intros E. injection E as E. lra.
  - split; [reflexivity|]. split; [reflexivity|].
    intros [|[|[|i]]] H; try reflexivity; discriminate.
Qed.

(** update_by_mask replaces exactly the masked entries, for any kind of data. *)
Theorem C45_update_by_mask {A} (inputs updates : list A) mask n :
  length inputs = n -> length updates = n -> length mask = n ->
  length (update_by_mask inputs updates mask) = n /\
  forall i, nth_error (update_by_mask inputs updates mask) i
    = match nth_error mask i with
      | Some true => nth_error updates i
      | Some false => nth_error inputs i
      | None => None
      end.
Proof. exact (update_by_mask_spec inputs updates mask n). Qed.

(** masked_value keeps the valid entries and puts the fill value at the others. *)
Theorem C45_masked_value {S : Scalar} (value : list F) valid fill :
  length value = length valid ->
  length (masked_value_fill value valid fill) = length value /\
  forall i v b, nth_error value i = Some v -> nth_error valid i = Some b ->
    nth_error (masked_value_fill value valid fill) i = Some (if b then v else fill).
Proof. exact (masked_value_spec value valid fill). Qed.

(** One-hot selection returns the selected entry of finite data. *)
Theorem C45_select_by_onehot (data : list xr) sel i r :
  length data = length sel -> one_hot sel i -> (forall y, In y data -> exists a, y = Fin a) ->
  nth_error data i = Some (Fin r) -> select_by_onehot (S := XR) data sel = Ok (Fin r).
Proof. exact (select_onehot_spec data sel i r). Qed.

(** With nothing selected it is 0, not an error. *)
Theorem C45_select_nothing_is_zero (data : list xr) sel :
  length data = length sel -> (forall j, nth_error sel j <> Some true) ->
  (forall y, In y data -> exists a, y = Fin a) ->
  select_by_onehot (S := XR) data sel = Ok (Fin 0).
Proof. exact (select_none_spec data sel). Qed.

(** Any NaN or infinity among the entries that are NOT selected makes it NaN. *)
Theorem C45_select_poisoned (data : list xr) sel j y :
  length data = length sel -> nth_error sel j = Some false -> nth_error data j = Some y ->
  (forall a, y <> Fin a) -> select_by_onehot (S := XR) data sel = Ok NaN.
Proof. exact (select_poisoned data sel j y). Qed.

(** Selecting from data of another number of objects is an AssertionError, whatever the
    data, also when one action is selected out of one per object. *)
Theorem C45_select_length_mismatch {S : Scalar} (data : list F) (acts : list act) sel :
  (length data <> length sel -> select_by_onehot data sel = Err AssertionError) /\
  (length acts <> length sel -> select_action_by_onehot acts sel = Err AssertionError).
Proof.
  unfold select_by_onehot, select_action_by_onehot. split; intros H; apply Nat.eqb_neq in H; now rewrite H.
Qed.

(** Invalid data: -1 for every number (whatever was there, NaN included), false for
    every flag, in the same shape. *)
Theorem C45_invalid_data (x : list xr) (b : list bool) :
  length (make_invalid_data (S := XR) x) = length x /\
  (forall y, In y (make_invalid_data (S := XR) x) -> y = Fin (-1)) /\
  length (make_invalid_data_b b) = length b /\ (forall y, In y (make_invalid_data_b b) -> y = false).
Proof.
  unfold make_invalid_data, make_invalid_data_b. rewrite !map_length. split; [reflexivity|]. split.
  - intros y H. apply in_map_iff in H as (z & <- & _). rewrite fm1_Fin, f1_Fin. cbn. f_equal. ring.
  - split; [reflexivity|]. intros y H. now apply in_map_iff in H as (z & <- & _).
Qed.

(** Hypotheses are met: a row with a NaN outside the mask and mean 2. *)
Example C45_example :
  (exists m, masked_mean_last (S := XR) [[Fin 1; NaN; Fin 3]] [[true; false; true]] (Fin (-1)) = Ok m) /\
  valid_entries [Fin 1; NaN; Fin 3] [true; false; true] [1; 0; 3] /\
  valid_sum [1; 0; 3] [true; false; true] / INR (valid_count [true; false; true]) = 2 /\
  one_hot [false; true; false] 1.
Proof.
  split; [apply masked_mean_total; repeat constructor|]. split.
  - split; [reflexivity|]. split; [reflexivity|].
    intros [|[|[|[|i]]]] H; try reflexivity; discriminate.
  - split; [simpl; lra|]. split; [reflexivity|].
    intros [|[|[|[|j]]]] H; try reflexivity; discriminate.
Qed.

Print Assumptions C45_masked_value.
Print Assumptions C45_masked_mean.
Print Assumptions C45_masked_mean_total.
Print Assumptions C45_masked_mean_ignores_invalid.
Print Assumptions C45_default_axis_raises.
Print Assumptions C45_default_axis_refuted.
Print Assumptions C45_update_by_mask.
Print Assumptions C45_select_by_onehot.
Print Assumptions C45_select_nothing_is_zero.
Print Assumptions C45_select_poisoned.
Print Assumptions C45_masked_mean_vector.
Print Assumptions C45_select_length_mismatch.
Print Assumptions C45_invalid_data.
