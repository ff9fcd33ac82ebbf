(** C19: the discretiser is a correct quantiser. *)
From Coq Require Import List ZArith Reals Lra Lia Bool.
From Verif.Lib Require Import Base JaxIndex Scalar QScalar XR.
From Verif.Model Require Import Discretizer.
From Verif.Spec Require Import DynSpec DiscSpec.
From Verif.Proofs Require Import P_Discretizer.
Import ListNotations.
Open Scope R_scope.

(** For admissible bounds the constructor succeeds, every index decodes, and every
    vector of the right length without NaN encodes. *)
Theorem C19_total mins maxs bins vs : disc_bounds mins maxs bins ->
  exists d, make_discretizer (S := XR) (map Fin mins) (map Fin maxs) bins = Ok d /\
    (forall k, exists r, make_continuous d k = Ok r) /\
    (length vs = length mins -> Forall (fun v => v <> NaN) vs -> exists k, discretize d vs = Ok k).
Proof. exact (disc_total mins maxs bins vs). Qed.

(** For every number type and every input (NaN included): the encoded index is one
    of the [num_actions] many legal ones. *)
Theorem C19_index_in_range {S : Scalar} d vs k :
  discretize d vs = Ok k -> Forall (fun b => (0 <= b)%Z) (dz_bins d) ->
  (0 <= k <= num_actions (dz_bins d) - 1)%Z.
Proof. exact (disc_index_range d vs k). Qed.

(** Decoding the code of a vector reproduces each component, clamped to its range,
    to within half a bin.  Infinite components clamp to the bounds. *)
Theorem C19_half_bin mins maxs bins d vs k r : disc_bounds mins maxs bins ->
  make_discretizer (S := XR) (map Fin mins) (map Fin maxs) bins = Ok d ->
  length vs = length mins -> Forall (fun v => v <> NaN) vs ->
  discretize d vs = Ok k -> make_continuous d k = Ok r ->
  length r = length mins /\
  forall j lo hi b v, nth_error mins j = Some lo -> nth_error maxs j = Some hi ->
    nth_error bins j = Some b -> nth_error vs j = Some v ->
    exists x, nth_error r j = Some (Fin x) /\
      Rabs (x - nearest lo hi v) <= (hi - lo) / (2 * IZR b).
Proof. exact (disc_half_bin mins maxs bins d vs k r). Qed.

(** Every legal index decodes to a point of the box and encodes back to itself. *)
Theorem C19_decode_encode mins maxs bins d k : disc_bounds mins maxs bins ->
  make_discretizer (S := XR) (map Fin mins) (map Fin maxs) bins = Ok d ->
  (0 <= k < num_actions bins)%Z ->
  exists r, make_continuous d k = Ok r /\ discretize d r = Ok k /\ length r = length mins /\
    forall j lo hi, nth_error mins j = Some lo -> nth_error maxs j = Some hi ->
      exists x, nth_error r j = Some (Fin x) /\ lo <= x <= hi.
Proof. exact (disc_decode_encode mins maxs bins d k). Qed.

(** Values outside the box encode like the nearest point of the box. *)
Theorem C19_clamps mins maxs bins d vs : disc_bounds mins maxs bins ->
  make_discretizer (S := XR) (map Fin mins) (map Fin maxs) bins = Ok d ->
  length vs = length mins -> Forall (fun v => v <> NaN) vs ->
  discretize d vs
  = discretize d (map3 (fun lo hi v => Fin (nearest lo hi v)) mins maxs vs).
Proof. exact (disc_clamps mins maxs bins d vs). Qed.

(** Illegal indices are not rejected: a too large one decodes like the last one, a
    negative one counts from the end, one below -N decodes like the first. *)
Theorem C19_out_of_range_index mins maxs bins d k : disc_bounds mins maxs bins ->
  make_discretizer (S := XR) (map Fin mins) (map Fin maxs) bins = Ok d ->
  let n := num_actions bins in
  make_continuous d k = make_continuous d
    (if Z.ltb k (- n) then 0 else if Z.ltb k 0 then k + n else if Z.ltb k n then k else n - 1)%Z.
Proof. exact (disc_decode_out_of_range mins maxs bins d k). Qed.

(** The documented maximum (an attribute of the discretiser) is the largest code: no
    vector gets a larger one, and the vector of all maxima gets it. *)
Theorem C19_maximum_code mins maxs bins d : disc_bounds mins maxs bins ->
  make_discretizer (S := XR) (map Fin mins) (map Fin maxs) bins = Ok d ->
  (forall vs k, discretize d vs = Ok k -> (k <= dz_max_idx d)%Z) /\
  exists vs, length vs = length mins /\ discretize d vs = Ok (dz_max_idx d).
Proof.
  intros D Hd.
  assert (Eb : dz_bins d = bins).
  { unfold make_discretizer in Hd. repeat apply bind_Ok in Hd as (? & _ & Hd). now injection Hd as <-. }
  assert (Em : dz_max_idx d = (num_actions bins - 1)%Z).
  { unfold dz_max_idx, dz_dims. now rewrite Eb, num_actions_prod. }
  assert (P : (1 <= num_actions bins)%Z).
  { destruct D as (_ & _ & _ & B). clear Hd Eb Em. induction bins as [|b bins IH]; [simpl; lia|].
    assert (1 <= b)%Z by (apply (B 0%nat); reflexivity).
    assert (1 <= num_actions bins)%Z by (apply IH; intros j; apply (B (Datatypes.S j))). simpl. nia. }
  split.
  - intros vs k H. rewrite Em, <- Eb. apply (disc_index_range d vs k H). rewrite Eb. apply Forall_forall.
    intros b Hin. apply In_nth_error in Hin as [j Hj]. destruct D as (_ & _ & _ & B). specialize (B j b Hj). lia.
  - destruct (disc_decode_encode mins maxs bins d (dz_max_idx d) D Hd ltac:(lia)) as (r & _ & E & L & _). eauto.
Qed.

(** The constructor's shape check: mismatched inputs are rejected only when both
    maximum and bins differ in length from minimum. *)
Theorem C19_both_mismatched_rejected {S : Scalar} (mins maxs : list F) bins :
  length mins <> length maxs -> length mins <> length bins ->
  make_discretizer mins maxs bins = Err ValueError.
Proof.
  intros H1 H2. apply Nat.eqb_neq in H1, H2. unfold make_discretizer. now rewrite H1, H2.
Qed.

(** Not every mismatch is rejected: two bin counts for a one-dimensional range are
    accepted, and one value is then silently used for both dimensions. *)
Theorem C19_shape_check_refuted :
  exists (mins maxs : list xr) bins d,
    length mins <> length bins /\ make_discretizer (S := XR) mins maxs bins = Ok d /\
    exists k, discretize d [Fin 1] = Ok k.
Proof.
  exists [Fin 0], [Fin 1], [2; 3]%Z. eexists. split; [simpl; lia|]. split; [reflexivity|].
  eexists. reflexivity.
Qed.

(** A two-dimensional instance: ranges [-1,1] and [0,4] with 2 and 4 bins. *)
Example C19_example : disc_bounds [-1; 0] [1; 4] [2; 4]%Z /\ num_actions [2; 4]%Z = 15%Z.
Proof.
  split; [|reflexivity]. split; [reflexivity|]. split; [reflexivity|]. split.
  - intros [|[|j]] lo hi H1 H2; simpl in *; [injection H1 as <-; injection H2 as <-; lra..|].
    destruct j; discriminate.
  - intros [|[|j]] b H; simpl in *; [injection H as <-; lia..|]. destruct j; discriminate.
Qed.

(** Row-major code: on rationals, (1/2, 3) is index 2*5+3 = 13 (1/2 in units of one
    bin from -1 is 3/2, which rounds to the even 2), and decodes to (1, 3). *)
Definition C19_qdisc : discretizer (S := QS) :=
  mkdisc (S := QS) (map QArith_base.inject_Z [(-1)%Z; 0%Z]) [2; 4]%Z
    (map QArith_base.inject_Z [1%Z; 1%Z]).
Example C19_example_code :
  discretize C19_qdisc [QArith_base.Qmake 1 2; QArith_base.inject_Z 3] = Ok 13%Z /\
  exists a b, make_continuous C19_qdisc 13 = Ok [a; b] /\
    QArith_base.Qeq a (QArith_base.inject_Z 1) /\ QArith_base.Qeq b (QArith_base.inject_Z 3).
Proof. split; [reflexivity|]. eexists. eexists. split; [reflexivity|]. split; reflexivity. Qed.

Print Assumptions C19_total.
Print Assumptions C19_index_in_range.
Print Assumptions C19_half_bin.
Print Assumptions C19_decode_encode.
Print Assumptions C19_clamps.
Print Assumptions C19_out_of_range_index.
Print Assumptions C19_maximum_code.
Print Assumptions C19_both_mismatched_rejected.
Print Assumptions C19_shape_check_refuted.
