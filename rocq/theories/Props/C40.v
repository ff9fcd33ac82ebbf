(** C40: the top-k filter of the roadgraph. *)
From Coq Require Import Reals ZArith List Bool Lia Lra.
From Verif.Lib Require Import Base Scalar QScalar XR.
From Verif.Model Require Import State Geometry Roadgraph.
From Verif.Spec Require Import GeomSpec ObsSpec.
From Verif.Proofs Require Import P_Roadgraph P_F32Near.
From Verif.Props Require Import Ex ExO.
Import ListNotations.
Open Scope R_scope.

(** Asking for more points than there are raises, otherwise exactly k points come
    back; asking for all of them returns the map as it is (not sorted). *)
Theorem C40_outcome {S : Scalar} (rg : list rgpt) ref k :
  ((k <= length rg)%nat -> exists out, filter_topk_roadgraph_points rg ref k = Ok out /\ length out = k) /\
  ((length rg < k)%nat -> filter_topk_roadgraph_points rg ref k = Err NotImplementedError) /\
  (k = length rg -> filter_topk_roadgraph_points rg ref k = Ok rg).
Proof. exact (filter_topk_cases rg ref k). Qed.

(** For k < n the result consists of k different samples of the map, in rank order,
    each of which ranks before every dropped sample.  Rank: valid before invalid, near
    before far, ties by position in the map. *)
Theorem C40_nearest_first (rg : list (rgpt (S := XR))) pos ref k out :
  rg_real rg pos -> (k < length rg)%nat ->
  filter_topk_roadgraph_points rg (finv ref) k = Ok out ->
  length out = k /\
  exists keep : list nat, length keep = k /\ NoDup keep /\
    (forall a i, nth_error keep a = Some i ->
       exists p q, nth_error rg i = Some p /\ nth_error out a = Some q /\ same_sample p q) /\
    (forall a b i j, (a < b)%nat -> nth_error keep a = Some i -> nth_error keep b = Some j ->
       ranks_before rg pos ref i j) /\
    (forall i j, In i keep -> (j < length rg)%nat -> ~ In j keep -> ranks_before rg pos ref i j).
Proof. exact (filter_topk_spec rg pos ref k out). Qed.

(** "The nearest 32-bit float, the even one of two" names exactly one integer for each, so
    ids and types of the result are determined by the map. *)
Theorem C40_nearest_float_unique z : exists w, f32_nearest z w /\ forall w', f32_nearest z w' -> w' = w.
Proof.
  exists (float32_int z). split; [apply float32_nearest|]. intros w' H. exact (nearest_unique z _ _ H (float32_nearest z)).
Qed.

(** When all ids and types are 32-bit floats (e.g. below 2^24 in size) the kept samples
    are the original ones, untouched. *)
Theorem C40_unchanged_samples (rg : list (rgpt (S := XR))) pos ref k out :
  rg_real rg pos -> (k < length rg)%nat ->
  (forall p, In p rg -> f32_integer (rg_type p) /\ f32_integer (rg_id p)) ->
  filter_topk_roadgraph_points rg (finv ref) k = Ok out ->
  exists keep : list nat, length keep = k /\ NoDup keep /\ map Some out = map (nth_error rg) keep.
Proof. exact (filter_topk_exact rg pos ref k out). Qed.
Theorem C40_small_ids_are_floats z : (Z.abs z <= 2 ^ 24)%Z -> f32_integer z.
Proof. exact (f32_small z). Qed.

(** An id (or type) survives exactly when a 32-bit float can hold it. *)
Theorem C40_ids (rg : list (rgpt (S := XR))) pos ref k out :
  rg_real rg pos -> (k < length rg)%nat ->
  filter_topk_roadgraph_points rg (finv ref) k = Ok out ->
  forall q, In q out -> exists p, In p rg /\ rg_x q = rg_x p /\ rg_y q = rg_y p /\
    (rg_id q = rg_id p <-> f32_integer (rg_id p)) /\ (rg_type q = rg_type p <-> f32_integer (rg_type p)).
Proof. exact (filter_topk_ids rg pos ref k out). Qed.

(** So ids are not preserved in general: two samples of different lanes come back
    with one id. *)
Definition big (x id : Z) : rgpt (S := QS) := org x id true.
Definition big_map : list (rgpt (S := QS)) :=
  [big 0 (2 ^ 24 + 1); big 1 (2 ^ 24 + 5); big 2 (2 ^ 25 + 1); big 3 (2 ^ 25); big 90 7].
Definition big_out : list (rgpt (S := QS)) := get [] (filter_topk_roadgraph_points big_map (q 0, q 0) 4).
Lemma big_out_ids : map rg_id big_out = [16777216; 16777220; 33554432; 33554432]%Z.
Proof. vm_compute. reflexivity. Qed.
Theorem C40_ids_refuted :
  exists (rg : list (rgpt (S := QS))) ref k out,
    NoDup (map rg_id rg) /\ filter_topk_roadgraph_points rg ref k = Ok out /\
    ~ NoDup (map rg_id out) /\ (exists q, In q out /\ ~ In (rg_id q) (map rg_id rg)).
Proof.
  exists big_map, (q 0, q 0), 4%nat, big_out.
  assert (Eids : map rg_id big_map = [16777217; 16777221; 33554433; 33554432; 7]%Z) by (vm_compute; reflexivity).
  rewrite big_out_ids, Eids.
  split; [repeat constructor; cbn [In]; intuition discriminate|].
  split; [unfold big_out; apply is_ok_get; vm_compute; reflexivity|].
  split; [rewrite !NoDup_cons_iff; cbn [In]; intros (_ & _ & N & _); auto|].
  pose proof big_out_ids as E. destruct big_out as [|b l]; [discriminate|].
  exists b. split; [left; reflexivity|]. cbn [map] in E.
  apply (f_equal (hd 0%Z)) in E. cbn [hd] in E. rewrite E. cbn [In]. intuition discriminate.
Qed.

(** The far valid point, the invalid point at the reference and the near valid point of
    ExO: the two valid ones are kept, the near one first. *)
Example C40_example :
  option_map (map rg_id) (match filter_topk_roadgraph_points o_rg (q 0, q 0) 2 with Ok l => Some l | _ => None end)
    = Some [3; 1]%Z /\
  filter_topk_roadgraph_points o_rg (q 0, q 0) 3 = Ok o_rg /\
  filter_topk_roadgraph_points o_rg (q 0, q 0) 4 = Err NotImplementedError.
Proof. repeat split; vm_compute; reflexivity. Qed.

Definition rrg (x : R) (id : Z) (v : bool) : rgpt (S := XR) :=
  mkrg (S := XR) (Fin x) (Fin 0) (Fin 0) (Fin 1) (Fin 0) (Fin 0) 15 id v.
Definition rmap : list (rgpt (S := XR)) := [rrg 30 1 true; rrg 0 2 false; rrg 1 3 true].
Example C40_example_hypotheses :
  rg_real rmap (fun i => match i with O => (30, 0) | _ => (1, 0) end) /\
  (forall p, In p rmap -> f32_integer (rg_type p) /\ f32_integer (rg_id p)) /\
  exists out, filter_topk_roadgraph_points (S := XR) rmap (finv (0, 0)) 2 = Ok out.
Proof.
  split; [|split].
  - intros [|[|[|i]]] p H V; simpl in H; try (injection H as <-); try discriminate; simpl; auto.
    destruct i; discriminate.
  - intros p [<-|[<-|[<-|[]]]]; split; apply f32_small; vm_compute; discriminate.
  - destruct (filter_topk_cases rmap (finv (0, 0)) 2) as [H _]. destruct H as (out & E & _); [simpl; lia|]. eauto.
Qed.

Print Assumptions C40_outcome.
Print Assumptions C40_nearest_first.
Print Assumptions C40_unchanged_samples.
Print Assumptions C40_ids.
Print Assumptions C40_ids_refuted.
Print Assumptions C40_nearest_float_unique.
