(** C48: time aggregation and object truncation of WOMD dictionaries. *)
From Coq Require Import String.
From Coq Require Import List ZArith Bool Arith Lia.
From Coq Require Import Reals.
From Verif.Lib Require Import Base Scalar XR QScalar.
From Verif.Model Require Import Womd Geometry.
From Verif.Spec Require Import DictSpec GeomSpec.
From Verif.Proofs Require Import P_Womd P_Angles.
Import ListNotations.
Local Open Scope nat_scope.

(** The aggregated dictionary, for every number system: a feature with a current part
    becomes past, current, future joined on the time axis; which_time has a -1 for each
    past step, one 0, and a 1 for each future step; the split keys are gone; every other
    key keeps its array (an "all" or which_time key of the input wins); and there
    are no other keys. *)
Theorem C48_aggregate {S : Scalar} (d r : dict) :
  NoDup (map fst d) -> aggregate_time_tensors d = Ok r ->
  NoDup (map fst r) /\
  (forall kind f, (kind = "state" \/ kind = "traffic_light_state")%string ->
     get d (kind ++ "/current/" ++ f) <> None -> get d (kind ++ "/all/" ++ f) = None ->
     exists p c fu a, get d (kind ++ "/past/" ++ f) = Some p /\ get d (kind ++ "/current/" ++ f) = Some c /\
       get d (kind ++ "/future/" ++ f) = Some fu /\ get r (kind ++ "/all/" ++ f) = Some a /\
       joined (axes_behind_time kind f) p c fu a) /\
  (get d "state/which_time" = None -> exists pv fv P Fn w,
     get d "state/past/valid" = Some pv /\ nth_error (dims pv) 1 = Some P /\
     get d "state/future/valid" = Some fv /\ nth_error (dims fv) 1 = Some Fn /\
     get r "state/which_time" = Some w /\ dims w = [P + 1 + Fn] /\
     forall k, cell w [k] = VF (if k <? P then fopp f1 else if k =? P then f0 else f1)) /\
  (forall k v, get d k = Some v -> ~ split_key d k -> get r k = Some v) /\
  (forall k, split_key d k -> get r k = None) /\
  (forall k, get r k <> None -> get d k <> None \/ k = "state/which_time"%string \/
     exists kind f, (kind = "state" \/ kind = "traffic_light_state")%string /\ k = (kind ++ "/all/" ++ f)%string /\
       get d (kind ++ "/current/" ++ f) <> None).
Proof. exact (aggregate_spec d r). Qed.

(** It succeeds exactly on complete dictionaries. *)
Theorem C48_succeeds {S : Scalar} (d : dict) : complete d <-> exists r, aggregate_time_tensors d = Ok r.
Proof. exact (aggregate_succeeds d). Qed.

(** Preprocessing with a maximal number n of objects: every array whose key starts with
    state/ is cut to its first n rows, rows that stay are unchanged, and all others are
    as without the maximum. *)
Theorem C48_truncation {S : Scalar} (d : dict) agg (n : nat) out :
  preprocess_womd_example d agg (Some (Z.of_nat n)) = Ok out ->
  exists r, preprocess_womd_example d agg None = Ok r /\
  forall k, match get r k, get out k with
            | Some v, Some w =>
                if strip "state/" k then
                  exists size rest, dims v = size :: rest /\ dims w = Nat.min n size :: rest /\ cell w = cell v
                else w = v
            | None, None => True
            | _, _ => False
            end.
Proof.
  intros H. destruct (preprocess_Some d agg _ out H) as (r & Hr & G). exists r. split; auto.
  intros k. specialize (G k). destruct (get r k), (get out k); auto.
  destruct (strip "state/" k); auto. unfold py_stop in G. rewrite Nat2Z.id in G.
  replace (Z.of_nat n <? 0)%Z with false in G by (symmetry; apply Z.ltb_ge; lia). exact G.
Qed.

(** A negative maximum -n (n > 0) drops the last n rows instead (all of them when there
    are fewer), as a Python slice does. *)
Theorem C48_negative_maximum {S : Scalar} (d : dict) agg (n : nat) out :
  0 < n -> preprocess_womd_example d agg (Some (- Z.of_nat n)%Z) = Ok out ->
  exists r, preprocess_womd_example d agg None = Ok r /\
  forall k, match get r k, get out k with
            | Some v, Some w =>
                if strip "state/" k then
                  exists size rest, dims v = size :: rest /\ dims w = (size - n) :: rest /\ cell w = cell v
                else w = v
            | None, None => True
            | _, _ => False
            end.
Proof.
  intros Hn H. destruct (preprocess_Some d agg _ out H) as (r & Hr & G). exists r. split; auto.
  intros k. specialize (G k). destruct (get r k), (get out k); auto.
  destruct (strip "state/" k); auto. unfold py_stop in G.
  replace (- Z.of_nat n <? 0)%Z with true in G by (symmetry; apply Z.ltb_lt; lia).
  destruct G as (size & rest & E1 & E2 & E3). exists size, rest. split; [exact E1|]. split; [|exact E3].
  rewrite E2. f_equal. lia.
Qed.

(** The yaws of the aggregated dictionary, and nothing else, are normalised. *)
Theorem C48_yaws (d r : @dict XR) : preprocess_womd_example d true None = Ok r ->
  exists a yaw w, aggregate_time_tensors d = Ok a /\ get a "state/all/bbox_yaw" = Some yaw /\
    get r "state/all/bbox_yaw" = Some w /\ dims w = dims yaw /\
    (forall idx x, cell yaw idx = VF (Fin x) -> exists y, cell w idx = VF (Fin y) /\ normalised y /\ same_angle y x) /\
    (forall k, k <> "state/all/bbox_yaw"%string -> get r k = get a k).
Proof.
  intros H. destruct (preprocess_None d true r H) as (a & yaw & w & Ha & Hy & Hw & Dw & Cw & Ho).
  exists a, yaw, w. repeat (split; [assumption|]). split; [|assumption].
  intros idx x E. rewrite Cw, E. destruct (wrap_lemma x) as (y & Ey & N & Sa & _).
  exists y. cbn [wrap_val]. rewrite Ey. auto.
Qed.

(** which_time is cut as well, although its axis is time, not objects. *)
Theorem C48_which_time_is_cut {S : Scalar} (d : dict) (n : nat) out :
  NoDup (map fst d) -> get d "state/which_time" = None ->
  preprocess_womd_example d true (Some (Z.of_nat n)) = Ok out ->
  exists pv fv P Fn w,
    get d "state/past/valid" = Some pv /\ nth_error (dims pv) 1 = Some P /\
    get d "state/future/valid" = Some fv /\ nth_error (dims fv) 1 = Some Fn /\
    get out "state/which_time" = Some w /\ dims w = [Nat.min n (P + 1 + Fn)].
Proof.
  intros N Hw H. destruct (C48_truncation d true n out H) as (r & Hr & G).
  destruct (preprocess_None d true r Hr) as (a & yaw & w & Ha & _ & _ & _ & _ & Ho).
  destruct (C48_aggregate d a N Ha) as (_ & _ & W & _).
  destruct (W Hw) as (pv & fv & P & Fn & w' & H1 & H2 & H3 & H4 & H5 & H6 & _).
  exists pv, fv, P, Fn. specialize (G "state/which_time"%string). rewrite Ho in G by discriminate.
  rewrite H5 in G. destruct (get out "state/which_time") as [w2|]; [|contradiction].
  exists w2. repeat (split; [assumption|]). split; [reflexivity|].
  change (strip "state/" "state/which_time") with (Some "which_time"%string) in G. cbv iota in G.
  destruct G as (size & rest & E1 & E2 & _). rewrite E1 in H6. injection H6 as -> ->. exact E2.
Qed.

(** A scene of two objects and 1 + 1 + 2 steps; the second object is the SDC. *)
Definition rows (m : list (list Z)) : @tensor QS :=
  mkT [length m; length (hd [] m)] (fun idx => VI (nth (nth 1 idx 0) (nth (nth 0 idx 0) m []) 0%Z)).
Definition vec1 (l : list Z) : @tensor QS := mkT [length l] (fun idx => VI (nth (nth 0 idx 0) l 0%Z)).
Definition ex_dict : @dict QS := 
  [("state/past/valid", rows [[1]; [1]]%Z); ("state/current/valid", rows [[1]; [0]]%Z);
   ("state/future/valid", rows [[1; 1]; [1; 0]]%Z);
   ("state/past/bbox_yaw", rows [[0]; [4]]%Z); ("state/current/bbox_yaw", rows [[0]; [0]]%Z);
   ("state/future/bbox_yaw", rows [[0; 0]; [0; 0]]%Z);
   ("state/is_sdc", vec1 [0; 1]%Z); ("roadgraph_samples/id", rows [[5]; [6]; [7]]%Z);
   ("traffic_light_state/past/state", rows [[1; 2]]%Z); ("traffic_light_state/current/state", rows [[3; 4]]%Z);
   ("traffic_light_state/future/state", rows [[5; 6]; [7; 8]]%Z);
   ("traffic_light_state/past/timestamp_micros", vec1 [10]%Z);
   ("traffic_light_state/current/timestamp_micros", vec1 [20]%Z);
   ("traffic_light_state/future/timestamp_micros", vec1 [30; 40]%Z)]%string.

Definition ints (r : res (@dict QS)) (k : string) (idxs : list (list nat)) : list nat * list Z :=
  match r with
  | Ok d => match get d k with
            | Some t => (dims t, map (fun i => match cell t i with VI z => z | VB b => Z.b2z b | VF x => QArith_base.Qnum x end) idxs)
            | None => ([], [])
            end
  | Err _ => ([], [])
  end.
Definition grid (n m : nat) : list (list nat) := flat_map (fun i => map (fun j => [i; j]) (seq 0 m)) (seq 0 n).

Example C48_ex_aggregate :
  NoDup (map fst ex_dict) /\
  ints (aggregate_time_tensors ex_dict) "state/all/valid" (grid 2 4) = ([2; 4], [1; 1; 1; 1; 1; 0; 1; 0]%Z) /\
  ints (aggregate_time_tensors ex_dict) "traffic_light_state/all/state" (grid 4 2) = ([4; 2], [1; 2; 3; 4; 5; 6; 7; 8]%Z) /\
  ints (aggregate_time_tensors ex_dict) "traffic_light_state/all/timestamp_micros" [[0]; [1]; [2]; [3]] = ([4], [10; 20; 30; 40]%Z) /\
  ints (aggregate_time_tensors ex_dict) "state/which_time" [[0]; [1]; [2]; [3]] = ([4], [-1; 0; 1; 1]%Z) /\
  ints (aggregate_time_tensors ex_dict) "state/is_sdc" [[0]; [1]] = ([2], [0; 1]%Z).
Proof.
  split; [|vm_compute; repeat split].
  cbn [map fst ex_dict]. repeat (constructor; [cbn; intuition discriminate|]). constructor.
Qed.

(** The claims that the maximum only concerns objects, and that the SDC survives it
    (the TODO in womd_dataloader.py:73), fail: with at most one object the trajectories
    have four steps but which_time has one entry, and no object is the SDC. *)
Theorem C48_truncation_keeps_time_and_sdc_refuted :
  exists out, preprocess_womd_example ex_dict true (Some 1%Z) = Ok out /\
    ints (Ok out) "state/all/valid" (grid 1 4) = ([1; 4], [1; 1; 1; 1]%Z) /\
    ints (Ok out) "state/which_time" [[0]] = ([1], [-1]%Z) /\
    ints (aggregate_time_tensors ex_dict) "state/is_sdc" [[0]; [1]] = ([2], [0; 1]%Z) /\
    ints (Ok out) "state/is_sdc" [[0]] = ([1], [0]%Z).
Proof.
  assert (E : exists out, preprocess_womd_example ex_dict true (Some 1%Z) = Ok out).
  { destruct (preprocess_womd_example ex_dict true (Some 1%Z)) eqn:E; [eauto|].
    exfalso. assert (V : (match preprocess_womd_example ex_dict true (Some 1%Z) with Ok _ => true | Err _ => false end) = true)
      by (vm_compute; reflexivity). rewrite E in V. discriminate. }
  destruct E as [out E]. exists out. split; [exact E|]. rewrite <- E. vm_compute. repeat split.
Qed.

(** With maximum -1 the last object goes. *)
Example C48_ex_negative :
  ints (preprocess_womd_example ex_dict true (Some (-1)%Z)) "state/is_sdc" [[0]] = ([1], [0]%Z) /\
  ints (preprocess_womd_example ex_dict true (Some (-5)%Z)) "state/is_sdc" [] = ([0], []) /\
  ints (preprocess_womd_example ex_dict true (Some (-1)%Z)) "state/which_time" [[0]; [2]] = ([3], [-1; 1]%Z).
Proof. vm_compute. repeat split. Qed.

(** Without a past part the dictionary is refused; a batch of scenarios has the
    number of objects where the number of steps is read, so which_time is wrong. *)
Example C48_ex_incomplete : aggregate_time_tensors (tl ex_dict) = Err KeyError.
Proof. vm_compute. reflexivity. Qed.

Definition batch_of (t : @tensor QS) : @tensor QS := mkT (1 :: dims t) (fun idx => cell t (tl idx)).
Theorem C48_batched_which_time_refuted :
  let batched := map (fun kv => (fst kv, batch_of (snd kv))) ex_dict in
  ints (aggregate_time_tensors batched) "state/all/valid" [] = ([1; 2; 4], []) /\
  ints (aggregate_time_tensors batched) "state/which_time" [] = ([5], []).
Proof. vm_compute. repeat split. Qed.

Print Assumptions C48_aggregate.
Print Assumptions C48_succeeds.
Print Assumptions C48_truncation.
Print Assumptions C48_yaws.
Print Assumptions C48_which_time_is_cut.
Print Assumptions C48_truncation_keeps_time_and_sdc_refuted.
Print Assumptions C48_negative_maximum.
