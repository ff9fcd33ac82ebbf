(** Model of waymax/metrics and waymax/rewards/linear_combination_reward.py on states
    with batch dimensions (Model/Batch.v has the batched state, Model/Metrics.v the
    same functions for one scenario, whose scalar formulas are used here).
    Library semantics: jax.vmap applies a function to each slice of its arguments. *)
From Coq Require Import String.
From Coq Require Import List ZArith Bool.
From Verif.Lib Require Import Base JaxIndex Scalar.
From Verif.Model Require Import Operations State Dynamics Geometry Discretizer Dyn_Bicycle
  Comfort Metrics Batch.
Import ListNotations.

(* ---------------- numpy / JAX library semantics ---------------- *)

(** x[..., 0]. *)
Definition drop_last {A} (x : arr A) : arr A :=
  mkA (removelast (dims x)) (fun i => cell x (i ++ [0])).

(** x[..., jnp.newaxis, jnp.newaxis] *)
Definition newaxis2 {A} (x : arr A) : arr A := newaxis (newaxis x).

(** The entries along the last axis at the index [b] of the other axes. *)
Definition row {A} (x : arr A) (b : list nat) : list A :=
  map (fun j => cell x (b ++ [j])) (seq 0 (last (dims x) 0)).

(** Reductions over axis -1, over axis -2 and over both. *)
Definition reduce_last {A C} (f : list A -> C) (x : arr A) : arr C :=
  mkA (removelast (dims x)) (fun b => f (row x b)).
Definition reduce_2nd {A C} (f : list A -> C) (x : arr A) : arr C :=
  let n := last (removelast (dims x)) 0 in
  mkA (removelast (removelast (dims x)) ++ [last (dims x) 0])
    (fun i => f (map (fun k => cell x (removelast i ++ [k; last i 0])) (seq 0 n))).
Definition reduce_last2 {A C} (f : list A -> C) (x : arr A) : arr C :=
  let n := last (removelast (dims x)) 0 in
  mkA (removelast (removelast (dims x)))
    (fun b => f (flat_map (fun k => row x (b ++ [k])) (seq 0 n))).

Section BatchMetrics.
  Context {S : Scalar}.
  Local Open Scope F_scope.

  (** jnp.min over the last two axes; a minimum of nothing is a ValueError. *)
  Definition fmin_list (l : list F) : F :=
    match l with [] => finf | x :: r => fminl x r end.
  Definition b_min2 (x : arr F) : res (arr F) :=
    let* _ := guard (negb (last (dims x) 0 =? 0)%nat
                     && negb (last (removelast (dims x)) 0 =? 0)%nat) ValueError in
    Ok (reduce_last2 fmin_list x).

  (* ---------------- imitation.py ---------------- *)

  (** imitation.py:31-60, LogDivergenceMetric.compute. *)
  Definition b_log_divergence (s : bstate) : res (arr mres) :=
    let* cur := b_slice (b_sim s) (b_t s) 1 in
    let* log := b_slice (b_log s) (b_t s) 1 in
    let* r := amap2 (fun p l => mkmres (log_divergence p l) (p_valid p && p_valid l)) cur log in
    Ok (drop_last r).

  (* ---------------- overlap.py ---------------- *)

  (** geometry.py:303-333, compute_pairwise_overlaps: unbatched_pairwise_overlap
      mapped over all axes but the last. *)
  Definition b_pairwise_overlaps (bs : arr box) : arr bool :=
    mkA (dims bs ++ [last (dims bs) 0])
      (fun i =>
         let b := removelast (removelast i) in
         nth (last i 0) (nth (last (removelast i) 0) (compute_pairwise_overlaps (row bs b)) [])
           false).

  (** overlap.py:31-68, OverlapMetric.compute and compute_overlap. *)
  Definition b_overlap (s : bstate) : res (arr mres) :=
    let* cur := b_slice (b_sim s) (b_t s) 1 in
    let po := b_pairwise_overlaps (amap pt_box (drop_last cur)) in
    let valid := amap p_valid cur in
    let* po := amap2 andb po valid in
    let num := reduce_2nd (fun l => List.length (filter (fun b => b) l)) po in
    let v := drop_last valid in
    let* _ := guard (dims_eqb (dims num) (dims v)) AssertionError in
    amap2 (fun k b => mkmres (fbool (0 <? k)%nat) b) num v.

  (* ---------------- roadgraph.py ---------------- *)

  (** roadgraph.py:104-155, is_offroad: the signed distances are computed by a
      function mapped over the batch axes of the trajectory.  A road graph with
      further axes is not modelled (an error here). *)
  Definition b_is_offroad (cur : arr pt) (rg : arr rgpt) : res (arr bool) :=
    let prefix := removelast (removelast (dims cur)) in
    let* _ := guard (vmappable prefix (dims rg)) ValueError in
    let* _ := guard (length (dims rg) =? length prefix + 1)%nat TypeError in
    let* _ := guard (negb (last (dims rg) 0 =? 0)%nat) ValueError in
    Ok (mkA (removelast (dims cur))
          (fun i => match is_offroad1 (row rg (removelast i)) (cell cur (i ++ [0])) with
                    | Ok b => b
                    | Err _ => false
                    end)).

  (** roadgraph.py:71-101, OffroadMetric.compute. *)
  Definition b_offroad (s : bstate) : res (arr mres) :=
    let* cur := b_slice (b_sim s) (b_t s) 1 in
    match b_rg s with
    | None => Err TypeError
    | Some rg =>
        let* off := b_is_offroad cur rg in
        Ok (amap (fun b => mkmres (fbool b) true) off)
    end.

  (* ---------------- comfort.py ---------------- *)

  (** bicycle_model.py:46-112, compute_inverse: it slices with
      jax.lax.dynamic_slice_in_dim, which wants one scalar start index, and not with
      operations.dynamic_slice, which maps over an array of them. *)
  Definition b_compute_inverse (tr : arr pt) (timestep : arr Z) (dt : F) (est : bool)
    : res (arr act) :=
    let* _ := guard (length (dims timestep) =? 0)%nat TypeError in
    let* sl := b_slice tr timestep 2 in
    Ok (mkA (removelast (dims sl))
          (fun i => let '(a, st, v) := bicycle_inverse1 dt est (cell sl (i ++ [0]))
                                         (cell sl (i ++ [1%nat])) in
                    mkact [a; st] v)).

  (** comfort.py:54-112, KinematicsInfeasibilityMetric.compute. *)
  Definition b_kim (k : kim_params) (s : bstate) : res (arr mres) :=
    let* acts := b_compute_inverse (b_sim s) (amap (fun t => t - 1)%Z (b_t s)) (km_dt k) true in
    Ok (amap (kim1 k) acts).

  (* ---------------- SDC metrics ---------------- *)

  (** operations.py:213-245, select_by_onehot along the last axis. *)
  Definition b_onehot (x : arr F) (sel : arr bool) : res (arr F) :=
    let* _ := guard (dims_eqb (dims x) (dims sel)) AssertionError in
    let* p := amap2 (fun x (b : bool) => x * fbool b) x sel in
    Ok (reduce_last fsum p).
  Definition b_onehot_b (x : arr bool) (sel : arr bool) : res (arr bool) :=
    let* _ := guard (dims_eqb (dims x) (dims sel)) AssertionError in
    let* p := amap2 andb x sel in
    Ok (reduce_last (existsb (fun b => b)) p).

  (** xy of the SDC in a frame (..., num_objects). *)
  Definition b_sdc_xy (frame : arr pt) (ms : arr meta) : res (arr vec) :=
    let* x := b_onehot (amap p_x frame) (amap m_is_sdc ms) in
    let* y := b_onehot (amap p_y frame) (amap m_is_sdc ms) in
    amap2 pair x y.
  Definition b_sdc_valid (frame : arr pt) (ms : arr meta) : res (arr bool) :=
    b_onehot_b (amap p_valid frame) (amap m_is_sdc ms).

  (** roadgraph.py:37-68, WrongWayMetric.compute. *)
  Definition b_wrongway (s : bstate) : res (arr mres) :=
    let* cur := b_slice (b_sim s) (b_t s) 1 in
    let* xy := b_sdc_xy (drop_last cur) (b_meta s) in
    match b_paths s with
    | None => Err TypeError
    | Some (pts, _) =>
        let* dist := amap2 (fun xy p => if pp_valid p then path_dist xy p else finf)
                       (newaxis2 xy) pts in
        let* min_dist := b_min2 dist in
        Ok (amap (fun d =>
               let valid := fisfinite d in
               mkmres (if fltb d wrong_way_thres || negb valid then f0 else d) valid) min_dist)
    end.

  (** route.py:170-258, OffRouteMetric.compute.  on_route is (..., num_paths, 1). *)
  Definition b_off_route (s : bstate) : res (arr mres) :=
    match b_paths s with
    | None => Err ValueError
    | Some (pts, on_route) =>
        let* cur := b_slice (b_sim s) (b_t s) 1 in
        let* xy := b_sdc_xy (drop_last cur) (b_meta s) in
        let* valid := b_sdc_valid (drop_last cur) (b_meta s) in
        let* d := amap2 path_dist (newaxis2 xy) pts in
        let* d := amap2 (fun p d => if pp_valid p then d else finf) pts d in
        let* d := amap2 (fun (v : bool) d => if v then d else finf) (newaxis2 valid) d in
        let* on := amap2 (fun (r : bool) d => if r then d else finf) (newaxis on_route) d in
        let* off := amap2 (fun (r : bool) d => if negb r then d else finf) (newaxis on_route) d in
        let* min_on := b_min2 on in
        let* min_off := b_min2 off in
        amap2 (fun a b =>
          let sdc_off_route := fgtb a max_distance_to_route
                               || fgtb (a - b) max_relative_distance in
          let off_route := if sdc_off_route then a else f0 in
          let valid := fisfinite off_route in
          mkmres (if valid then off_route else f0) valid) min_on min_off
    end.

  (** route.py:120-129, get_arclength_for_pts of points (...) and paths
      (..., num_points). *)
  Definition b_arclength_for (xy : arr vec) (path : arr pathpt) : res (arr F) :=
    let* d := amap2 (fun xy p => if pp_valid p then path_dist xy p else finf) (newaxis xy) path in
    let idx := reduce_last argmin d in
    Ok (mkA (dims idx)
          (fun b => pp_arc (nth (cell idx b) (row path b) (mkpp f0 f0 f0 0 false f0)))).

  (** route.py:44-147, ProgressionMetric.compute.  Simplification: the minimum over
      both axes is taken path by path. *)
  Definition b_progression (s : bstate) : res (arr mres) :=
    match b_paths s with
    | None => Err ValueError
    | Some (pts, on_route) =>
        let* cur := b_slice (b_sim s) (b_t s) 1 in
        let* xy := b_sdc_xy (drop_last cur) (b_meta s) in
        let T := b_num_timesteps (b_log s) in
        let* _ := guard (negb (T =? 0)%nat) IndexError in
        let at_end k := mkA (removelast (dims (b_log s))) (fun i => cell (b_log s) (i ++ [k])) in
        let* xy_start := b_sdc_xy (at_end 0%nat) (b_meta s) in
        let* xy_end := b_sdc_xy (at_end (T - 1)%nat) (b_meta s) in
        let* valid_curr := b_sdc_valid (drop_last cur) (b_meta s) in
        let* d := amap2 (fun p xy => norm2 (pp_x p - fst xy) (pp_y p - snd xy)) pts (newaxis2 xy) in
        let* ok := amap2 andb (amap pp_valid pts) (newaxis on_route) in
        let* d := amap2 (fun (v : bool) d => if v then d else finf) ok d in
        let* d := amap2 (fun (v : bool) d => if v then d else finf) (newaxis2 valid_curr) d in
        let* _ := b_min2 d in
        let dist_path := reduce_last fmin_list d in
        let min_dist_path := reduce_last fmin_list dist_path in
        let idx := reduce_last argmin dist_path in
        let ref := mkA (dims idx ++ [last (dims pts) 0])
                     (fun i => cell pts (removelast i ++ [cell idx (removelast i); last i 0%nat])) in
        let* start_dist := b_arclength_for xy_start ref in
        let* end_dist := b_arclength_for xy_end ref in
        let* curr_dist := b_arclength_for xy ref in
        let* num := amap2 fsub curr_dist start_dist in
        let* ends := amap2 pair start_dist end_dist in
        let* progress := amap2 (fun se n =>
             if feqb (snd se) (fst se) then f1 else n / (snd se - fst se)) ends num in
        amap2 (fun m p => let valid := fisfinite m in mkmres (if valid then p else f0) valid)
          min_dist_path progress
    end.

  (* ---------------- metric_factory.py ---------------- *)

  Definition b_registry := list (string * (bstate -> res (arr mres))).

  (** metric_factory.py:28-36, _METRICS_REGISTRY at import. *)
  Definition b_initial_registry : b_registry :=
    [ ("log_divergence"%string, b_log_divergence);
      ("overlap"%string, b_overlap);
      ("offroad"%string, b_offroad);
      ("kinematic_infeasibility"%string, b_kim kim_default);
      ("sdc_wrongway"%string, b_wrongway);
      ("sdc_progression"%string, b_progression);
      ("sdc_off_route"%string, b_off_route) ].

  (** metric_factory.py:39-65, run_metrics. *)
  Definition b_run_metrics (reg : b_registry) (s : bstate) (metrics_to_run : list string)
    : res (list (string * arr mres)) :=
    fold_left (fun acc name =>
      let* results := acc in
      match lookup name reg with
      | Some m => let* v := m s in Ok (dict_set name v results)
      | None => Err ValueError
      end) metrics_to_run (Ok []).

  (* ---------------- linear_combination_reward.py ---------------- *)

  (** linear_combination_reward.py:33-57, compute. *)
  Definition b_linear_reward (reg : b_registry) (rewards : list (string * F)) (s : bstate)
    (mask : arr F) : res (arr F) :=
    let* all := b_run_metrics reg s (map fst rewards) in
    fold_left (fun acc r =>
      let* reward := acc in
      match lookup (fst r) all with
      | None => Err KeyError
      | Some v =>
          let* metric := amap2 fmul (amap masked_value v) mask in
          amap2 fadd reward (amap (fun m => m * snd r) metric)
      end) rewards (Ok (amap (fun _ => f0) mask)).
End BatchMetrics.
