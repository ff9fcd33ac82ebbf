(** Model of waymax/metrics (overlap.py, imitation.py, roadgraph.py, route.py,
    metric_factory.py), of waymax/rewards/linear_combination_reward.py, and of the
    reductions of waymax/datatypes/operations.py they use.  No batch dimensions. *)
From Coq Require Import String.
From Coq Require Import List ZArith Bool.
From Verif.Lib Require Import Base JaxIndex Scalar.
From Verif.Model Require Import Operations State Dynamics Geometry Discretizer Comfort.
Import ListNotations.

Section Metrics.
  Context {S : Scalar}.
  Local Open Scope F_scope.

  (** jnp.sum over one axis (left to right; the order XLA uses is not specified). *)
  Definition fsum (l : list F) : F := fold_left fadd l f0.

  (** operations.py:213-245, select_by_onehot on a float array (N,). *)
  Definition select_by_onehot (data : list F) (selection : list bool) : res F :=
    let* _ := guard (length data =? length selection)%nat AssertionError in
    Ok (fsum (map2 (fun x (b : bool) => x * fbool b) data selection)).

  (** The same on a bool array: the sum of the products is an int, cast to bool. *)
  Definition select_by_onehot_b (data selection : list bool) : res bool :=
    let* _ := guard (length data =? length selection)%nat AssertionError in
    Ok (existsb (fun b => b) (map2 andb data selection)).

  (** jnp.linalg.norm over a trailing axis of two entries. *)
  Definition norm2 (dx dy : F) : F := fsqrt (dx * dx + dy * dy).

  (** jnp.min over non-empty axes; a reduction of nothing is an error. *)
  Definition jmin (l : list F) : res F :=
    match l with [] => Err ValueError | x :: r => Ok (fminl x r) end.

  (** overlap.py:44-68, compute_overlap of one frame. *)
  Definition compute_overlap (cur : list pt) : list mres :=
    let po := compute_pairwise_overlaps (map pt_box cur) in
    let valid := map p_valid cur in
    mapi (fun j p =>
      let num_overlap := List.length (filter (fun b => b)
            (map2 (fun row (v : bool) => nth j row false && v) po valid)) in
      mkmres (fbool (0 <? num_overlap)%nat) (p_valid p)) cur.

  (** overlap.py:31-42, OverlapMetric.compute. *)
  Definition overlap_compute (s : state) : res (list mres) :=
    let* cur := dynamic_index (s_sim s) (s_t s) in
    Ok (compute_overlap cur).

  (** imitation.py:62-80, compute_log_divergence of one object. *)
  Definition log_divergence (p l : pt) : F := norm2 (p_x p - p_x l) (p_y p - p_y l).

  (** imitation.py:31-60, LogDivergenceMetric.compute. *)
  Definition log_divergence_compute (s : state) : res (list mres) :=
    let* cur := dynamic_index (s_sim s) (s_t s) in
    let* log := dynamic_index (s_log s) (s_t s) in
    Ok (map2 (fun p l => mkmres (log_divergence p l) (p_valid p && p_valid l)) cur log).

  (* ---------------- roadgraph.py ---------------- *)

  (** datatypes/roadgraph.py:236-251, is_road_edge: ROAD_EDGE_BOUNDARY = 15,
      ROAD_EDGE_MEDIAN = 16. *)
  Definition is_road_edge (ty : Z) : bool := (ty =? 15)%Z || (ty =? 16)%Z.

  (** jnp.cross of two plane vectors. *)
  Definition cross2 (a b : vec) : F := fst a * snd b - snd a * fst b.

  (** jnp.sign. *)
  Definition fsign (x : F) : F :=
    if fltb f0 x then f1 else if fltb x f0 then fm1 else if feqb x f0 then f0 else x.

  Definition zero_rg : rgpt := mkrg f0 f0 f0 f0 f0 f0 0 0 false.

  (** roadgraph.py:186-197, squared distances with stretched z, infinite for
      points that are invalid or no road edge. *)
  Definition edge_sq_dist (q : F * F * F) (r : rgpt) : F :=
    let '(qx, qy, qz) := q in
    let dx := (rg_x r - qx) * f1 in
    let dy := (rg_y r - qy) * f1 in
    let dz := (rg_z r - qz) * f2 in
    if rg_valid r && is_road_edge (rg_type r) then dx * dx + dy * dy + dz * dz else finf.

  (** roadgraph.py:158-233, compute_signed_distance_to_nearest_road_edge_point of
      one query point. *)
  Definition signed_distance (rg : list rgpt) (q : F * F * F) : res F :=
    let* _ := guard (negb (length rg =? 0)%nat) ValueError in
    let nearest := argmin (map (edge_sq_dist q) rg) in
    let prior := (nearest - 1)%nat in
    let e := nth nearest rg zero_rg in
    let ep := nth prior rg zero_rg in
    let '(qx, qy, _) := q in
    let to_edge := (qx - rg_x e, qy - rg_y e) in
    let c := cross2 to_edge (rg_dx e, rg_dy e) in
    let cp := cross2 to_edge (rg_dx ep, rg_dy ep) in
    let sign := fsign (if (rg_id e =? rg_id ep)%Z && fltb cp c then cp else c) in
    Ok (norm2 (rg_x e - qx) (rg_y e - qy) * sign).

  (** roadgraph.py:104-155, is_offroad of one object in one frame. *)
  Definition is_offroad1 (rg : list rgpt) (p : pt) : res bool :=
    let* ds := mapM (fun c => signed_distance rg (fst c, snd c, f1 * p_z p)) (bbox_corners p) in
    Ok (existsb (fun d => fltb f0 d) ds).

  (** roadgraph.py:71-101, OffroadMetric.compute.  A missing road graph (None) is
      an attribute error in the code. *)
  Definition offroad_compute (s : state) : res (list mres) :=
    let* cur := dynamic_index (s_sim s) (s_t s) in
    match s_rg s with
    | None => Err TypeError
    | Some rg => mapM (fun p => let* b := is_offroad1 rg p in Ok (mkmres (fbool b) true)) cur
    end.

  (** Current xy of the SDC (roadgraph.py:42-56, route.py:66-80, 186-200). *)
  Definition sdc_xy (frame : list pt) (ms : list meta) : res vec :=
    let* x := select_by_onehot (map p_x frame) (map m_is_sdc ms) in
    let* y := select_by_onehot (map p_y frame) (map m_is_sdc ms) in
    Ok (x, y).
  Definition sdc_valid (frame : list pt) (ms : list meta) : res bool :=
    select_by_onehot_b (map p_valid frame) (map m_is_sdc ms).

  (** Distance from a point to a path point. *)
  Definition path_dist (xy : vec) (p : pathpt) : F := norm2 (fst xy - pp_x p) (snd xy - pp_y p).

  (** roadgraph.py:35, WRONG_WAY_THRES. *)
  Definition wrong_way_thres : F := flit 7 2.

  (** roadgraph.py:37-68, WrongWayMetric.compute. *)
  Definition wrongway_compute (s : state) : res mres :=
    let* cur := dynamic_index (s_sim s) (s_t s) in
    let* xy := sdc_xy cur (s_meta s) in
    match s_paths s with
    | None => Err TypeError
    | Some paths =>
        let dist p := if pp_valid p then path_dist xy p else finf in
        let* min_dist := jmin (flat_map (fun pa => map dist (path_pts pa)) paths) in
        let valid := fisfinite min_dist in
        let value := if fltb min_dist wrong_way_thres || negb valid then f0 else min_dist in
        Ok (mkmres value valid)
    end.

  (* ---------------- route.py ---------------- *)

  (** route.py:120-129, get_arclength_for_pts. *)
  Definition arclength_for (xy : vec) (pts : list pathpt) : F :=
    let idx := argmin (map (fun p => if pp_valid p then path_dist xy p else finf) pts) in
    pp_arc (nth idx pts (mkpp f0 f0 f0 0 false f0)).

  (** The SDC's logged position at one end of the log: index 0 or -1
      (route.py:81-90). *)
  Definition log_frame (tr : traj) (t : nat) : res (list pt) :=
    mapM (fun r => match nth_error r t with Some p => Ok p | None => Err IndexError end) tr.

  (** route.py:44-147, ProgressionMetric.compute. *)
  Definition progression_compute (s : state) : res mres :=
    match s_paths s with
    | None => Err ValueError
    | Some paths =>
        let* cur := dynamic_index (s_sim s) (s_t s) in
        let* xy := sdc_xy cur (s_meta s) in
        let* first := log_frame (s_log s) 0 in
        let* xy_start := sdc_xy first (s_meta s) in
        let* last := log_frame (s_log s) (num_timesteps (s_log s) - 1) in
        let* xy_end := sdc_xy last (s_meta s) in
        let* valid_curr := sdc_valid cur (s_meta s) in
        let dist (pa : path) (p : pathpt) :=
          if valid_curr
          then (if pp_valid p && path_on_route pa
                then norm2 (pp_x p - fst xy) (pp_y p - snd xy) else finf)
          else finf in
        let* dist_path := mapM (fun pa => jmin (map (dist pa) (path_pts pa))) paths in
        let* min_dist_path := jmin dist_path in
        let idx := argmin dist_path in
        let ref := path_pts (nth idx paths (mkpath [] false)) in
        let start_dist := arclength_for xy_start ref in
        let end_dist := arclength_for xy_end ref in
        let curr_dist := arclength_for xy ref in
        let progress := if feqb end_dist start_dist then f1
                        else (curr_dist - start_dist) / (end_dist - start_dist) in
        let valid := fisfinite min_dist_path in
        Ok (mkmres (if valid then progress else f0) valid)
    end.

  (** route.py:167-168. *)
  Definition max_distance_to_route : F := flit 5 1.
  Definition max_relative_distance : F := f2.

  (** route.py:170-258, OffRouteMetric.compute. *)
  Definition off_route_compute (s : state) : res mres :=
    match s_paths s with
    | None => Err ValueError
    | Some paths =>
        let* cur := dynamic_index (s_sim s) (s_t s) in
        let* xy := sdc_xy cur (s_meta s) in
        let* valid := sdc_valid cur (s_meta s) in
        let dist p := if valid then (if pp_valid p then path_dist xy p else finf) else finf in
        let on := flat_map (fun pa => map (fun p => if path_on_route pa then dist p else finf)
                                        (path_pts pa)) paths in
        let off := flat_map (fun pa => map (fun p => if negb (path_on_route pa) then dist p else finf)
                                         (path_pts pa)) paths in
        let* min_on := jmin on in
        let* min_off := jmin off in
        let sdc_off_route := fgtb min_on max_distance_to_route
                             || fgtb (min_on - min_off) max_relative_distance in
        let off_route := if sdc_off_route then min_on else f0 in
        let valid := fisfinite off_route in
        Ok (mkmres (if valid then off_route else f0) valid)
    end.

  (* ---------------- metric_factory.py ---------------- *)

  (** A metric result is per object (num_objects,) or a scalar () for SDC
      metrics. *)
  Inductive mval := PerObject (l : list mres) | Scalar0 (m : mres).

  (** The registry: insertion-ordered dict from names to metrics. *)
  Definition registry := list (string * (state -> res mval)).

  (** metric_factory.py:28-36, _METRICS_REGISTRY at import. *)
  Definition initial_registry : registry :=
    [ ("log_divergence"%string, fun s => let* l := log_divergence_compute s in Ok (PerObject l));
      ("overlap"%string, fun s => let* l := overlap_compute s in Ok (PerObject l));
      ("offroad"%string, fun s => let* l := offroad_compute s in Ok (PerObject l));
      ("kinematic_infeasibility"%string,
         fun s => let* l := kim_compute kim_default s in Ok (PerObject l));
      ("sdc_wrongway"%string, fun s => let* m := wrongway_compute s in Ok (Scalar0 m));
      ("sdc_progression"%string, fun s => let* m := progression_compute s in Ok (Scalar0 m));
      ("sdc_off_route"%string, fun s => let* m := off_route_compute s in Ok (Scalar0 m)) ].

  Fixpoint lookup {A} (name : string) (l : list (string * A)) : option A :=
    match l with
    | [] => None
    | (n, a) :: l' => if String.eqb name n then Some a else lookup name l'
    end.

  (** Assignment d[name] = a on an insertion-ordered dict. *)
  Fixpoint dict_set {A} (name : string) (a : A) (l : list (string * A)) : list (string * A) :=
    match l with
    | [] => [(name, a)]
    | (n, b) :: l' => if String.eqb name n then (n, a) :: l' else (n, b) :: dict_set name a l'
    end.

  (** metric_factory.py:39-65, run_metrics. *)
  Definition run_metrics (reg : registry) (s : state) (metrics_to_run : list string)
    : res (list (string * mval)) :=
    fold_left (fun acc name =>
      let* results := acc in
      match lookup name reg with
      | Some m => let* v := m s in Ok (dict_set name v results)
      | None => Err ValueError
      end) metrics_to_run (Ok []).

  (** metric_factory.py:68-80, register_metric.  The second component is the
      registry after the call, also when it raises. *)
  Definition register_metric (name : string) (m : state -> res mval) (reg : registry)
    : res unit * registry :=
    match lookup name reg with
    | Some _ => (Err ValueError, reg)
    | None => (Ok tt, dict_set name m reg)
    end.

  (** metric_factory.py:83-85, get_metric_names. *)
  Definition get_metric_names (reg : registry) : list string := map fst reg.

  (* ---------------- linear_combination_reward.py ---------------- *)

  (** array.py:64-76, masked_value with fill value 0. *)
  Definition masked_value (m : mres) : F := if mr_valid m then mr_value m else f0.

  (** linear_combination_reward.py:60-70, _validate_reward_metrics, part of the
      constructor 27-31. *)
  Definition make_linear_reward (reg : registry) (rewards : list (string * F))
    : res (list (string * F)) :=
    let* _ := guard (forallb (fun r => match lookup (fst r) reg with Some _ => true | None => false end)
                       rewards) ValueError in
    Ok rewards.

  (** One term: metric * agent_mask, broadcasting a scalar metric over objects. *)
  Definition metric_times_mask (v : mval) (mask : list F) : res (list F) :=
    match v with
    | PerObject l => bcast2 (fun m a => masked_value m * a) l mask
    | Scalar0 m => Ok (map (fun a => masked_value m * a) mask)
    end.

  (** linear_combination_reward.py:33-57, compute.  The mask is numeric here (a
      bool mask enters as 0/1). *)
  Definition linear_reward (reg : registry) (rewards : list (string * F)) (s : state)
    (mask : list F) : res (list F) :=
    let* all := run_metrics reg s (map fst rewards) in
    fold_left (fun acc r =>
      let* reward := acc in
      match lookup (fst r) all with
      | None => Err KeyError
      | Some v =>
          let* metric := metric_times_mask v mask in
          bcast2 fadd reward (map (fun m => m * snd r) metric)
      end) rewards (Ok (map (fun _ => f0) mask)).
End Metrics.
