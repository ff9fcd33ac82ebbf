(** Model of waymax/visualization: what is drawn, where and in which colour.  A
    picture is the list of marks in drawing order and the axis limits; the
    rasterisation by matplotlib (utils.py:82-100) is not modelled, nor are marker
    sizes, transparency, z-order and labels of the legend. *)
From Coq Require Import String.
From Coq Require Import List ZArith QArith Bool.
From Verif.Lib Require Import Base JaxIndex Scalar.
From Verif.Model Require Import Operations State Geometry Discretizer Comfort Metrics Pose
  Observation Batch BatchMetrics.
Import ListNotations.

Definition rgb := (Q * Q * Q)%type.

(** color.py:58-64, COLOR_DICT. *)
Definition context_color : rgb := (6 # 10, 6 # 10, 6 # 10)%Q.
Definition controlled_color : rgb := (0, 6 # 10, 8 # 10)%Q.
Definition history_color : rgb := (8 # 10, 8 # 10, 8 # 10)%Q.
Definition overlap_color : rgb := (1, 0, 0)%Q.

(** color.py:22-35, TRAFFIC_LIGHT_COLORS; a missing key is a KeyError. *)
Definition light_colors : list (Z * rgb) :=
  [ (0%Z, (75 # 100, 75 # 100, 75 # 100)%Q);
    (1%Z, (1, 0, 0)%Q); (2%Z, (1, 1, 0)%Q); (3%Z, (0, 1, 0)%Q);
    (4%Z, (1, 0, 0)%Q); (5%Z, (1, 1, 0)%Q); (6%Z, (0, 1, 0)%Q);
    (7%Z, (1, 1, 0)%Q); (8%Z, (1, 1, 0)%Q) ].
Definition key_lookup {A} (k : Z) (l : list (Z * A)) : option A :=
  option_map snd (find (fun p => (fst p =? k)%Z) l).

(** color.py:37-55, ROAD_GRAPH_COLORS. *)
Definition grey (n : Z) : rgb := (Qmake n 255, Qmake n 255, Qmake n 255).
Definition road_colors : list (Z * rgb) :=
  [ (1%Z, grey 230); (2%Z, grey 230); (3%Z, grey 230);
    (6%Z, (140 # 255, 230 # 255, 1)%Q); (7%Z, (89 # 255, 219 # 255, 1)%Q);
    (8%Z, (89 # 255, 219 # 255, 1)%Q); (9%Z, (241 # 255, 153 # 255, 1)%Q);
    (10%Z, (241 # 255, 153 # 255, 1)%Q); (11%Z, grey 120); (12%Z, grey 120); (13%Z, grey 120);
    (15%Z, grey 80); (16%Z, grey 80); (17%Z, (1, 0, 0)%Q); (18%Z, grey 200); (19%Z, grey 200) ].

(** viz.py:32-33, _RoadGraphShown and _RoadGraphDefaultColor. *)
Definition road_shown : list Z := [1; 2; 3; 15; 16; 17; 18; 19]%Z.
Definition road_default : rgb := (9 # 10, 9 # 10, 9 # 10)%Q.
Definition road_color (ty : Z) : rgb :=
  match key_lookup ty road_colors with Some c => c | None => road_default end.

(** np.unique of a list of integers. *)
Fixpoint insert_unique (z : Z) (l : list Z) : list Z :=
  match l with
  | [] => [z]
  | y :: r => if (z <? y)%Z then z :: l else if (z =? y)%Z then l else y :: insert_unique z r
  end.
Definition unique (l : list Z) : list Z := fold_right insert_unique [] l.

(** Indexing the first axis of an array that has one (viz.py:98-107,
    _index_pytree at one leaf).  An index outside is an IndexError here, as for
    numpy; jax arrays clamp it instead, and no theorem uses one. *)
Definition index_leaf {A} (x : arr A) (k : nat) : res (arr A) :=
  match dims x with
  | [] => Ok x
  | d :: ds => if (k <? d)%nat then Ok (mkA ds (fun i => cell x (k :: i))) else Err IndexError
  end.
(** The rows of an array of rank 2. *)
Definition rows {A} (x : arr A) : list (list A) :=
  map (fun i => row x [i]) (seq 0 (hd 0%nat (dims x))).

Section Viz.
  Context {S : Scalar}.
  Local Open Scope F_scope.

  (** The things drawn on the axes. *)
  Inductive mark :=
  | Outline (pts : list vec) (c : rgb)
  | Arrow (pts : list vec) (c : rgb)
  | Dot (p : vec) (c : rgb)
  | Label (p : vec) (id : nat)
  | RoadDot (p : vec) (c : rgb)
  | LightDot (p : vec) (c : rgb)
  | PathDot (p : vec) (on_route : bool)
  | MetricText (p : vec) (name : string) (value : F).

  (** utils.py:32-43, VizConfig (px_per_meter scales the raster; verbose is not
      read). *)
  Record viz_config := mkviz {
    vz_front_x : F; vz_back_x : F; vz_front_y : F; vz_back_y : F;
    vz_show_agent_id : bool; vz_center_agent_idx : Z }.

  (** The axis limits (x_min, x_max, y_min, y_max). *)
  Record limits := mklim { lim_x0 : F; lim_x1 : F; lim_y0 : F; lim_y1 : F }.
  Record picture := mkpic { pic_marks : list mark; pic_limits : limits }.

  (** utils.py:153-170, the corners and the heading arrow of one box. *)
  Definition box_outline (b : box) : list vec :=
    let c := fcos (b_yaw b) in
    let s := fsin (b_yaw b) in
    let l := b_len b / f2 in
    let w := b_wid b / f2 in
    let tl := (b_x b + l * c - w * s, b_y b + l * s - w * (- c)) in
    let tr := (b_x b + l * c + w * s, b_y b + l * s + w * (- c)) in
    let br := (b_x b - l * c + w * s, b_y b - l * s + w * (- c)) in
    let bl := (b_x b - l * c - w * s, b_y b - l * s - w * (- c)) in
    [tl; tr; br; bl; tl].
  Definition box_arrow (b : box) : list vec :=
    let c := fcos (b_yaw b) in
    let s := fsin (b_yaw b) in
    let l := b_len b / f2 in
    let w := b_wid b / f2 in
    let cl := (b_x b - w * s, b_y b - w * (- c)) in
    let cr := (b_x b + w * s, b_y b + w * (- c)) in
    let cf := (b_x b + l * c, b_y b + l * s) in
    [cl; cr; cf; cl].

  (** utils.py:115-190, plot_numpy_bounding_boxes. *)
  Definition plot_boxes (bs : list box) (c : rgb) (as_center_pts : bool) : list mark :=
    if as_center_pts then map (fun b => Dot (b_x b, b_y b) c) bs
    else map (fun b => Outline (box_outline b) c) bs ++ map (fun b => Arrow (box_arrow b) c) bs.

  (** All entries of a trajectory with object and step, in row-major order (the
      order of numpy's boolean indexing). *)
  Definition entries (tr : traj) : list (nat * nat * pt) :=
    concat (mapi (fun i r => mapi (fun t p => (i, t, p)) r) tr).

  (** viz.py:55-56: boxes of other steps are shrunk to a tenth. *)
  Definition box_at (now t : nat) (p : pt) : box :=
    let b := pt_box p in
    if (t =? now)%nat then b
    else mkbox (b_x b) (b_y b) (b_len b / flit 10 1) (b_wid b / flit 10 1) (b_yaw b).

  (** viz.py:36-95, _plot_bounding_boxes at an existing step [now]. *)
  Definition plot_bounding_boxes (tr : traj) (now : nat) (is_controlled : list bool) : list mark :=
    let valid := filter (fun e => p_valid (snd e)) (entries tr) in
    let boxes sel := map (fun e => box_at now (snd (fst e)) (snd e)) (filter sel valid) in
    let ctl (e : nat * nat * pt) := nth (fst (fst e)) is_controlled false in
    let future (e : nat * nat * pt) := (now <=? snd (fst e))%nat in
    let cur := flat_map (fun r => match nth_error r now with Some p => [p] | None => [] end) tr in
    let po := compute_pairwise_overlaps (map pt_box cur) in
    let overlap := mapi (fun i p =>
        (p, existsb (fun b => b) (map2 andb (map p_valid cur) (nth i po [])))) cur in
    plot_boxes (boxes (fun e => future e && ctl e)) controlled_color false
    ++ plot_boxes (boxes (fun e => negb (future e))) history_color true
    ++ plot_boxes (boxes (fun e => future e && negb (ctl e))) context_color false
    ++ plot_boxes (map (fun q => pt_box (fst q))
                     (filter (fun q => snd q && p_valid (fst q)) overlap)) overlap_color false.

  (** viz.py:110-169, plot_trajectory.  time_idx = None compares integers with None
      (viz.py:59), a TypeError.  Simplifications: negative steps other than -1 are
      an IndexError here; a mask of another length is a ValueError (no broadcast of
      a single entry). *)
  Definition plot_trajectory (tr : traj) (is_controlled : list bool) (time_idx : option Z)
    (show_ids : bool) : res (list mark) :=
    match time_idx with
    | None => Err TypeError
    | Some t =>
        let T := num_timesteps tr in
        let t := if (t =? -1)%Z then (Z.of_nat T - 1)%Z else t in
        let* _ := guard (t <? Z.of_nat T)%Z ValueError in
        let* _ := guard (0 <=? t)%Z IndexError in
        let now := Z.to_nat t in
        let labels :=
          if show_ids then
            flat_map (fun e => if p_valid (snd e) && (snd (fst e) =? now)%nat
                               then [Label (p_x (snd e) - f2, p_y (snd e) + f2) (fst (fst e))]
                               else []) (entries tr)
          else [] in
        let* _ := guard (length is_controlled =? length tr)%nat ValueError in
        Ok (labels ++ plot_bounding_boxes tr now is_controlled)
    end.

  (** viz.py:172-197, plot_roadgraph_points. *)
  Definition plot_roadgraph_points (rg : list rgpt) : list mark :=
    let v := filter rg_valid rg in
    flat_map (fun ty =>
      if existsb (Z.eqb ty) road_shown then
        map (fun p => RoadDot (rg_x p, rg_y p) (road_color ty))
          (filter (fun p => (rg_type p =? ty)%Z) v)
      else []) (unique (map rg_type v)).

  (** viz.py:200-228, plot_traffic_light_signals_as_points.  The step wraps around
      once when negative; a step outside is an IndexError here. *)
  Definition plot_traffic_lights (tls : list (list tlight)) (timestep : Z) : res (list mark) :=
    let* cur := mapM (fun r : list tlight =>
        let k := if (timestep <? 0)%Z then (timestep + Z.of_nat (length r))%Z else timestep in
        let* _ := guard ((0 <=? k) && (k <? Z.of_nat (length r)))%Z IndexError in
        match nth_error r (Z.to_nat k) with Some l => Ok l | None => Err IndexError end) tls in
    mapM (fun l => match key_lookup (tl_state l) light_colors with
                   | Some c => Ok (LightDot (tl_x l, tl_y l) c)
                   | None => Err KeyError
                   end) (filter tl_valid cur).

  (** viz.py:231-242, _plot_path_points. *)
  Definition plot_path_points (paths : list path) : res (list mark) :=
    let* l := mapM (fun pa =>
        match path_pts pa with
        | [] => Err IndexError
        | p0 :: _ =>
            Ok (if pp_valid p0
                then map (fun p => PathDot (pp_x p, pp_y p) (path_on_route pa))
                       (filter pp_valid (path_pts pa))
                else [])
        end) paths in
    Ok (concat l).

  (** viz.py:296-309 (and 371-384, 447-460): the axis limits.  [xy] is a vector when
      an agent is selected by index, and the second index of [xy[0, :2]] fails. *)
  Definition center_limits (cur : list pt) (ms : list meta) (cfg : viz_config) : res limits :=
    if (vz_center_agent_idx cfg =? -1)%Z then
      match filter (fun q => m_is_sdc (snd q)) (combine cur ms) with
      | [] => Err IndexError
      | (p, _) :: _ =>
          Ok (mklim (p_x p - vz_back_x cfg) (p_x p + vz_front_x cfg)
                    (p_y p - vz_back_y cfg) (p_y p + vz_front_y cfg))
      end
    else Err IndexError.

  (** The frame of the current step; [timestep] -1 is the last one. *)
  Definition current_frame (tr : traj) (t : Z) : res (list pt) :=
    mapM (fun r : list pt =>
        let k := if (t <? 0)%Z then (t + Z.of_nat (length r))%Z else t in
        let* _ := guard ((0 <=? k) && (k <? Z.of_nat (length r)))%Z IndexError in
        match nth_error r (Z.to_nat k) with Some p => Ok p | None => Err IndexError end) tr.

  (** viz.py:274-311, the body of plot_simulator_state for one scenario. *)
  Definition plot_scene (s : state) (use_log_traj : bool) (cfg : viz_config)
    (highlight : objtype) : res picture :=
    let tr := if use_log_traj then s_log s else s_sim s in
    let* ctl := get_control_mask (s_meta s) highlight in
    let* boxes := plot_trajectory tr ctl (Some (s_t s)) (vz_show_agent_id cfg) in
    let* rg := match s_rg s with Some rg => Ok rg | None => Err AttributeError end in
    let* lights := plot_traffic_lights (s_tls s) (s_t s) in
    let* cur := current_frame tr (s_t s) in
    let* lim := center_limits cur (s_meta s) cfg in
    Ok (mkpic (boxes ++ plot_roadgraph_points rg ++ lights) lim).

  (** Selecting one example of a batch, and the state of rank 0 as a scenario. *)
  Definition index_state (s : bstate) (k : nat) : res bstate :=
    let* sim := index_leaf (b_sim s) k in
    let* log := index_leaf (b_log s) k in
    let* tls := index_leaf (b_tls s) k in
    let* ms := index_leaf (b_meta s) k in
    let* t := index_leaf (b_t s) k in
    let* paths := match b_paths s with
                  | None => Ok None
                  | Some (pts, on) => let* p := index_leaf pts k in
                                      let* o := index_leaf on k in Ok (Some (p, o))
                  end in
    let* rg := match b_rg s with
               | None => Ok None
               | Some r => let* r := index_leaf r k in Ok (Some r)
               end in
    Ok (mkbs sim log tls ms t paths rg).
  Definition as_scene (s : bstate) : state :=
    mkstate (rows (b_sim s)) (rows (b_log s)) (rows (b_tls s)) (row (b_meta s) [])
      (cell (b_t s) [])
      (option_map (fun q => map (fun x => mkpath (fst x) (snd x))
                              (combine (rows (fst q)) (row (snd q) []))) (b_paths s))
      (option_map (fun r => row r []) (b_rg s)).

  (** viz.py:245-273, plot_simulator_state (and 413-422). *)
  Definition select_scene (s : bstate) (batch_idx : Z) : res bstate :=
    let* s := if (-1 <? batch_idx)%Z then
                let* _ := guard (length (b_shape s) =? 1)%nat ValueError in
                index_state s (Z.to_nat batch_idx)
              else Ok s in
    let* _ := guard (length (b_shape s) =? 0)%nat ValueError in
    Ok s.
  Definition plot_simulator_state (s : bstate) (use_log_traj : bool) (cfg : viz_config)
    (batch_idx : Z) (highlight : objtype) : res picture :=
    let* s := select_scene s batch_idx in
    plot_scene (as_scene s) use_log_traj cfg highlight.

  (** viz.py:314-386, plot_observation without batch dimension: with a batch index
      the rank check fails. *)
  Definition plot_observation (o : observation) (obj_idx : nat) (cfg : viz_config)
    (batch_idx : Z) (highlight : objtype) : res picture :=
    let* _ := guard (batch_idx <=? -1)%Z ValueError in
    let* v := match nth_error o obj_idx with Some v => Ok v | None => Err IndexError end in
    let tr := v_traj v in
    let t := (Z.of_nat (num_timesteps tr) - 1)%Z in
    let* ctl := get_control_mask (v_meta v) highlight in
    let* boxes := plot_trajectory tr ctl (Some t) (vz_show_agent_id cfg) in
    let* lights := plot_traffic_lights (v_tls v) t in
    let* cur := current_frame tr t in
    let* lim := center_limits cur (v_meta v) cfg in
    Ok (mkpic (boxes ++ plot_roadgraph_points (v_rg v) ++ lights) lim).

  (** viz.py:389-473, plot_single_agent_brax_timestep for one scenario. *)
  Definition plot_brax_scene (s : state) (metrics : list (string * mres)) (use_log_traj : bool)
    (cfg : viz_config) : res picture :=
    let tr := if use_log_traj then s_log s else s_sim s in
    let* boxes := plot_trajectory tr (map m_is_sdc (s_meta s)) (Some (s_t s))
                    (vz_show_agent_id cfg) in
    let* rg := match s_rg s with Some rg => Ok rg | None => Err AttributeError end in
    let* lights := plot_traffic_lights (s_tls s) (s_t s) in
    let* paths := match s_paths s with Some p => Ok p | None => Err AttributeError end in
    let* dots := plot_path_points paths in
    let* cur := current_frame tr (s_t s) in
    let* lim := center_limits cur (s_meta s) cfg in
    let at_ := (lim_x0 lim, lim_y0 lim + flit 10 1) in
    let texts := flat_map (fun m => if mr_valid (snd m)
                                    then [MetricText at_ (fst m) (mr_value (snd m))] else [])
                   metrics in
    Ok (mkpic (boxes ++ plot_roadgraph_points rg ++ lights ++ dots ++ texts) lim).
End Viz.
