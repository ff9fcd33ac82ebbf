(** Model of waymax/dataloader/womd_factories.py and of the export in
    womd_utils.py:378-572.  Simplifications: no batch dimensions; int32/int64 are
    unbounded integers; float32 is the scalar type. *)
From Coq Require Import String.
From Coq Require Import List ZArith Bool Arith.
From Verif.Lib Require Import Base JaxIndex Scalar.
From Verif.Model Require Import Operations State Metrics Masked Womd.
Import ListNotations.
Local Open Scope nat_scope.

Section WomdState.
  Context {S : Scalar}.

  (** jnp.asarray(x, dtype) on one entry. *)
  Definition as_f (v : val) : F := match v with VF x => x | VI z => fofZ z | VB b => fbool b end.
  Definition as_i (v : val) : Z := match v with VF x => ftrunc x | VI z => z | VB b => Z.b2z b end.
  Definition as_b (v : val) : bool :=
    match v with VF x => negb (feqb x f0) | VI z => negb (z =? 0)%Z | VB b => b end.
  (** x == z for a Python integer z. *)
  Definition is_int (z : Z) (v : val) : bool :=
    match v with VF x => feqb x (flit z 1) | VI y => (y =? z)%Z | VB b => (Z.b2z b =? z)%Z end.

  Fixpoint eq_dims (a b : list nat) : bool :=
    match a, b with
    | [], [] => true
    | x :: a', y :: b' => (x =? y) && eq_dims a' b'
    | _, _ => false
    end.
  (** chex.assert_equal_shape *)
  Definition same_shape (ds : list nat) (ts : list tensor) : bool :=
    forallb (fun t => eq_dims (dims t) ds) ts.

  (** Arrays as lists. *)
  Definition tab {A} (n : nat) (f : nat -> A) : list A := map f (seq 0 n).
  Definition tab2 {A} (n m : nat) (f : nat -> nat -> A) : list (list A) :=
    tab n (fun i => tab m (f i)).

  (** womd_factories.py:28-60, object_metadata_from_womd_dict. *)
  Definition object_metadata_from_womd_dict (d : dict) : res (list meta) :=
    let* tracks := getk d "state/tracks_to_predict" in
    let* sdc := getk d "state/is_sdc" in
    let* interest := getk d "state/objects_of_interest" in
    let* ids := getk d "state/id" in
    let* types := getk d "state/type" in
    match dims tracks with
    | [n] =>
        let* _ := guard (same_shape [n] [sdc; interest; ids; types]) AssertionError in
        Ok (tab n (fun i =>
              mkmeta (as_i (cell ids [i])) (as_i (cell types [i]))
                (is_int 1 (cell sdc [i])) (is_int 1 (cell tracks [i]))
                (negb (is_int (-1) (cell tracks [i]))) (is_int 1 (cell interest [i])) false))
    | _ => Err AssertionError
    end.

  (** womd_factories.py:63-97, roadgraph_from_womd_dict with its default prefix.
      Simplification: xyz and dir have exactly 3 coordinates, and type, id and valid a
      singleton last axis, as documented; longer last axes would be cut. *)
  Definition roadgraph_from_womd_dict (d : dict) : res (list rgpt) :=
    let* xyz := getk d "roadgraph_samples/xyz" in
    let* dir := getk d "roadgraph_samples/dir" in
    let* types := getk d "roadgraph_samples/type" in
    let* ids := getk d "roadgraph_samples/id" in
    let* valids := getk d "roadgraph_samples/valid" in
    match dims xyz with
    | [n; 3] =>
        let* _ := guard (same_shape [n; 3] [dir] && same_shape [n; 1] [types; ids; valids]) AssertionError in
        Ok (tab n (fun i =>
              mkrg (as_f (cell xyz [i; 0])) (as_f (cell xyz [i; 1])) (as_f (cell xyz [i; 2]))
                (as_f (cell dir [i; 0])) (as_f (cell dir [i; 1])) (as_f (cell dir [i; 2]))
                (as_i (cell types [i; 0])) (as_i (cell ids [i; 0])) (as_b (cell valids [i; 0]))))
    | _ => Err AssertionError
    end.

  (** womd_factories.py:100-132, paths_from_womd_dict with its default prefix.
      Simplification: at least one point per path (route.py:89 compares on_route with
      the first point). *)
  Definition paths_from_womd_dict (d : dict) : res (list path) :=
    let* xyz := getk d "path_samples/xyz" in
    let* ids := getk d "path_samples/id" in
    let* valids := getk d "path_samples/valid" in
    let* arc := getk d "path_samples/arc_length" in
    let* on_route := getk d "path_samples/on_route" in
    match dims xyz with
    | [n; k; 3] =>
        let* _ := guard (same_shape [n; k] [ids; valids; arc] && same_shape [n; 1] [on_route]) AssertionError in
        Ok (tab n (fun i =>
              mkpath (tab k (fun j =>
                mkpp (as_f (cell xyz [i; j; 0])) (as_f (cell xyz [i; j; 1])) (as_f (cell xyz [i; j; 2]))
                  (as_i (cell ids [i; j])) (as_b (cell valids [i; j])) (as_f (cell arc [i; j]))))
                (as_b (cell on_route [i; 0]))))
    | _ => Err AssertionError
    end.

  Definition entry (m : list (list F)) (i t : nat) : F := nth t (nth i m []) f0.

  (** womd_factories.py:208-250, trajectory_from_womd_dict. *)
  Definition trajectory_from_womd_dict (d : dict) (time_key : string) : res traj :=
    let key f := ("state/" ++ time_key ++ "/" ++ f)%string in
    let* valid := getk d (key "valid"%string) in
    let* length := getk d (key "length"%string) in
    let* width := getk d (key "width"%string) in
    let* height := getk d (key "height"%string) in
    let* x := getk d (key "x"%string) in
    let* y := getk d (key "y"%string) in
    let* z := getk d (key "z"%string) in
    let* vel_x := getk d (key "velocity_x"%string) in
    let* vel_y := getk d (key "velocity_y"%string) in
    let* yaw := getk d (key "bbox_yaw"%string) in
    let* ts := getk d (key "timestamp_micros"%string) in
    match dims valid with
    | [n; T] =>
        let* _ := guard (same_shape [n; T] [length; width; height; x; y; z; vel_x; vel_y; yaw; ts]) AssertionError in
        let vm := tab2 n T (fun i t => as_b (cell valid [i; t])) in
        let* len := masked_mean_last (tab2 n T (fun i t => as_f (cell length [i; t]))) vm fm1 in
        let* wid := masked_mean_last (tab2 n T (fun i t => as_f (cell width [i; t]))) vm fm1 in
        let* hei := masked_mean_last (tab2 n T (fun i t => as_f (cell height [i; t]))) vm fm1 in
        Ok (tab2 n T (fun i t =>
              mkpt (as_f (cell x [i; t])) (as_f (cell y [i; t])) (as_f (cell z [i; t]))
                (as_f (cell vel_x [i; t])) (as_f (cell vel_y [i; t])) (as_f (cell yaw [i; t]))
                (as_b (cell valid [i; t])) (as_i (cell ts [i; t]))
                (entry len i t) (entry wid i t) (entry hei i t)))
    | _ => Err AssertionError
    end.

  Definition time_keys : list string := ["past"; "current"; "future"; "all"]%string.

  (** womd_factories.py:253-294, traffic_lights_from_womd_dict. *)
  Definition traffic_lights_from_womd_dict (d : dict) (time_key : string) : res (list (list tlight)) :=
    let* _ := guard (existsb (String.eqb time_key) time_keys) ValueError in
    let key f := ("traffic_light_state/" ++ time_key ++ "/" ++ f)%string in
    let* x := getk d (key "x"%string) in
    let* y := getk d (key "y"%string) in
    let* z := getk d (key "z"%string) in
    let* st := getk d (key "state"%string) in
    let* ids := getk d (key "id"%string) in
    let* valid := getk d (key "valid"%string) in
    match dims x with
    | [T; L] =>
        let* _ := guard (same_shape [T; L] [y; z; st; ids; valid]) AssertionError in
        Ok (tab2 L T (fun l t =>
              mktl (as_f (cell x [t; l])) (as_f (cell y [t; l])) (as_f (cell z [t; l]))
                (as_i (cell st [t; l])) (as_i (cell ids [t; l])) (as_b (cell valid [t; l]))))
    | _ => Err AssertionError
    end.

  (** womd_factories.py:135-205, simulator_state_from_womd_dict.  Without batch
      dimensions SimulatorState.validate (simulator_state.py:118-129) compares shape
      prefixes of length 0: it checks nothing. *)
  Definition simulator_state_from_womd_dict (d : dict) (include_sdc_paths : bool)
    (time_key : string) : res state :=
    let* _ := guard (existsb (String.eqb time_key) time_keys) ValueError in
    let* rg := roadgraph_from_womd_dict d in
    let* paths := if include_sdc_paths then rmap Some (paths_from_womd_dict d) else Ok None in
    let* tls := traffic_lights_from_womd_dict d time_key in
    let* ms := object_metadata_from_womd_dict d in
    let* log := trajectory_from_womd_dict d time_key in
    let* sim := update_by_slice_in_dim (map (map (fun _ => zero_pt)) log) log 0 None (Some 1) in
    Ok (mkstate sim log tls ms 0 paths (Some rg)).

  (** ** Export *)

  (** tf.io.FixedLenFeature: shape and dtype. *)
  Inductive dtype := DInt | DFloat | DBool.
  Record feature := mkfeat { ft_shape : list nat; ft_dtype : dtype }.
  Definition features := list (string * feature).
  Fixpoint getf (fd : features) (k : string) : res feature :=
    match fd with
    | [] => Err KeyError
    | (k', v) :: fd' => if String.eqb k k' then Ok v else getf fd' k
    end.

  (** x.astype(dtype) *)
  Definition cast (dt : dtype) (v : val) : val :=
    match dt with DInt => VI (as_i v) | DFloat => VF (as_f v) | DBool => VB (as_b v) end.

  (** jnp.reshape, row-major. *)
  Definition size (ds : list nat) : nat := fold_right Nat.mul 1 ds.
  Fixpoint ravel (ds idx : list nat) : nat :=
    match ds, idx with
    | _ :: ds', i :: idx' => i * size ds' + ravel ds' idx'
    | _, _ => 0
    end.
  Fixpoint unravel (ds : list nat) (k : nat) : list nat :=
    match ds with
    | [] => []
    | _ :: ds' => k / size ds' :: unravel ds' (k mod size ds')
    end.
  Definition reshape (t : tensor) (shape : list nat) : res tensor :=
    let* _ := guard (size (dims t) =? size shape) TypeError in
    Ok (mkT shape (fun idx => cell t (unravel (dims t) (ravel shape idx)))).

  Definition tensor1 (n : nat) (f : nat -> val) : tensor := mkT [n] (fun idx => f (nth 0 idx 0)).
  Definition tensor2 (n m : nat) (f : nat -> nat -> val) : tensor :=
    mkT [n; m] (fun idx => f (nth 0 idx 0) (nth 1 idx 0)).

  (** object_state.py:197-209, speed and vel_yaw. *)
  Definition speed (p : pt) : F := where_ (p_valid p) (norm2 (p_vx p) (p_vy p)) fm1.
  Definition vel_yaw (p : pt) : F := where_ (p_valid p) (fatan2 (p_vy p) (p_vx p)) fm1.

  (** womd_utils.py:465-475, _roadgraph_to_dict. *)
  Definition roadgraph_to_dict (rg : list rgpt) : dict :=
    let n := length rg in
    let at_ i := nth i rg (mkrg f0 f0 f0 f0 f0 f0 0 0 false) in
    [("roadgraph_samples/dir",
        tensor2 n 3 (fun i k => VF (nth k [rg_dx (at_ i); rg_dy (at_ i); rg_dz (at_ i)] f0)));
     ("roadgraph_samples/id", tensor1 n (fun i => VI (rg_id (at_ i))));
     ("roadgraph_samples/type", tensor1 n (fun i => VI (rg_type (at_ i))));
     ("roadgraph_samples/valid", tensor1 n (fun i => VB (rg_valid (at_ i))));
     ("roadgraph_samples/xyz",
        tensor2 n 3 (fun i k => VF (nth k [rg_x (at_ i); rg_y (at_ i); rg_z (at_ i)] f0)))]%string.

  (** womd_utils.py:478-496, _trajectory_to_dict of a trajectory of shape (n, T). *)
  Definition trajectory_to_dict (tr : traj) (n T : nat) (time_prefix : string) : dict :=
    let key f := ("state/" ++ time_prefix ++ "/" ++ f)%string in
    let of f := tensor2 n T (fun i t => f (nth t (nth i tr []) zero_pt)) in
    [(key "bbox_yaw"%string, of (fun p => VF (p_yaw p)));
     (key "height"%string, of (fun p => VF (p_hei p)));
     (key "length"%string, of (fun p => VF (p_len p)));
     (key "speed"%string, of (fun p => VF (speed p)));
     (key "timestamp_micros"%string, of (fun p => VI (p_ts p)));
     (key "valid"%string, of (fun p => VB (p_valid p)));
     (key "vel_yaw"%string, of (fun p => VF (vel_yaw p)));
     (key "velocity_x"%string, of (fun p => VF (p_vx p)));
     (key "velocity_y"%string, of (fun p => VF (p_vy p)));
     (key "width"%string, of (fun p => VF (p_wid p)));
     (key "x"%string, of (fun p => VF (p_x p)));
     (key "y"%string, of (fun p => VF (p_y p)));
     (key "z"%string, of (fun p => VF (p_z p)))].

  (** womd_utils.py:499-513, _traffic_light_to_dict of L lights at T steps; the
      timestamps are those of the first object (442-451). *)
  Definition traffic_light_to_dict (tls : list (list tlight)) (T : nat) (time_prefix : string)
    (timestamps : list Z) : dict :=
    let key f := ("traffic_light_state/" ++ time_prefix ++ "/" ++ f)%string in
    let of f := tensor2 T (length tls) (fun t l => f (nth t (nth l tls []) (mktl f0 f0 f0 0 0 false))) in
    [(key "state"%string, of (fun l => VI (tl_state l)));
     (key "valid"%string, of (fun l => VB (tl_valid l)));
     (key "x"%string, of (fun l => VF (tl_x l)));
     (key "y"%string, of (fun l => VF (tl_y l)));
     (key "z"%string, of (fun l => VF (tl_z l)));
     (key "id"%string, of (fun l => VI (tl_lane l)));
     (key "timestamp_micros"%string, tensor1 T (fun t => VI (nth t timestamps 0%Z)))].

  (** womd_utils.py:516-532, _object_metadata_to_dict. *)
  Definition object_metadata_to_dict (ms : list meta) : dict :=
    let of (f : meta -> Z) := tensor1 (length ms) (fun i =>
      match nth_error ms i with
      | Some m => VI (where_ (m_is_valid m) (f m) (-1)%Z)
      | None => VI (-1)
      end) in
    [("state/type", of m_type);
     ("state/id", of m_id);
     ("state/objects_of_interest", of (fun m => Z.b2z (m_interest m)));
     ("state/is_sdc", of (fun m => Z.b2z (m_is_sdc m)));
     ("state/tracks_to_predict", of (fun m => Z.b2z (m_is_modeled m)))]%string.

  (** womd_utils.py:535-549, _get_invalid_future_trajectory. *)
  Definition get_invalid_future_trajectory (fd : features) : res dict :=
    let* fv := getf fd "state/future/valid" in
    match ft_shape fv with
    | [n; T] =>
        let traj_dict := trajectory_to_dict (repeat (repeat invalid_pt T) n) n T "future" in
        let traj_dict := dset traj_dict "state/future/speed" (tensor2 n T (fun _ _ => VF (speed invalid_pt))) in
        let traj_dict := dset traj_dict "state/future/vel_yaw" (tensor2 n T (fun _ _ => VF (vel_yaw invalid_pt))) in
        Ok (dset traj_dict "state/future/valid" (tensor2 n T (fun _ _ => VI (1 * -1))))
    | _ => Err ValueError
    end.

  (** sub in s *)
  Fixpoint contains (sub s : string) : bool :=
    match strip sub s with
    | Some _ => true
    | None => match s with EmptyString => false | String _ s' => contains sub s' end
    end.

  (** womd_utils.py:552-572, _get_invalid_future_traffic_light. *)
  Definition get_invalid_future_traffic_light (fd : features) : res dict :=
    mapM (fun nf =>
            match ft_dtype (snd nf) with
            | DInt => Ok (fst nf, mkT (ft_shape (snd nf)) (fun _ => VI (1 * -1)))
            | DFloat => Ok (fst nf, mkT (ft_shape (snd nf)) (fun _ => VF (f1 * fm1)%F))
            | DBool => Err ValueError
            end)
      (filter (fun nf => contains "traffic_light_state/future" (fst nf)) fd).

  (** dict.update *)
  Definition update (d d' : dict) : dict :=
    fold_left (fun acc kv => dset acc (fst kv) (snd kv)) d' d.

  (** womd_utils.py:438-454. *)
  Definition export_values (s : state) (rg : list rgpt) (h : nat) (cur past : traj)
    (cur_tl past_tl : list (list tlight)) (fut fut_tl : dict) : dict :=
    let n := length (s_sim s) in
    let values := roadgraph_to_dict rg in
    let values := update values (trajectory_to_dict cur n 1 "current") in
    let values := update values (trajectory_to_dict past n h "past") in
    let values := update values (traffic_light_to_dict cur_tl 1 "current" (map p_ts (nth 0 cur []))) in
    let values := update values (traffic_light_to_dict past_tl h "past" (map p_ts (nth 0 past []))) in
    let values := update values (object_metadata_to_dict (s_meta s)) in
    let values := update values fut in
    update values fut_tl.

  (** womd_utils.py:378-462, simulator_state_to_womd_dict.  The failed check of
      validate is the ValueError promised in the documentation.  Simplification: an
      empty scene, which has no first object to take timestamps from, is an error. *)
  Definition simulator_state_to_womd_dict (s : state) (fd : features) (validate : bool) : res dict :=
    let* yaw := getf fd "state/past/bbox_yaw" in
    let* h := match rev (ft_shape yaw) with k :: _ => Ok k | [] => Err IndexError end in
    let* _ := guard (negb validate || (s_t s + 1 =? Z.of_nat h + 1)%Z) ValueError in
    let* cur := dynamic_slice (s_sim s) (s_t s) 1 in
    let* past := dynamic_slice (s_sim s) (s_t s - Z.of_nat h) h in
    let* cur_tl := dynamic_slice (s_tls s) (s_t s) 1 in
    let* past_tl := dynamic_slice (s_tls s) (s_t s - Z.of_nat h) h in
    let* rg := match s_rg s with Some rg => Ok rg | None => Err AttributeError end in
    let* _ := guard (1 <=? length (s_sim s)) IndexError in
    let* fut := get_invalid_future_trajectory fd in
    let* fut_tl := get_invalid_future_traffic_light fd in
    let values := export_values s rg h cur past cur_tl past_tl fut fut_tl in
    mapM (fun nf =>
            let* v := getk values (fst nf) in
            let* r := reshape v (ft_shape (snd nf)) in
            Ok (fst nf, mkT (dims r) (fun idx => cast (ft_dtype (snd nf)) (cell r idx)))) fd.

  (** womd_utils.py:207-265, the per-time state features. *)
  Definition state_time_features (n : nat) (time : string) (steps : nat) : features :=
    map (fun fd : string * dtype => (("state/" ++ time ++ "/" ++ fst fd)%string, mkfeat [n; steps] (snd fd)))
      [("bbox_yaw", DFloat); ("height", DFloat); ("length", DFloat); ("timestamp_micros", DInt);
       ("valid", DInt); ("vel_yaw", DFloat); ("speed", DFloat); ("velocity_x", DFloat);
       ("velocity_y", DFloat); ("width", DFloat); ("x", DFloat); ("y", DFloat); ("z", DFloat)]%string.

  (** womd_utils.py:267-339, the traffic light features of one time. *)
  Definition light_time_features (num_tls : nat) (time : string) (steps : nat) : features :=
    map (fun fd : string * dtype => (("traffic_light_state/" ++ time ++ "/" ++ fst fd)%string, mkfeat [steps; num_tls] (snd fd)))
      [("state", DInt); ("valid", DInt); ("id", DInt); ("x", DFloat); ("y", DFloat); ("z", DFloat)]%string
    ++ [(("traffic_light_state/" ++ time ++ "/timestamp_micros")%string, mkfeat [steps] DInt)].

  (** womd_utils.py:137-365, get_features_description.  int64 and float32 are the
      integers and the scalars.  Simplification: num_tls is a number. *)
  Definition get_features_description (max_num_objects max_num_rg_points : nat) (include_sdc_paths : bool)
    (num_paths num_points_per_path : option nat) (num_tls : nat) : res features :=
    let* paths :=
      if include_sdc_paths then
        match num_paths, num_points_per_path with
        | Some p, Some k =>
            Ok [("path_samples/xyz", mkfeat [p; k; 3] DFloat); ("path_samples/valid", mkfeat [p; k] DInt);
                ("path_samples/id", mkfeat [p; k] DInt); ("path_samples/arc_length", mkfeat [p; k] DFloat);
                ("path_samples/on_route", mkfeat [p; 1] DInt)]%string
        | _, _ => Err ValueError
        end
      else Ok [] in
    Ok ([("roadgraph_samples/dir", mkfeat [max_num_rg_points; 3] DFloat);
         ("roadgraph_samples/id", mkfeat [max_num_rg_points; 1] DInt);
         ("roadgraph_samples/type", mkfeat [max_num_rg_points; 1] DInt);
         ("roadgraph_samples/valid", mkfeat [max_num_rg_points; 1] DInt);
         ("roadgraph_samples/xyz", mkfeat [max_num_rg_points; 3] DFloat)]%string
        ++ paths
        ++ [("state/id", mkfeat [max_num_objects] DFloat); ("state/type", mkfeat [max_num_objects] DFloat);
            ("state/is_sdc", mkfeat [max_num_objects] DInt); ("state/tracks_to_predict", mkfeat [max_num_objects] DInt);
            ("state/objects_of_interest", mkfeat [max_num_objects] DInt)]%string
        ++ state_time_features max_num_objects "past" 10
        ++ state_time_features max_num_objects "current" 1
        ++ state_time_features max_num_objects "future" 80
        ++ light_time_features num_tls "current" 1
        ++ light_time_features num_tls "past" 10
        ++ light_time_features num_tls "future" 80).
End WomdState.
