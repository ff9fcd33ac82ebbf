(** Model of waymax/dataloader/womd_dataloader.py:39-108 and of the generator in
    dataloader_utils.py:176-230: from serialized records to batches of simulator
    states, and of the factories in womd_factories.py on arrays with leading batch
    dimensions. *)
From Coq Require Import String.
From Coq Require Import List ZArith Bool Arith.
From Verif.Lib Require Import Base JaxIndex Scalar.
From Verif.Model Require Import Operations State Metrics Masked Pipeline Womd WomdState Batch.
Import ListNotations.
Local Open Scope nat_scope.

Section Loader.
  Context {S : Scalar}.

  (* ---------------- the factories with batch dimensions ---------------- *)

  (** example[key] as an array of entries. *)
  Definition bget (d : dict) (k : string) : res (arr val) :=
    let* t := getk d k in Ok (mkA (Womd.dims t) (Womd.cell t)).

  (** chex.assert_equal_shape *)
  Definition b_same (ds : list nat) (xs : list (arr val)) : bool :=
    forallb (fun x => dims_eqb (dims x) ds) xs.

  (** womd_factories.py:28-60, object_metadata_from_womd_dict. *)
  Definition b_object_metadata (d : dict) : res (arr meta) :=
    let* tracks := bget d "state/tracks_to_predict" in
    let* sdc := bget d "state/is_sdc" in
    let* interest := bget d "state/objects_of_interest" in
    let* ids := bget d "state/id" in
    let* types := bget d "state/type" in
    let* _ := guard (b_same (dims tracks) [sdc; interest; ids; types]) AssertionError in
    Ok (mkA (dims tracks) (fun i =>
          mkmeta (as_i (cell ids i)) (as_i (cell types i)) (is_int 1 (cell sdc i)) (is_int 1 (cell tracks i))
            (negb (is_int (-1) (cell tracks i))) (is_int 1 (cell interest i)) false)).

  (** womd_factories.py:63-97, roadgraph_from_womd_dict: x[..., k] takes an entry of
      the last axis.  Simplification as in WomdState.v: last axes of length 3 and 1. *)
  Definition b_roadgraph (d : dict) : res (arr rgpt) :=
    let* xyz := bget d "roadgraph_samples/xyz" in
    let* dir := bget d "roadgraph_samples/dir" in
    let* types := bget d "roadgraph_samples/type" in
    let* ids := bget d "roadgraph_samples/id" in
    let* valids := bget d "roadgraph_samples/valid" in
    let lead := removelast (dims xyz) in
    let* _ := guard (b_same (lead ++ [3]) [xyz; dir] && b_same (lead ++ [1]) [types; ids; valids]) AssertionError in
    Ok (mkA lead (fun i =>
          mkrg (as_f (cell xyz (i ++ [0]))) (as_f (cell xyz (i ++ [1]))) (as_f (cell xyz (i ++ [2])))
            (as_f (cell dir (i ++ [0]))) (as_f (cell dir (i ++ [1]))) (as_f (cell dir (i ++ [2])))
            (as_i (cell types (i ++ [0]))) (as_i (cell ids (i ++ [0]))) (as_b (cell valids (i ++ [0]))))).

  (** womd_factories.py:100-132, paths_from_womd_dict, and route.py:87-97: on_route has
      one entry in place of the points. *)
  Definition b_paths_from (d : dict) : res (arr pathpt * arr bool) :=
    let* xyz := bget d "path_samples/xyz" in
    let* ids := bget d "path_samples/id" in
    let* valids := bget d "path_samples/valid" in
    let* arc := bget d "path_samples/arc_length" in
    let* on_route := bget d "path_samples/on_route" in
    let lead := removelast (dims xyz) in
    let* _ := guard (b_same (lead ++ [3]) [xyz] && b_same lead [ids; valids; arc]
                     && b_same (removelast lead ++ [1]) [on_route]) AssertionError in
    Ok (mkA lead (fun i =>
          mkpp (as_f (cell xyz (i ++ [0]))) (as_f (cell xyz (i ++ [1]))) (as_f (cell xyz (i ++ [2])))
            (as_i (cell ids i)) (as_b (cell valids i)) (as_f (cell arc i))),
        mkA (removelast lead) (fun i => as_b (cell on_route (i ++ [0])))).

  (** operations.py:265-286, masked_mean with axis=-1: one mean per line of the last
      axis, broadcast along it. *)
  Definition b_masked_mean (x valid : arr val) : list nat -> F := fun i =>
    let line t := removelast i ++ [t] in
    let T := last (dims valid) 0 in
    line_mean (tab T (fun t => as_f (cell x (line t)))) (tab T (fun t => as_b (cell valid (line t)))) fm1.

  (** womd_factories.py:208-250, trajectory_from_womd_dict.  An array without axes has
      no axis -1 to average over. *)
  Definition b_trajectory (d : dict) (time_key : string) : res (arr pt) :=
    let key f := ("state/" ++ time_key ++ "/" ++ f)%string in
    let* valid := bget d (key "valid"%string) in
    let* length := bget d (key "length"%string) in
    let* width := bget d (key "width"%string) in
    let* height := bget d (key "height"%string) in
    let* x := bget d (key "x"%string) in
    let* y := bget d (key "y"%string) in
    let* z := bget d (key "z"%string) in
    let* vel_x := bget d (key "velocity_x"%string) in
    let* vel_y := bget d (key "velocity_y"%string) in
    let* yaw := bget d (key "bbox_yaw"%string) in
    let* ts := bget d (key "timestamp_micros"%string) in
    let* _ := guard (1 <=? List.length (dims valid)) ValueError in
    let* _ := guard (b_same (dims valid) [length; width; height; x; y; z; vel_x; vel_y; yaw; ts]) AssertionError in
    Ok (mkA (dims valid) (fun i =>
          mkpt (as_f (cell x i)) (as_f (cell y i)) (as_f (cell z i))
            (as_f (cell vel_x i)) (as_f (cell vel_y i)) (as_f (cell yaw i))
            (as_b (cell valid i)) (as_i (cell ts i))
            (b_masked_mean length valid i) (b_masked_mean width valid i) (b_masked_mean height valid i))).

  (** jnp.swapaxes(x, -1, -2): a shape or index with its last two entries exchanged. *)
  Definition swap_last (l : list nat) : list nat :=
    removelast (removelast l) ++ [last l 0; last (removelast l) 0].

  (** womd_factories.py:253-294, traffic_lights_from_womd_dict. *)
  Definition b_lights (d : dict) (time_key : string) : res (arr tlight) :=
    let* _ := guard (existsb (String.eqb time_key) time_keys) ValueError in
    let key f := ("traffic_light_state/" ++ time_key ++ "/" ++ f)%string in
    let* x := bget d (key "x"%string) in
    let* y := bget d (key "y"%string) in
    let* z := bget d (key "z"%string) in
    let* st := bget d (key "state"%string) in
    let* ids := bget d (key "id"%string) in
    let* valid := bget d (key "valid"%string) in
    let* _ := guard (2 <=? List.length (dims x)) ValueError in
    let* _ := guard (b_same (dims x) [y; z; st; ids; valid]) AssertionError in
    Ok (mkA (swap_last (dims x)) (fun i =>
          let j := swap_last i in
          mktl (as_f (cell x j)) (as_f (cell y j)) (as_f (cell z j))
            (as_i (cell st j)) (as_i (cell ids j)) (as_b (cell valid j)))).

  (** womd_factories.py:135-205, simulator_state_from_womd_dict. *)
  Definition b_simulator_state (d : dict) (include_sdc_paths : bool) (time_key : string) : res bstate :=
    let* _ := guard (existsb (String.eqb time_key) time_keys) ValueError in
    let* rg := b_roadgraph d in
    let* paths := if include_sdc_paths then rmap Some (b_paths_from d) else Ok None in
    let* tls := b_lights d time_key in
    let* ms := b_object_metadata d in
    let* log := b_trajectory d time_key in
    let* sim := b_update (amap (fun _ => zero_pt) log) log (scalar 0%Z) None (Some 1) in
    let s := mkbs sim log tls ms (mkA (removelast (removelast (dims sim))) (fun _ => 0%Z)) paths (Some rg) in
    let* _ := b_validate s in
    Ok s.

  (* ---------------- records ---------------- *)

  (** A serialized tf.Example: a map from names to lists, or bytes that are none.
      Bytes features do not occur in the descriptions. *)
  Inductive feature_list := Floats (l : list F) | Ints (l : list Z) | Bytes.
  Definition serialized := option (list (string * feature_list)).
  Fixpoint lookup (e : list (string * feature_list)) (k : string) : option feature_list :=
    match e with
    | [] => None
    | (k', v) :: e' => if String.eqb k k' then Some v else lookup e' k
    end.

  (** One FixedLenFeature of tf.io.parse_example: the list must be there, have the
      type and as many entries as the shape; it is read row by row.  The
      InvalidArgumentError of TensorFlow is rendered as ValueError. *)
  Definition parse_feature (ft : feature) (v : option feature_list) : res tensor :=
    let shaped n f := let* _ := guard (n =? WomdState.size (ft_shape ft)) ValueError in
                      Ok (mkT (ft_shape ft) (fun idx => f (ravel (ft_shape ft) idx))) in
    match ft_dtype ft, v with
    | DFloat, Some (Floats l) => shaped (List.length l) (fun k => VF (nth k l f0))
    | DInt, Some (Ints l) => shaped (List.length l) (fun k => VI (nth k l 0%Z))
    | _, _ => Err ValueError
    end.

  (** tf.io.parse_example *)
  Definition parse_example (s : serialized) (fd : features) : res dict :=
    match s with
    | None => Err ValueError
    | Some e => mapM (fun nf => let* t := parse_feature (snd nf) (lookup e (fst nf)) in Ok (fst nf, t)) fd
    end.

  (** config.py:83-100, the fields of DatasetConfig that matter here (the others are in
      [loader]). *)
  Record dataset_config := mkdc {
    dc_loader : loader; dc_include_sdc_paths : bool; dc_aggregate : bool;
    dc_max_num_rg_points : nat; dc_max_num_objects : option Z;
    dc_num_paths : option nat; dc_num_points : option nat;
    dc_distributed : bool; dc_by_scenario : bool }.

  (** womd_dataloader.py:43-48: 128 objects and 16 lights are the defaults of
      get_features_description (womd_utils.py:138-143). *)
  Definition config_features (c : dataset_config) : res features :=
    get_features_description 128 (dc_max_num_rg_points c) (dc_include_sdc_paths c)
      (dc_num_paths c) (dc_num_points c) 16.

  (** womd_dataloader.py:39-55, preprocess_serialized_womd_data. *)
  Definition preprocess_serialized (c : dataset_config) (s : serialized) : res dict :=
    let* fd := config_features c in
    let* d := parse_example s fd in
    preprocess_womd_example d (dc_aggregate c) (dc_max_num_objects c).

  (** The dictionary of the k-th rows. *)
  Definition row_of (k : nat) (d : dict) : dict :=
    map (fun kv => (fst kv, mkT (tl (Womd.dims (snd kv))) (fun i => Womd.cell (snd kv) (k :: i)))) d.

  (** The length of the first axis, common to all arrays. *)
  Definition common_rows (d : dict) : res nat :=
    match d with
    | (_, t) :: _ =>
        match Womd.dims t with
        | k :: _ =>
            let* _ := guard (forallb (fun kv => match Womd.dims (snd kv) with j :: _ => j =? k | [] => false end) d)
                        ValueError in
            Ok k
        | [] => Err ValueError
        end
    | [] => Err ValueError
    end.

  (** Dataset.unbatch *)
  Definition unbatch (d : dict) : res (list dict) :=
    let* k := common_rows d in Ok (map (fun i => row_of i d) (seq 0 k)).

  (** dataloader_utils.py:145-149: what a record contributes to the dataset; an
      exception takes the place of the element that could not be made. *)
  Definition expand (c : dataset_config) (s : serialized) : list (res dict) :=
    match preprocess_serialized c s with
    | Err e => [Err e]
    | Ok d => if dc_by_scenario c then [Ok d]
              else match unbatch d with Ok l => map Ok l | Err e => [Err e] end
    end.

  (** Dataset.batch: arrays of the same shape are stacked, others are an error. *)
  Definition stack (ds : list dict) : res dict :=
    match ds with
    | [] => Err ValueError
    | d0 :: _ =>
        mapM (fun kv =>
                let* ts := mapM (fun d => getk d (fst kv)) ds in
                let* _ := guard (forallb (fun t => dims_eqb (Womd.dims t) (Womd.dims (snd kv))) ts) ValueError in
                Ok (fst kv, mkT (List.length ds :: Womd.dims (snd kv))
                              (fun i => Womd.cell (nth (hd 0 i) ts (snd kv)) (tl i)))) d0
    end.

  (** The arrays of one element of the dataset. *)
  Fixpoint collate (e : elem (res dict)) : res dict :=
    match e with
    | One r => r
    | Pipeline.Batch l =>
        let* ds := (fix go l := match l with
                                | [] => Ok []
                                | x :: r => let* d := collate x in let* ds := go r in Ok (d :: ds)
                                end) l in
        stack ds
    end.

  (** Stacking the results of the devices. *)
  Definition a_stack {A} (xs : list (arr A)) (x0 : arr A) : arr A :=
    mkA (List.length xs :: dims x0) (fun i => cell (nth (hd 0 i) xs x0) (tl i)).
  Definition s_stack (ss : list bstate) (s0 : bstate) : bstate :=
    mkbs (a_stack (map b_sim ss) (b_sim s0)) (a_stack (map b_log ss) (b_log s0))
      (a_stack (map b_tls ss) (b_tls s0)) (a_stack (map b_meta ss) (b_meta s0)) (a_stack (map b_t ss) (b_t s0))
      (option_map (fun p0 => (a_stack (map (fun s => match b_paths s with Some p => fst p | None => fst p0 end) ss) (fst p0),
                              a_stack (map (fun s => match b_paths s with Some p => snd p | None => snd p0 end) ss) (snd p0)))
         (b_paths s0))
      (option_map (fun r0 => a_stack (map (fun s => match b_rg s with Some r => r | None => r0 end) ss) r0) (b_rg s0)).

  (** jax.pmap of the factory: one row of the arrays per device, of which there must
      be enough; the results are stacked. *)
  Definition pmap_state (devices : nat) (f : dict -> res bstate) (d : dict) : res bstate :=
    let* k := common_rows d in
    let* _ := guard (k <=? devices) ValueError in
    let* ss := mapM (fun i => f (row_of i d)) (seq 0 k) in
    match ss with
    | [] => Err ValueError
    | s0 :: _ => Ok (s_stack ss s0)
    end.

  (** womd_dataloader.py:100-103 and dataloader_utils.py:225-228. *)
  Definition postprocess (c : dataset_config) (devices : nat) : dict -> res bstate :=
    let f d := b_simulator_state d (dc_include_sdc_paths c) "all" in
    if dc_distributed c then pmap_state devices f else f.

  (** dataloader_utils.py:229-230: the states yielded one after the other, and the
      exception that ends the iteration, if any. *)
  Fixpoint consume (post : dict -> res bstate) (els : list (elem (res dict))) : list bstate * option exn :=
    match els with
    | [] => ([], None)
    | e :: r =>
        match (let* d := collate e in post d) with
        | Err x => ([], Some x)
        | Ok s => let (l, x) := consume post r in (s :: l, x)
        end
    end.

  (** dataloader_utils.py:202-219, the arguments handed to tf_examples_dataset. *)
  Definition config_loader (c : dataset_config) (devices : nat) : loader :=
    let l := dc_loader c in
    mkloader (ld_num_shards l) (ld_repeat l) (ld_seed l)
      (generator_batch_dims (dc_distributed c) devices (ld_batch_dims l)) (ld_drop l) (ld_deterministic l).

  (** womd_dataloader.py:82-108, simulator_state_generator, iterated to its end on
      process [index] of [count].  A bad feature description is noticed when the
      dataset is built.  Simplifications: an unreadable record in a remainder that is
      dropped goes unnoticed, and so does a row mismatch in unbatch without any record. *)
  Definition simulator_state_generator {File} (records : File -> list serialized)
    (py_shuffle : Z -> list File -> list File) (c : dataset_config) (devices : nat) (files : list File)
    (count index : nat) (yielded : list bstate) (raised : option exn) : Prop :=
    match config_features c with
    | Err e => yielded = [] /\ raised = Some e
    | Ok _ => exists els,
        tf_examples_dataset records (expand c) py_shuffle (config_loader c devices) files count index els /\
        consume (postprocess c devices) els = (yielded, raised)
    end.
End Loader.
