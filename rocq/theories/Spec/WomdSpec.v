(** Vocabulary for scenarios stored as dictionaries. *)
From Coq Require Import String.
From Coq Require Import List ZArith Bool Arith.
From Verif.Lib Require Import Base Scalar.
From Verif.Model Require Import State Womd WomdState.
Import ListNotations.
Local Open Scope nat_scope.

Section WomdSpec.
  Context {S : Scalar}.

  (** The dictionary has an array of this shape under this key. *)
  Definition has (d : dict) (k : string) (shape : list nat) : Prop :=
    exists a, get d k = Some a /\ dims a = shape.
  (** The entry at a multi-index of the array under a key. *)
  Definition value (d : dict) (k : string) (idx : list nat) : option val :=
    option_map (fun a => cell a idx) (get d k).
  (** That entry converted to float32, int32, bool. *)
  Definition float_at d k idx := option_map as_f (value d k idx).
  Definition int_at d k idx := option_map as_i (value d k idx).
  Definition bool_at d k idx := option_map as_b (value d k idx).

  Definition state_key (time f : string) : string := ("state/" ++ time ++ "/" ++ f)%string.
  Definition light_key (time f : string) : string := ("traffic_light_state/" ++ time ++ "/" ++ f)%string.
  Definition times : list string := ["past"; "current"; "future"; "all"]%string.

  (** The coordinates of a frame, and its box, by their names in the data. *)
  Definition frame_floats : list (string * (pt -> F)) :=
    [("x", p_x); ("y", p_y); ("z", p_z); ("velocity_x", p_vx); ("velocity_y", p_vy); ("bbox_yaw", p_yaw)]%string.
  Definition box_floats : list (string * (pt -> F)) :=
    [("length", p_len); ("width", p_wid); ("height", p_hei)]%string.
  Definition frame_names : list string :=
    map fst frame_floats ++ map fst box_floats ++ ["valid"; "timestamp_micros"]%string.
  Definition light_names : list string := ["x"; "y"; "z"; "state"; "id"; "valid"]%string.

  (** Frame (i, t) of the data under a time key, except for its box. *)
  Definition is_frame (d : dict) (time : string) (i t : nat) (p : pt) : Prop :=
    (forall f g, In (f, g) frame_floats -> float_at d (state_key time f) [i; t] = Some (g p)) /\
    bool_at d (state_key time "valid") [i; t] = Some (p_valid p) /\
    int_at d (state_key time "timestamp_micros") [i; t] = Some (p_ts p).

  (** Light l at step t; the data is stored time-major. *)
  Definition is_light (d : dict) (time : string) (l t : nat) (x : tlight) : Prop :=
    float_at d (light_key time "x") [t; l] = Some (tl_x x) /\
    float_at d (light_key time "y") [t; l] = Some (tl_y x) /\
    float_at d (light_key time "z") [t; l] = Some (tl_z x) /\
    int_at d (light_key time "state") [t; l] = Some (tl_state x) /\
    int_at d (light_key time "id") [t; l] = Some (tl_lane x) /\
    bool_at d (light_key time "valid") [t; l] = Some (tl_valid x).

  (** Object i: -1 in tracks_to_predict marks padding. *)
  Definition is_object (d : dict) (i : nat) (m : meta) : Prop :=
    int_at d "state/id" [i] = Some (m_id m) /\ int_at d "state/type" [i] = Some (m_type m) /\
    option_map (is_int 1) (value d "state/is_sdc" [i]) = Some (m_is_sdc m) /\
    option_map (is_int 1) (value d "state/tracks_to_predict" [i]) = Some (m_is_modeled m) /\
    option_map (is_int (-1)) (value d "state/tracks_to_predict" [i]) = Some (negb (m_is_valid m)) /\
    option_map (is_int 1) (value d "state/objects_of_interest" [i]) = Some (m_interest m) /\
    m_is_controlled m = false.

  Definition is_road_point (d : dict) (i : nat) (r : rgpt) : Prop :=
    float_at d "roadgraph_samples/xyz" [i; 0] = Some (rg_x r) /\
    float_at d "roadgraph_samples/xyz" [i; 1] = Some (rg_y r) /\
    float_at d "roadgraph_samples/xyz" [i; 2] = Some (rg_z r) /\
    float_at d "roadgraph_samples/dir" [i; 0] = Some (rg_dx r) /\
    float_at d "roadgraph_samples/dir" [i; 1] = Some (rg_dy r) /\
    float_at d "roadgraph_samples/dir" [i; 2] = Some (rg_dz r) /\
    int_at d "roadgraph_samples/type" [i; 0] = Some (rg_type r) /\
    int_at d "roadgraph_samples/id" [i; 0] = Some (rg_id r) /\
    bool_at d "roadgraph_samples/valid" [i; 0] = Some (rg_valid r).

  Definition is_path_point (d : dict) (i j : nat) (p : pathpt) : Prop :=
    float_at d "path_samples/xyz" [i; j; 0] = Some (pp_x p) /\
    float_at d "path_samples/xyz" [i; j; 1] = Some (pp_y p) /\
    float_at d "path_samples/xyz" [i; j; 2] = Some (pp_z p) /\
    int_at d "path_samples/id" [i; j] = Some (pp_id p) /\
    bool_at d "path_samples/valid" [i; j] = Some (pp_valid p) /\
    float_at d "path_samples/arc_length" [i; j] = Some (pp_arc p).

  (** The shapes of a dictionary that can be loaded: n objects and T steps of
      trajectory, m objects of metadata, N road points, L lights at T' steps. *)
  Definition traj_shapes (d : dict) (time : string) (n T : nat) : Prop :=
    forall f, In f frame_names -> has d (state_key time f) [n; T].
  Definition meta_shapes (d : dict) (m : nat) : Prop :=
    forall k, In k ["state/tracks_to_predict"; "state/is_sdc"; "state/objects_of_interest"; "state/id";
                    "state/type"]%string -> has d k [m].
  Definition road_shapes (d : dict) (N : nat) : Prop :=
    has d "roadgraph_samples/xyz" [N; 3] /\ has d "roadgraph_samples/dir" [N; 3] /\
    has d "roadgraph_samples/type" [N; 1] /\ has d "roadgraph_samples/id" [N; 1] /\
    has d "roadgraph_samples/valid" [N; 1].
  Definition light_shapes (d : dict) (time : string) (L T : nat) : Prop :=
    forall f, In f light_names -> has d (light_key time f) [T; L].
  Definition path_shapes (d : dict) (P K : nat) : Prop :=
    has d "path_samples/xyz" [P; K; 3] /\ has d "path_samples/id" [P; K] /\
    has d "path_samples/valid" [P; K] /\ has d "path_samples/arc_length" [P; K] /\
    has d "path_samples/on_route" [P; 1].
  Definition loadable (d : dict) (with_paths : bool) (time : string) : Prop :=
    In time times /\ (exists N, road_shapes d N) /\ (exists L T, light_shapes d time L T) /\
    (exists m, meta_shapes d m) /\
    (exists n T, traj_shapes d time n T /\ (n = 0 \/ 0 < T)) /\
    (with_paths = true -> exists P K, path_shapes d P K).

  (** What a frame, a light and an object are written as. *)
  Definition frame_values : list (string * (pt -> val)) :=
    [("x", fun p => VF (p_x p)); ("y", fun p => VF (p_y p)); ("z", fun p => VF (p_z p));
     ("velocity_x", fun p => VF (p_vx p)); ("velocity_y", fun p => VF (p_vy p)); ("bbox_yaw", fun p => VF (p_yaw p));
     ("length", fun p => VF (p_len p)); ("width", fun p => VF (p_wid p)); ("height", fun p => VF (p_hei p));
     ("valid", fun p => VB (p_valid p)); ("timestamp_micros", fun p => VI (p_ts p));
     ("speed", fun p => VF (if p_valid p then fsqrt (p_vx p * p_vx p + p_vy p * p_vy p)%F else fm1));
     ("vel_yaw", fun p => VF (if p_valid p then fatan2 (p_vy p) (p_vx p) else fm1))]%string.
  Definition light_values : list (string * (tlight -> val)) :=
    [("x", fun l => VF (tl_x l)); ("y", fun l => VF (tl_y l)); ("z", fun l => VF (tl_z l));
     ("state", fun l => VI (tl_state l)); ("id", fun l => VI (tl_lane l)); ("valid", fun l => VB (tl_valid l))]%string.
  Definition object_values : list (string * (meta -> Z)) :=
    [("state/id", m_id); ("state/type", m_type);
     ("state/is_sdc", fun m => if m_is_sdc m then 1 else 0);
     ("state/tracks_to_predict", fun m => if m_is_modeled m then 1 else 0);
     ("state/objects_of_interest", fun m => if m_interest m then 1 else 0)]%Z%string.
  Definition road_values : list (string * list (rgpt -> val)) :=
    [("roadgraph_samples/xyz", [fun r => VF (rg_x r); fun r => VF (rg_y r); fun r => VF (rg_z r)]);
     ("roadgraph_samples/dir", [fun r => VF (rg_dx r); fun r => VF (rg_dy r); fun r => VF (rg_dz r)]);
     ("roadgraph_samples/id", [fun r => VI (rg_id r)]); ("roadgraph_samples/type", [fun r => VI (rg_type r)]);
     ("roadgraph_samples/valid", [fun r => VB (rg_valid r)])]%string.

  (** A scene of n objects with L lights over T steps, at step t. *)
  Definition scene (n L T t : nat) (s : state) : Prop :=
    rect n T (s_sim s) /\ rect L T (s_tls s) /\ length (s_meta s) = n /\ s_t s = Z.of_nat t /\ t < T /\ 0 < n.

  (** The frames and lights of the h steps from [from] on, and of the current step. *)
  Definition exported_frames (s : state) (fd : features) (out : dict) (time : string) (n h from : nat) : Prop :=
    forall f g dt i k p, In (f, g) frame_values -> In (state_key time f, mkfeat [n; h] dt) fd ->
      k < h -> at2 (s_sim s) i (from + k) = Some p -> value out (state_key time f) [i; k] = Some (cast dt (g p)).
  Definition exported_lights (s : state) (fd : features) (out : dict) (time : string) (L h from : nat) : Prop :=
    forall f g dt l k x, In (f, g) light_values -> In (light_key time f, mkfeat [h; L] dt) fd ->
      k < h -> at2 (s_tls s) l (from + k) = Some x -> value out (light_key time f) [k; l] = Some (cast dt (g x)).
  (** The lights get the timestamps of the first object. *)
  Definition exported_stamps (s : state) (fd : features) (out : dict) (time : string) (h from : nat) : Prop :=
    forall dt k p, In (light_key time "timestamp_micros", mkfeat [h] dt) fd ->
      k < h -> at2 (s_sim s) 0 (from + k) = Some p ->
      value out (light_key time "timestamp_micros") [k] = Some (cast dt (VI (p_ts p))).

  (** An example parsed with a feature description: those keys, shapes and types. *)
  Definition typed (dt : dtype) (v : val) : Prop :=
    match dt, v with DFloat, VF _ | DInt, VI _ | DBool, VB _ => True | _, _ => False end.
  Definition parsed (fd : features) (o : dict) : Prop :=
    map fst o = map fst fd /\
    forall name ft, In (name, ft) fd -> exists a, get o name = Some a /\ dims a = ft_shape ft /\
      forall idx, typed (ft_dtype ft) (cell a idx).
End WomdSpec.
