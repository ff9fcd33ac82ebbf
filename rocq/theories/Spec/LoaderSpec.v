(** Vocabulary for loading states from records: which records are well formed and which
    state a record stands for, entry by entry of its flat lists. *)
From Coq Require Import String.
From Coq Require Import List ZArith Bool Arith.
From Verif.Lib Require Import Base Scalar.
From Verif.Model Require Import State Geometry Masked Womd WomdState Batch Loader.
From Verif.Spec Require Import StateSpec WomdSpec BatchSpec.
Import ListNotations.
Local Open Scope nat_scope.

Section LoaderSpec.
  Context {S : Scalar}.
  Definition example := list (string * feature_list).

  (** Entry k of the list under a name; the length of such a list. *)
  Definition float_entry (e : example) (name : string) (k : nat) : option F :=
    match lookup e name with Some (Floats l) => nth_error l k | _ => None end.
  Definition int_entry (e : example) (name : string) (k : nat) : option Z :=
    match lookup e name with Some (Ints l) => nth_error l k | _ => None end.
  Definition has_floats (e : example) (name : string) (n : nat) : Prop :=
    exists l, lookup e name = Some (Floats l) /\ length l = n.
  Definition has_ints (e : example) (name : string) (n : nat) : Prop :=
    exists l, lookup e name = Some (Ints l) /\ length l = n.

  (** The 91 steps of a scenario are stored in three parts: name, number of steps,
      first step. *)
  Definition parts : list (string * nat * nat) := [("past", 10, 0); ("current", 1, 10); ("future", 80, 11)]%string.

  (** A well-formed record with N road points, and P paths of K points if paths are
      wanted: 128 objects, 16 lights, every list there with the right type and length. *)
  Definition well_formed (N : nat) (paths : option (nat * nat)) (e : example) : Prop :=
    (forall part steps from, In (part, steps, from) parts ->
       (forall f, In f ["x"; "y"; "z"; "velocity_x"; "velocity_y"; "bbox_yaw"; "vel_yaw"; "speed";
                        "length"; "width"; "height"]%string -> has_floats e (state_key part f) (128 * steps)) /\
       (forall f, In f ["valid"; "timestamp_micros"]%string -> has_ints e (state_key part f) (128 * steps)) /\
       (forall f, In f ["x"; "y"; "z"]%string -> has_floats e (light_key part f) (steps * 16)) /\
       (forall f, In f ["state"; "id"; "valid"]%string -> has_ints e (light_key part f) (steps * 16)) /\
       has_ints e (light_key part "timestamp_micros") steps) /\
    has_floats e "state/id" 128 /\ has_floats e "state/type" 128 /\ has_ints e "state/is_sdc" 128 /\
    has_ints e "state/tracks_to_predict" 128 /\ has_ints e "state/objects_of_interest" 128 /\
    has_floats e "roadgraph_samples/xyz" (N * 3) /\ has_floats e "roadgraph_samples/dir" (N * 3) /\
    has_ints e "roadgraph_samples/type" N /\ has_ints e "roadgraph_samples/id" N /\
    has_ints e "roadgraph_samples/valid" N /\
    match paths with
    | None => True
    | Some (P, K) =>
        has_floats e "path_samples/xyz" (P * (K * 3)) /\ has_floats e "path_samples/arc_length" (P * K) /\
        has_ints e "path_samples/id" (P * K) /\ has_ints e "path_samples/valid" (P * K) /\
        has_ints e "path_samples/on_route" P
    end.

  Definition nonzero (z : Z) : bool := negb (z =? 0)%Z.
  Definition is_one (z : Z) : bool := (z =? 1)%Z.

  (** The logged frame of object i at step k of a part. *)
  Definition frame_of_record (e : example) (part : string) (steps i k : nat) (p : pt) : Prop :=
    let at_ := i * steps + k in
    float_entry e (state_key part "x") at_ = Some (p_x p) /\
    float_entry e (state_key part "y") at_ = Some (p_y p) /\
    float_entry e (state_key part "z") at_ = Some (p_z p) /\
    float_entry e (state_key part "velocity_x") at_ = Some (p_vx p) /\
    float_entry e (state_key part "velocity_y") at_ = Some (p_vy p) /\
    option_map wrap_yaws (float_entry e (state_key part "bbox_yaw") at_) = Some (p_yaw p) /\
    option_map nonzero (int_entry e (state_key part "valid") at_) = Some (p_valid p) /\
    int_entry e (state_key part "timestamp_micros") at_ = Some (p_ts p).

  (** Light l at step k of a part. *)
  Definition light_of_record (e : example) (part : string) (k l : nat) (x : tlight) : Prop :=
    let at_ := k * 16 + l in
    float_entry e (light_key part "x") at_ = Some (tl_x x) /\
    float_entry e (light_key part "y") at_ = Some (tl_y x) /\
    float_entry e (light_key part "z") at_ = Some (tl_z x) /\
    int_entry e (light_key part "state") at_ = Some (tl_state x) /\
    int_entry e (light_key part "id") at_ = Some (tl_lane x) /\
    option_map nonzero (int_entry e (light_key part "valid") at_) = Some (tl_valid x).

  Definition object_of_record (e : example) (i : nat) (m : meta) : Prop :=
    option_map ftrunc (float_entry e "state/id" i) = Some (m_id m) /\
    option_map ftrunc (float_entry e "state/type" i) = Some (m_type m) /\
    option_map is_one (int_entry e "state/is_sdc" i) = Some (m_is_sdc m) /\
    option_map is_one (int_entry e "state/tracks_to_predict" i) = Some (m_is_modeled m) /\
    option_map (fun z => negb (z =? -1)%Z) (int_entry e "state/tracks_to_predict" i) = Some (m_is_valid m) /\
    option_map is_one (int_entry e "state/objects_of_interest" i) = Some (m_interest m) /\
    m_is_controlled m = false.

  Definition road_point_of_record (e : example) (i : nat) (r : rgpt) : Prop :=
    float_entry e "roadgraph_samples/xyz" (i * 3) = Some (rg_x r) /\
    float_entry e "roadgraph_samples/xyz" (i * 3 + 1) = Some (rg_y r) /\
    float_entry e "roadgraph_samples/xyz" (i * 3 + 2) = Some (rg_z r) /\
    float_entry e "roadgraph_samples/dir" (i * 3) = Some (rg_dx r) /\
    float_entry e "roadgraph_samples/dir" (i * 3 + 1) = Some (rg_dy r) /\
    float_entry e "roadgraph_samples/dir" (i * 3 + 2) = Some (rg_dz r) /\
    int_entry e "roadgraph_samples/type" i = Some (rg_type r) /\
    int_entry e "roadgraph_samples/id" i = Some (rg_id r) /\
    option_map nonzero (int_entry e "roadgraph_samples/valid" i) = Some (rg_valid r).

  Definition path_point_of_record (e : example) (K i j : nat) (p : pathpt) : Prop :=
    let at_ := i * K + j in
    float_entry e "path_samples/xyz" (at_ * 3) = Some (pp_x p) /\
    float_entry e "path_samples/xyz" (at_ * 3 + 1) = Some (pp_y p) /\
    float_entry e "path_samples/xyz" (at_ * 3 + 2) = Some (pp_z p) /\
    int_entry e "path_samples/id" at_ = Some (pp_id p) /\
    option_map nonzero (int_entry e "path_samples/valid" at_) = Some (pp_valid p) /\
    float_entry e "path_samples/arc_length" at_ = Some (pp_arc p).

  (** [s] is the scenario of the record, cut to its first [n] objects, at step 0. *)
  Definition scenario_of_record (n N : nat) (paths : option (nat * nat)) (e : example) (s : state) : Prop :=
    s_t s = 0%Z /\
    (* the log *)
    rect n 91 (s_log s) /\
    (forall part steps from i k p, In (part, steps, from) parts -> k < steps ->
       at2 (s_log s) i (from + k) = Some p -> frame_of_record e part steps i k p) /\
    (* boxes: the mean over the valid steps, at every step *)
    (forall name dim i row, In (name, dim) box_floats -> nth_error (s_log s) i = Some row ->
       exists sizes, length sizes = 91 /\
         (forall part steps from k, In (part, steps, from) parts -> k < steps ->
            nth_error sizes (from + k) = float_entry e (state_key part name) (i * steps + k)) /\
         forall p, In p row -> dim p = line_mean sizes (map p_valid row) fm1) /\
    (* the simulated trajectory: the first frame of the log, and nothing *)
    rect n 91 (s_sim s) /\ (forall i, i < n -> at2 (s_sim s) i 0 = at2 (s_log s) i 0) /\
    (forall i t p, 0 < t -> at2 (s_sim s) i t = Some p -> p = mkpt f0 f0 f0 f0 f0 f0 false 0 f0 f0 f0) /\
    (* lights, objects, road and paths *)
    rect 16 91 (s_tls s) /\
    (forall part steps from l k x, In (part, steps, from) parts -> k < steps ->
       at2 (s_tls s) l (from + k) = Some x -> light_of_record e part k l x) /\
    length (s_meta s) = n /\ (forall i m, nth_error (s_meta s) i = Some m -> object_of_record e i m) /\
    (exists rg, s_rg s = Some rg /\ length rg = N /\
       forall i r, nth_error rg i = Some r -> road_point_of_record e i r) /\
    match paths with
    | None => s_paths s = None
    | Some (P, K) => exists ps, s_paths s = Some ps /\ length ps = P /\
        forall i p, nth_error ps i = Some p -> length (path_pts p) = K /\
          option_map nonzero (int_entry e "path_samples/on_route" i) = Some (path_on_route p) /\
          forall j q, nth_error (path_pts p) j = Some q -> path_point_of_record e K i j q
    end.

  (** How many of the 128 objects are kept: all, the first z, or all but the last -z. *)
  Definition kept (max_num_objects : option Z) : nat :=
    match max_num_objects with
    | None => 128
    | Some z => if (z <? 0)%Z then 128 - Z.to_nat (- z) else Nat.min (Z.to_nat z) 128
    end.

  (** The sizes of the paths that the configuration asks for. *)
  Definition wanted_paths (c : dataset_config) : option (nat * nat) :=
    if dc_include_sdc_paths c then
      match dc_num_paths c, dc_num_points c with Some P, Some K => Some (P, K) | _, _ => None end
    else None.

  (** The arrays of a batch of shape [B] of scenarios with [n] objects and [N] road points. *)
  Definition loaded_shape (B : list nat) (n N : nat) (paths : option (nat * nat)) (s : bstate) : Prop :=
    batch_of B n 91 s /\ dims (b_t s) = B /\ dims (b_tls s) = B ++ [16; 91] /\ has_roadgraph B N s /\
    match paths with Some (P, K) => has_paths B P K s | None => b_paths s = None end.

  (** A batch shape that fits the requested one: no larger in any dimension. *)
  Definition shape_within (B wanted : list nat) : Prop := Forall2 (fun b d => 1 <= b <= d) B wanted.

  (** The scenarios of a batch, in row-major order. *)
  Definition scenarios (s : bstate) : list state := map (scenario s) (indices (b_shape s)).
End LoaderSpec.
