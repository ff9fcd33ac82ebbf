(** Model of the code paths that run on states with batch dimensions: the batched
    part of waymax/datatypes/operations.py, waymax/datatypes/simulator_state.py,
    waymax/dynamics/abstract_dynamics.py, waymax/env/base_environment.py and the
    episode-end functions of waymax/env/abstract_environment.py.
    An array has a shape and one entry per multi-index.  A PyTree of arrays with a
    common shape (Trajectory, ObjectMetadata, Action, ...) is one array of
    records, as in Operations.v. *)
From Coq Require Import List ZArith Bool.
From Verif.Lib Require Import Base JaxIndex Scalar.
From Verif.Model Require Import State Dynamics BaseEnv.
Import ListNotations.

Record arr (A : Type) := mkA { dims : list nat; cell : list nat -> A }.
Arguments mkA {A} dims cell.
Arguments dims {A}.
Arguments cell {A}.

(* ---------------- numpy / JAX library semantics ---------------- *)

Fixpoint dims_eqb (a b : list nat) : bool :=
  match a, b with
  | [], [] => true
  | x :: a', y :: b' => (x =? y)%nat && dims_eqb a' b'
  | _, _ => false
  end.

(** An elementwise function of one array. *)
Definition amap {A B} (f : A -> B) (x : arr A) : arr B :=
  mkA (dims x) (fun i => f (cell x i)).

(** numpy broadcasting of two shapes, given from the last axis to the first. *)
Fixpoint bdims_rev (a b : list nat) : option (list nat) :=
  match a, b with
  | [], _ => Some b
  | _, [] => Some a
  | x :: a', y :: b' =>
      match bdims_rev a' b' with
      | None => None
      | Some r => if (x =? y)%nat then Some (x :: r)
                  else if (x =? 1)%nat then Some (y :: r)
                  else if (y =? 1)%nat then Some (x :: r) else None
      end
  end.
Definition bdims (a b : list nat) : option (list nat) :=
  option_map (@rev nat) (bdims_rev (rev a) (rev b)).

(** Where the entry of an operand of shape [d] comes from: missing leading axes
    are dropped, axes of size one are read at 0. *)
Definition bidx (d idx : list nat) : list nat :=
  map2 (fun k i => if (k =? 1)%nat then 0%nat else i) d
       (skipn (length idx - length d) idx).

(** An elementwise function of two arrays, with broadcasting.  Shapes that do not
    broadcast are an error (TypeError in JAX). *)
Definition amap2 {A B C} (f : A -> B -> C) (x : arr A) (y : arr B) : res (arr C) :=
  match bdims (dims x) (dims y) with
  | None => Err TypeError
  | Some d => Ok (mkA d (fun i => f (cell x (bidx (dims x) i)) (cell y (bidx (dims y) i))))
  end.

(** A scalar array: jnp.array(a), or a Python number. *)
Definition scalar {A} (a : A) : arr A := mkA [] (fun _ => a).

(** jax.vmap applied [length B] times maps an argument of shape [d] over leading
    axes [B]: its rank must be at least that of [B] and the sizes must agree, or
    a ValueError is raised. *)
Definition vmappable (B d : list nat) : bool := dims_eqb (firstn (length B) d) B.

(* ---------------- operations.py ---------------- *)

(** operations.py:60-95, dynamic_slice with axis=-1: _vmap_over_batch_dims maps over
    as many leading axes as the start index has.  An array without an axis left
    to slice is a ValueError, a window that does not fit a TypeError. *)
Definition b_slice {A} (inputs : arr A) (start : arr Z) (size : nat) : res (arr A) :=
  let B := dims start in
  let* _ := guard (vmappable B (dims inputs)) ValueError in
  let* _ := guard (length B <? length (dims inputs))%nat ValueError in
  let T := last (dims inputs) 0 in
  let* _ := guard (size <=? T)%nat TypeError in
  Ok (mkA (removelast (dims inputs) ++ [size])
        (fun i => cell inputs (removelast i ++
             [norm_start (cell start (firstn (length B) i)) T size + last i 0]))).

(** operations.py:60-69 and 99-121, dynamic_index with axis=-1, keepdims=False. *)
Definition b_index {A} (inputs : arr A) (index : arr Z) : res (arr A) :=
  let* x := b_slice inputs index 1 in
  Ok (mkA (removelast (dims x)) (fun i => cell x (i ++ [0]))).

(** Componentwise <= of two shapes of the same rank. *)
Fixpoint dims_leb (a b : list nat) : bool :=
  match a, b with
  | [], [] => true
  | x :: a', y :: b' => (x <=? y)%nat && dims_leb a' b'
  | _, _ => false
  end.

(** Multi-index [i] lies inside shape [d]. *)
Fixpoint insideb (d i : list nat) : bool :=
  match d, i with
  | [], [] => true
  | k :: d', j :: i' => (j <? k)%nat && insideb d' i'
  | _, _ => false
  end.

(** operations.py:60-69 and 125-177, update_by_slice_in_dim with axis=-1.  Both start indices
    are mapped together with the arrays (functools.partial binds them by keyword
    before the call, and jax.vmap maps keyword arguments over their first axis). *)
Definition b_update {A} (inputs updates : arr A) (inputs_start : arr Z)
  (updates_start : option (arr Z)) (slice_size : option nat) : res (arr A) :=
  let ust := match updates_start with Some u => u | None => inputs_start end in
  let B := dims inputs_start in
  let k := length B in
  let* _ := guard (vmappable B (dims inputs) && vmappable B (dims updates)
                   && vmappable B (dims ust)) ValueError in
  let* _ := guard ((k <? length (dims inputs))%nat
                   && (k <? length (dims updates))%nat) ValueError in
  let* u := match slice_size with
            | None => Ok updates
            | Some size =>
                (* the mapped start index must be a scalar *)
                let* _ := guard (length (dims ust) =? k)%nat TypeError in
                b_slice updates (mkA B (cell ust)) size
            end in
  let* _ := guard (dims_leb (skipn k (dims u)) (skipn k (dims inputs))) TypeError in
  let T := last (dims inputs) 0 in
  let size := last (dims u) 0 in
  Ok (mkA (dims inputs)
        (fun i =>
           let st := norm_start (cell inputs_start (firstn k i)) T size in
           let j := removelast i ++ [last i 0 - st] in
           if (st <=? last i 0)%nat && insideb (dims u) j
           then cell u j else cell inputs i)).

(* ---------------- simulator_state.py ---------------- *)

Section Batch.
  Context {S : Scalar}.

  (** simulator_state.py:43-72, SimulatorState of shape (...).  A path array is the
      points (..., num_paths, num_points_per_path) and the flags on_route. *)
  Record bstate := mkbs {
    b_sim : arr pt; b_log : arr pt; b_tls : arr tlight; b_meta : arr meta;
    b_t : arr Z; b_paths : option (arr pathpt * arr bool); b_rg : option (arr rgpt) }.

  (** simulator_state.py:74-78, shape. *)
  Definition b_shape (s : bstate) : list nat := removelast (dims (b_meta s)).

  (** object_state.py:176-179 and 171-174, num_timesteps and num_objects. *)
  Definition b_num_timesteps (x : arr pt) : nat := last (dims x) 0.
  Definition b_num_objects (x : arr pt) : nat := last (removelast (dims x)) 0.

  (** simulator_state.py:90-94, is_done. *)
  Definition b_is_done (s : bstate) : arr bool :=
    amap (fun t => (Z.of_nat (b_num_timesteps (b_log s)) <=? t + 1)%Z) (b_t s).

  (** simulator_state.py:97-99, remaining_timesteps. *)
  Definition b_remaining (s : bstate) : arr Z :=
    amap (fun t => (Z.of_nat (b_num_timesteps (b_log s)) - t - 1)%Z) (b_t s).

  (** simulator_state.py:102-116, current_sim_trajectory, current_log_trajectory. *)
  Definition b_current_sim (s : bstate) : res (arr pt) := b_slice (b_sim s) (b_t s) 1.
  Definition b_current_log (s : bstate) : res (arr pt) := b_slice (b_log s) (b_t s) 1.

  (** simulator_state.py:118-130, validate. *)
  Definition b_validate (s : bstate) : res unit :=
    let k := length (b_shape s) in
    let shapes := map (firstn k)
         ([dims (b_sim s); dims (b_log s); dims (b_tls s); dims (b_meta s); dims (b_t s)]
          ++ match b_rg s with Some rg => [dims rg] | None => [] end) in
    guard (forallb (dims_eqb (firstn k (dims (b_sim s)))) shapes) AssertionError.

  (** simulator_state.py:132-146, update_state_by_log. *)
  Definition b_update_state_by_log (s : bstate) (num_steps : nat) : res bstate :=
    let* sim' := b_update (b_sim s) (b_log s) (amap (fun t => t + 1)%Z (b_t s)) None
                   (Some num_steps) in
    Ok (mkbs sim' (b_log s) (b_tls s) (b_meta s)
          (amap (fun t => t + Z.of_nat num_steps)%Z (b_t s)) (b_paths s) (b_rg s)).

  (** simulator_state.py:149-170, get_control_mask. *)
  Definition b_get_control_mask (ms : arr meta) (ty : objtype) : res (arr bool) :=
    match ty with
    | SDC => Ok (amap m_is_sdc ms)
    | MODELED => Ok (amap m_is_modeled ms)
    | VALID => Ok (amap m_is_valid ms)
    | NON_SDC => Err ValueError
    end.

  (* ---------------- abstract_dynamics.py ---------------- *)

  (** compute_update on arrays: actions (..., num_objects), current trajectory
      (..., num_objects, 1), result (..., num_objects, 1). *)
  Definition bdynamics := arr act -> arr pt -> res (arr upd).

  Fixpoint indices (d : list nat) : list (list nat) :=
    match d with
    | [] => [[]]
    | k :: d' => flat_map (fun j => map (cons j) (indices d')) (seq 0 k)
    end.

  (** compute_update of the shipped dynamics models (state_dynamics.py:40-68,
      delta.py:68-95 and 163-195, bicycle_model.py:176-229) is elementwise over the
      leading axes; [f] is the computation for one object.  It fails only when the
      action array has the wrong number of columns. *)
  Definition b_elementwise (f : act -> pt -> res upd) : bdynamics := fun acts cur =>
    let at_ i := f (cell acts (removelast i)) (cell cur i) in
    let* _ := mapM at_ (indices (dims cur)) in
    Ok (mkA (dims cur)
          (fun i => match at_ i with
                    | Ok u => u
                    | Err _ => mkupd f0 f0 f0 f0 f0 false
                    end)).

  (** x[..., jnp.newaxis] *)
  Definition newaxis {A} (x : arr A) : arr A :=
    mkA (dims x ++ [1]) (fun i => cell x (removelast i)).

  (** abstract_dynamics.py:136-252, apply_trajectory_update_to_state.  The three
      arrays combined elementwise have the same shape, by the assertion; the
      current trajectory has it because the assertion compares with the reference
      trajectory, and a sim trajectory of another shape does not broadcast. *)
  Definition b_apply_update (us : arr upd) (sim ref : arr pt) (is_controlled : arr bool)
    (timestep : arr Z) (injection use_fallback : bool) : res (arr pt) :=
    let* cur := b_slice sim timestep 1 in
    let* nxt := b_slice ref (amap (fun t => t + 1)%Z timestep) 1 in
    let ctl := newaxis is_controlled in
    let* _ := guard (dims_eqb (dims ctl) (dims us) && dims_eqb (dims us) (dims nxt))
                AssertionError in
    let* _ := guard (dims_eqb (dims cur) (dims nxt)) TypeError in
    let updated := mkA (dims cur)
          (fun i => next_pt injection use_fallback (cell us i) (cell cur i) (cell nxt i)
                      (cell ctl i)) in
    b_update sim updated (amap (fun t => t + 1)%Z timestep) (Some (scalar 0%Z)) (Some 1%nat).

  (** abstract_dynamics.py:36-85, forward. *)
  Definition b_forward (d : bdynamics) (action : arr act) (sim ref : arr pt)
    (is_controlled : arr bool) (timestep : arr Z) (injection : bool) : res (arr pt) :=
    let* _ := guard (dims_eqb (removelast (dims sim)) (dims action)) AssertionError in
    let k := length (dims is_controlled) in
    let p := firstn k (dims sim) in
    let* _ := guard (dims_eqb p (firstn k (dims ref)) && dims_eqb p (dims is_controlled)
                     && dims_eqb p (firstn k (dims action))) AssertionError in
    let* cur := b_slice sim timestep 1 in
    let* us := d action cur in
    b_apply_update us sim ref is_controlled timestep injection false.

  (* ---------------- base_environment.py ---------------- *)

  (** base_environment.py:200-217, _get_control_mask. *)
  Definition b_env_control_mask (s : bstate) (c : envcfg) : res (arr bool) :=
    match c_controlled c, c_allow_new_objects c with
    | VALID, false =>
        b_index (amap p_valid (b_sim s)) (scalar (Z.of_nat (c_init_steps c) - 1)%Z)
    | ty, _ => b_get_control_mask (b_meta s) ty
    end.

  (** base_environment.py:64-92, reset: the new timestep is one scalar, whatever the
      shape of the state. *)
  Definition b_reset (c : envcfg) (s : bstate) : res bstate :=
    let* _ := guard (c_max_num_objects c =? b_num_objects (b_log s))%nat AssertionError in
    b_update_state_by_log
      (mkbs (amap (fun _ => invalid_pt) (b_log s)) (b_log s) (b_tls s) (b_meta s)
         (scalar (-1)%Z) (b_paths s) (b_rg s))
      (c_init_steps c).

  (** base_environment.py:114-142, step. *)
  Definition b_step (d : bdynamics) (c : envcfg) (s : bstate) (a : arr act) : res bstate :=
    let* is_controlled := b_env_control_mask s c in
    let* sim' := b_forward d a (b_sim s) (b_log s) is_controlled (b_t s)
                   (c_allow_new_objects c) in
    Ok (mkbs sim' (b_log s) (b_tls s) (b_meta s) (amap (fun t => t + 1)%Z (b_t s))
          (b_paths s) (b_rg s)).

  Fixpoint b_steps (d : bdynamics) (c : envcfg) (s : bstate) (acts : list (arr act))
    : res bstate :=
    match acts with
    | [] => Ok s
    | a :: rest => let* s' := b_step d c s a in b_steps d c s' rest
    end.

  (** Reset, then one step per action array. *)
  Definition b_episode (d : bdynamics) (c : envcfg) (s : bstate) (acts : list (arr act))
    : res bstate :=
    let* s0 := b_reset c s in b_steps d c s0 acts.

  (** abstract_environment.py:129-144, termination. *)
  Definition b_termination (s : bstate) : arr bool := mkA (b_shape s) (fun _ => false).

  (** abstract_environment.py:146-163, truncation:
      (jnp.ones(state.shape) * truncate).astype(bool). *)
  Definition b_truncation (s : bstate) : res (arr bool) :=
    amap2 (fun _ b => b) (mkA (b_shape s) (fun _ => true))
      (amap (fun r => (r <? 1)%Z) (b_remaining s)).
End Batch.
