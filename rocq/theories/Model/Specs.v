(** Model of the environment specs: the action_spec of the dynamics models
    (waymax/dynamics), action_spec, reward_spec and discount_spec of the environments
    (waymax/env/base_environment.py, planning_agent_environment.py) and of the dm_env
    wrapper (waymax/env/wrappers/dm_env_wrapper.py). *)
From Coq Require Import List ZArith Bool.
From Verif.Lib Require Import Base JaxIndex Scalar.
From Verif.Model Require Import State Dynamics BaseEnv Dyn_State Dyn_Delta Dyn_Bicycle Discretizer Batch.
Import ListNotations.

(** The dtypes that occur in specs. *)
Inductive dtype := Dfloat32 | Dint32 | Dbool.

(** The multi-indices of a shape in row-major order, and an array's entries in
    that order (jnp.ravel). *)
Fixpoint indices (d : list nat) : list (list nat) :=
  match d with
  | [] => [[]]
  | n :: d' => flat_map (fun i => map (cons i) (indices d')) (seq 0 n)
  end.
Definition flat {A} (x : arr A) : list A := map (cell x) (indices (dims x)).

(** dm_env.specs.Array. *)
Record aspec := mkas { as_shape : list nat; as_dtype : dtype }.

Section Specs.
  Context {S : Scalar}.

  (** dm_env.specs.BoundedArray: the bounds keep the shape they were given in. *)
  Record bspec := mkbs {
    bs_shape : list nat; bs_dtype : dtype; bs_min : arr F; bs_max : arr F }.

  (** np.broadcast_to(x, shape) succeeds. *)
  Definition broadcasts_to (d shape : list nat) : bool :=
    match bdims d shape with Some r => dims_eqb r shape | None => false end.

  (** The constructor of dm_env.specs.BoundedArray (library behaviour): the bounds
      must broadcast to the shape and the minimum may nowhere exceed the maximum. *)
  Definition bounded_array (shape : list nat) (dt : dtype) (mn mx : arr F) : res bspec :=
    let* _ := guard (broadcasts_to (dims mn) shape && broadcasts_to (dims mx) shape) ValueError in
    let* _ := guard (forallb (fun i => negb (fltb (cell mx (bidx (dims mx) i))
                                                  (cell mn (bidx (dims mn) i))))
                             (indices shape)) ValueError in
    Ok (mkbs shape dt mn mx).

  (** np.array of a list of numbers. *)
  Definition vec1 (l : list F) : arr F := mkA [length l] (fun i => nth (hd 0%nat i) l f0).

  (** delta.py:58-66 *)
  Definition delta_action_spec (q : delta_params) : res bspec :=
    bounded_array [3] Dfloat32 (vec1 (fst (delta_spec q))) (vec1 (snd (delta_spec q))).

  (** bicycle_model.py:143-160 *)
  Definition bicycle_action_spec (q : bicycle_params) : res bspec :=
    bounded_array [2] Dfloat32 (vec1 (fst (bicycle_spec q))) (vec1 (snd (bicycle_spec q))).

  (** state_dynamics.py:30-37: the bounds are Python floats. *)
  Definition state_action_spec : res bspec :=
    bounded_array [5] Dfloat32 (scalar (fopp finf)) (scalar finf).

  (** discretizer.py:145-149; the int32 bounds carried as their float images. *)
  Definition dw_action_spec (w : dwrap) : res bspec :=
    bounded_array [1] Dint32 (vec1 [fofZ (fst (dw_spec w))]) (vec1 [fofZ (snd (dw_spec w))]).

  (** jnp.tile(x[jnp.newaxis, :], [n, 1]) of a vector. *)
  Definition tile_rows (n : nat) (x : arr F) : arr F :=
    mkA (n :: dims x) (fun i => cell x (tl i)).

  (** base_environment.py:167-186, action_spec (the data part) from the spec of the dynamics model.  Indexing a
      0-d bound with [newaxis, :] is an IndexError.  Only specs of rank 1, whose
      bounds have rank 0 or 1, are modelled. *)
  Definition base_action_spec (c : envcfg) (dyn_spec : res bspec) : res bspec :=
    let* sp := dyn_spec in
    match dims (bs_min sp), dims (bs_max sp) with
    | [_], [_] =>
        bounded_array (c_max_num_objects c :: bs_shape sp) (bs_dtype sp)
          (tile_rows (c_max_num_objects c) (bs_min sp))
          (tile_rows (c_max_num_objects c) (bs_max sp))
    | _, _ => Err IndexError
    end.

  (** planning_agent_environment.py:43-45 and 354-357, action_spec (the data part). *)
  Definition planning_action_spec (dyn_spec : res bspec) : res bspec := dyn_spec.

  (** base_environment.py:183-185 and planning_agent_environment.py:356, action_spec
      (the valid part). *)
  Definition base_valid_spec (c : envcfg) : aspec := mkas [c_max_num_objects c; 1] Dbool.
  Definition planning_valid_spec : aspec := mkas [1] Dbool.

  (** base_environment.py:220-224 and planning_agent_environment.py:436-438, reward_spec. *)
  Definition base_reward_spec (c : envcfg) : aspec := mkas [c_max_num_objects c] Dfloat32.
  Definition planning_reward_spec : aspec := mkas [] Dfloat32.

  (** base_environment.py:191-194 and planning_agent_environment.py:440-443, discount_spec. *)
  Definition discount_spec : res bspec := bounded_array [] Dfloat32 (scalar f0) (scalar f1).

  (** dm_env_wrapper.py:154-166, DMEnvWrapper.action_spec. *)
  Definition dm_action_spec (squeeze_scalar_actions : bool) (env_spec : res bspec) : res bspec :=
    let* sp := env_spec in
    if squeeze_scalar_actions && dims_eqb (bs_shape sp) [1] then
      match dims (bs_min sp), dims (bs_max sp) with
      | [], _ | _, [] => Err IndexError
      | _, _ => bounded_array [] (bs_dtype sp) (scalar (cell (bs_min sp) [0]))
                  (scalar (cell (bs_max sp) [0]))
      end
    else Ok sp.
End Specs.
