(** Model of waymax/datatypes/operations.py (row-structured part).
    A leaf of a PyTree with trailing axes (num_objects, num_timesteps) is a list
    of rows; axis=-1 is the position inside a row.  Simplification: the PyTree is
    one matrix of records (array of structs), so mapping over leaves and mapping
    over record fields coincide; batch dimensions are left out (vmapped). *)
From Coq Require Import List ZArith Bool.
From Verif.Lib Require Import Base JaxIndex Scalar.
Import ListNotations.

Section Rows.
  Context {A : Type}.

  (** operations.py:73-95, dynamic_slice with axis=-1. *)
  Definition dynamic_slice (inputs : list (list A)) (start_index : Z)
    (slice_size : nat) : res (list (list A)) :=
    mapM (dyn_slice start_index slice_size) inputs.

  (** operations.py:99-121, dynamic_index with axis=-1, keepdims=False.  Also used
      for a dynamic_slice of size 1 whose time axis is then squeezed. *)
  Definition dynamic_index (inputs : list (list A)) (index : Z) : res (list A) :=
    mapM (dyn_index index) inputs.

  (** Inner _update of operations.py:161-169, one row. *)
  Definition update_row (slice_size : option nat) (inputs_start updates_start : Z)
    (source update : list A) : res (list A) :=
    let* u := match slice_size with
              | Some k => dyn_slice updates_start k update
              | None => Ok update
              end in
    dyn_update inputs_start u source.

  (** Rows of [updates] beyond those of [inputs] are a shape error; when there
      are fewer, lax.dynamic_update_slice only touches the first rows. *)
  Fixpoint update_rows (slice_size : option nat) (inputs_start updates_start : Z)
    (inputs updates : list (list A)) : res (list (list A)) :=
    match inputs, updates with
    | rest, [] => Ok rest
    | [], _ :: _ => Err TypeError
    | r :: rs, u :: us =>
        let* r' := update_row slice_size inputs_start updates_start r u in
        let* rs' := update_rows slice_size inputs_start updates_start rs us in
        Ok (r' :: rs')
    end.

  (** operations.py:125-177, update_by_slice_in_dim with axis=-1. *)
  Definition update_by_slice_in_dim (inputs updates : list (list A))
    (inputs_start_idx : Z) (updates_start_idx : option Z)
    (slice_size : option nat) : res (list (list A)) :=
    let u := match updates_start_idx with
             | Some u => u
             | None => inputs_start_idx
             end in
    update_rows slice_size inputs_start_idx u inputs updates.

  (** operations.py:182-184, the alias matching the JAX api. *)
  Definition dynamic_update_slice_in_dim (inp dst : list (list A)) (start : Z)
    : res (list (list A)) :=
    update_by_slice_in_dim inp dst start None None.

  (** operations.py:34-57, update_by_mask for one array axis:
      jnp.where(mask, updates, inputs). *)
  Definition update_by_mask (inputs updates : list A) (mask : list bool) : list A :=
    map3 (fun i u m => if m : bool then u else i) inputs updates mask.
End Rows.
