(** Model of waymax/dynamics/discretizer.py. *)
From Coq Require Import List ZArith Bool.
From Verif.Lib Require Import Base JaxIndex Scalar.
From Verif.Model Require Import Operations State Dynamics Geometry.
Import ListNotations.

(** Product of the entries, jnp.prod on int arrays.  Integers are unbounded here
    (int32 overflow for more than 2^31 - 1 discrete actions is not modelled). *)
Definition prodZ (l : list Z) : Z := fold_right Z.mul 1%Z l.

(** jnp.clip on ints. *)
Definition zclip (x lo hi : Z) : Z := Z.min (Z.max x lo) hi.

(** jnp.ravel_multi_index(mode='clip') (jax library behaviour): row-major index,
    each coordinate clipped to its dimension. *)
Fixpoint ravel_multi_index (idx dims : list Z) : Z :=
  match idx, dims with
  | i :: idx', d :: dims' => (zclip i 0 (d - 1) * prodZ dims' + ravel_multi_index idx' dims')%Z
  | _, _ => 0%Z
  end.

(** jnp.unravel_index (jax library behaviour): the index is clipped to
    [-size, size - 1]; coordinate j is (index mod cum_j) // cum_{j+1} with cum_j the
    product of the dimensions from j on. *)
Fixpoint unravel_from (k : Z) (dims : list Z) : list Z :=
  match dims with
  | [] => []
  | d :: dims' => ((k mod (d * prodZ dims')) / prodZ dims')%Z :: unravel_from k dims'
  end.
Definition unravel_index (k : Z) (dims : list Z) : list Z :=
  unravel_from (zclip k (- prodZ dims) (prodZ dims - 1)) dims.

(** numpy broadcasting of two 1-d arrays. *)
Definition bcast2 {A B C} (f : A -> B -> C) (l : list A) (m : list B) : res (list C) :=
  if (length l =? length m)%nat then Ok (map2 f l m) else
  match l, m with
  | [x], _ => Ok (map (f x) m)
  | _, [y] => Ok (map (fun x => f x y) l)
  | _, _ => Err TypeError
  end.

Section Discretizer.
  Context {S : Scalar}.
  Local Open Scope F_scope.

  (** discretizer.py:37-57, the attributes of Discretizer. *)
  Record discretizer := mkdisc {
    dz_mins : list F; dz_bins : list Z; dz_scale : list F }.
  Definition dz_dims (d : discretizer) : list Z := map (fun b => (b + 1)%Z) (dz_bins d).
  (** discretizer.py:57 *)
  Definition dz_max_idx (d : discretizer) : Z := (prodZ (dz_dims d) - 1)%Z.

  (** discretizer.py:37-57, the constructor on 1-d arrays.  Line 50 joins the two
      shape comparisons with "and". *)
  Definition make_discretizer (min_value max_value : list F) (bins : list Z) : res discretizer :=
    let* _ := guard (negb (negb (length min_value =? length max_value)%nat
                           && negb (length min_value =? length bins)%nat)) ValueError in
    let* range := bcast2 fsub max_value min_value in
    let* scale := bcast2 (fun b r => fofZ b / r) bins range in
    Ok (mkdisc min_value bins scale).

  (** discretizer.py:59-81, discretize of one vector.  jnp.split into bins.shape[0]
      columns is modelled only for as many columns as bins. *)
  Definition discretize (d : discretizer) (values : list F) : res Z :=
    let* _ := guard (length values =? length (dz_mins d))%nat ValueError in
    let* shifted := bcast2 fsub values (dz_mins d) in
    let* normalized := bcast2 fmul shifted (dz_scale d) in
    let* nd := bcast2 (fun x b => frint (fmax (fmin x (fofZ b)) f0)) normalized (dz_bins d) in
    let* _ := guard (length nd =? length (dz_bins d))%nat ValueError in
    Ok (ravel_multi_index nd (dz_dims d)).

  (** discretizer.py:83-103, make_continuous of one index. *)
  Definition make_continuous (d : discretizer) (index : Z) : res (list F) :=
    let nd := unravel_index index (dz_dims d) in
    let* v := bcast2 (fun i s => fofZ i / s) nd (dz_scale d) in
    bcast2 fadd v (dz_mins d).

  (** discretizer.py:106-145, the attributes of DiscreteActionSpaceWrapper.  The
      wrapped model comes with its action_spec (minimum, maximum). *)
  Record dwrap := mkdw {
    dw_cont : dynamics; dw_disc : discretizer; dw_bin_inverse : bool;
    dw_num_bins : Z; dw_all_cont : list (list F); dw_default : Z }.

  (** discretizer.py:109-145, the constructor. *)
  Definition make_wrapper (d : dynamics) (spec : list F * list F) (bins : list Z)
    (bin_inverse : bool) : res dwrap :=
    let num_bins := prodZ (map (fun b => (b + 1)%Z) bins) in
    let* disc := make_discretizer (fst spec) (snd spec) bins in
    let* all_cont := mapM (fun k => make_continuous disc (Z.of_nat k)) (seq 0 (Z.to_nat num_bins)) in
    let* default := discretize disc (repeat f0 (length (fst spec))) in
    Ok (mkdw d disc bin_inverse num_bins all_cont default).

  (** discretizer.py:147-151, action_spec (minimum, maximum). *)
  Definition dw_spec (w : dwrap) : Z * Z := (0, dw_num_bins w - 1)%Z.

  (** The int32 action array of the wrapper is carried as its float image; frint
      recovers the integer.  Only data with one column reshapes (line 97-99). *)
  Definition decode_action (w : dwrap) (a : act) : res act :=
    match a_data a with
    | [x] => let* v := make_continuous (dw_disc w) (frint x) in Ok (mkact v (a_valid a))
    | _ => Err TypeError
    end.

  (** discretizer.py:153-177, compute_update. *)
  Definition dw_update (w : dwrap) (acts : list act) (cur : list pt) : res (list upd) :=
    let* acts' := mapM (decode_action w) acts in
    d_update (dw_cont w) acts' cur.

  (** object_state.py:221-230, bbox_corners of one frame. *)
  Definition pt_box (p : pt) : box := mkbox (p_x p) (p_y p) (p_len p) (p_wid p) (p_yaw p).
  Definition bbox_corners (p : pt) : list vec := corners_from_bbox (pt_box p).

  (** jnp.linalg.norm of the difference of the flattened corners. *)
  Definition corner_dist (p q : pt) : F :=
    let d := map2 (fun a b => ((fst a - fst b) * (fst a - fst b)
                               + (snd a - snd b) * (snd a - snd b)))
               (bbox_corners p) (bbox_corners q) in
    fsqrt (fold_left fadd d f0).

  (** jnp.argmin: the first NaN if there is one, else the first minimum. *)
  Definition min_before (x y : F) : bool := fltb x y || (fisnan x && negb (fisnan y)).
  Fixpoint argmin_from (best : F) (best_i i : nat) (l : list F) : nat :=
    match l with
    | [] => best_i
    | x :: l' => if min_before x best then argmin_from x i (Datatypes.S i) l'
                 else argmin_from best best_i (Datatypes.S i) l'
    end.
  Definition argmin (l : list F) : nat :=
    match l with [] => 0%nat | x :: l' => argmin_from x 0 1 l' end.

  (** discretizer.py:223-304, inverse_action_by_search.  The simulated next frames
      of all candidate actions; the same action for every object. *)
  Definition search_next (d : dynamics) (tr : traj) (is_controlled valid : list bool)
    (timestep : Z) (data : list F) : res (list pt) :=
    let* sim := forward d (map (fun v => mkact data v) valid) tr tr is_controlled timestep false in
    dynamic_index sim (timestep + 1).

  Definition inverse_action_by_search (tr : traj) (ms : list meta) (timestep : Z)
    (d : dynamics) (all_cont : list (list F)) (placeholder : Z) : res (list act) :=
    let* is_controlled := get_control_mask ms SDC in
    let* vs := dynamic_slice (map (map p_valid) tr) timestep 2 in
    let valid := map (fun r => nth 0 r false && nth 1 r false) vs in
    let* nexts := mapM (search_next d tr is_controlled valid timestep) all_cont in
    let* log := dynamic_index tr (timestep + 1) in
    let best (i : nat) (l : pt) : nat :=
      argmin (map (fun next => corner_dist (nth i next zero_pt) l) nexts) in
    Ok (map2 (fun v k => mkact [fofZ (where_ v (Z.of_nat k) placeholder)] v)
          valid (mapi best log)).

  (** discretizer.py:179-220, inverse. *)
  Definition dw_inverse (w : dwrap) (tr : traj) (ms : list meta) (timestep : Z) : res (list act) :=
    if dw_bin_inverse w then
      let* acts := d_inverse (dw_cont w) tr ms timestep in
      mapM (fun a => let* k := discretize (dw_disc w) (a_data a) in
                     Ok (mkact [fofZ k] (a_valid a))) acts
    else inverse_action_by_search tr ms timestep (dw_cont w) (dw_all_cont w) (dw_default w).

  (** discretizer.py:106-220, DiscreteActionSpaceWrapper as a dynamics model. *)
  Definition DiscreteActionSpaceWrapper (w : dwrap) : dynamics :=
    mkdyn (dw_update w) (dw_inverse w).
End Discretizer.
