(** Model of waymax/dynamics/delta.py. *)
From Coq Require Import List ZArith Bool.
From Verif.Lib Require Import Base JaxIndex Scalar.
From Verif.Model Require Import Operations State Dynamics Geometry Dyn_State.
Import ListNotations.

Section Delta.
  Context {S : Scalar}.
  Local Open Scope F_scope.

  (** delta.py:37-56, constructor parameters. *)
  Record delta_params := mkdp { dl_dt : F; dl_mx : F; dl_my : F; dl_myaw : F }.

  (** delta.py:39-42, the defaults. *)
  Definition delta_default : delta_params :=
    mkdp (flit 1 10) (flit 6 1) (flit 6 1) fpi.

  (** delta.py:58-66, action_spec (minimum, maximum). *)
  Definition delta_spec (p : delta_params) : list F * list F :=
    ([- dl_mx p; - dl_my p; - dl_myaw p], [dl_mx p; dl_my p; dl_myaw p]).

  (** delta.py:69-95, DeltaGlobal.compute_update of one object.  jnp.split into
      three single columns needs exactly three columns; a multiple of three splits
      into other widths, which updates.validate() rejects. *)
  Definition delta_global_update (q : delta_params) (a : act) (p : pt) : res upd :=
    match a_data a with
    | [dx; dy; dyaw] =>
        Ok (mkupd (p_x p + dx) (p_y p + dy) (p_yaw p + dyaw)
              (dx / dl_dt q) (dy / dl_dt q) (p_valid p && a_valid a))
    | d => Err (if (length d mod 3 =? 0)%nat then AssertionError else ValueError)
    end.

  (** delta.py:97-118, _clip_values: x and y clipped, yaw wrapped. *)
  Definition delta_clip (q : delta_params) (x y yaw : F) : F * F * F :=
    (fclip x (- dl_mx q) (dl_mx q), fclip y (- dl_my q) (dl_my q), wrap_yaws yaw).

  (** delta.py:120-155, DeltaGlobal.inverse of one object from the two sliced
      frames. *)
  Definition delta_global_inverse1 (q : delta_params) (p0 p1 : pt) : act :=
    let valid := p_valid p0 && p_valid p1 in
    let w (x : F) := where_ valid x f0 in
    let '(x, y, yaw) := delta_clip q (w (p_x p1 - p_x p0)) (w (p_y p1 - p_y p0))
                          (w (p_yaw p1 - p_yaw p0)) in
    mkact [x; y; yaw] valid.

  (** The two frames traj[t], traj[t+1]: a dynamic slice of size 2. *)
  Definition two_frames (tr : traj) (timestep : Z) : res (list (pt * pt)) :=
    let* sl := dynamic_slice tr timestep 2 in
    mapM (fun r => match r with
                   | p0 :: p1 :: _ => Ok (p0, p1)
                   | _ => Err TypeError
                   end) sl.

  Definition delta_global_inverse (q : delta_params) (tr : traj) (_ : list meta)
    (timestep : Z) : res (list act) :=
    let* ps := two_frames tr timestep in
    Ok (map (fun pq => delta_global_inverse1 q (fst pq) (snd pq)) ps).

  (** delta.py:30-155, DeltaGlobal. *)
  Definition DeltaGlobal (q : delta_params) : dynamics :=
    mkdyn (per_object (delta_global_update q)) (delta_global_inverse q).

  (** delta.py:164-196, DeltaLocal.compute_update of one object: rotate (dx, dy)
      by the current yaw, then DeltaGlobal on the three first columns.  The
      rotation needs two columns, the split in DeltaGlobal three. *)
  Definition delta_local_update (q : delta_params) (a : act) (p : pt) : res upd :=
    match a_data a with
    | dx :: dy :: dyaw :: _ =>
        let r := rotate_point (rotation_matrix_2d (p_yaw p)) (dx, dy) in
        delta_global_update q
          (mkact [fst r; snd r; dyaw] (p_valid p && a_valid a)) p
    | [_; _] => Err ValueError
    | _ => Err TypeError
    end.

  (** delta.py:198-241, DeltaLocal.inverse of one object: [p0, p1] the two frames
      used by the global inverse, [pc] the frame sliced at [timestep]. *)
  Definition delta_local_inverse1 (q : delta_params) (p0 p1 pc : pt) : act :=
    let g := delta_global_inverse1 q p0 p1 in
    match a_data g with
    | [gx; gy; gyaw] =>
        let r := rotate_point (rotation_matrix_2d (- p_yaw pc)) (gx, gy) in
        let '(x, y, yaw) := delta_clip q (fst r) (snd r) gyaw in
        mkact [x; y; yaw] (p_valid pc && a_valid g)
    | _ => g
    end.

  Definition delta_local_inverse (q : delta_params) (tr : traj) (_ : list meta)
    (timestep : Z) : res (list act) :=
    let* ps := two_frames tr timestep in
    let* cs := dynamic_index tr timestep in
    Ok (map2 (fun pq pc => delta_local_inverse1 q (fst pq) (snd pq) pc) ps cs).

  (** delta.py:158-241, DeltaLocal. *)
  Definition DeltaLocal (q : delta_params) : dynamics :=
    mkdyn (per_object (delta_local_update q)) (delta_local_inverse q).
End Delta.
