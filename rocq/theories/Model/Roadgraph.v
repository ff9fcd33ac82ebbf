(** Model of waymax/datatypes/roadgraph.py: filter_topk_roadgraph_points. *)
From Coq Require Import List ZArith Bool.
From Verif.Lib Require Import Base JaxIndex Scalar.
From Verif.Model Require Import Operations State Geometry Metrics.
Import ListNotations.

(** roadgraph.py:204-219 stacks the int32 fields into a float32 array and
    roadgraph.py:228-229 casts them back: rounding of an integer to a 24-bit
    significand, to nearest, ties to even.  Simplification: the saturation of
    values that round to 2^31 is left out. *)
Definition float32_int (z : Z) : Z :=
  if (Z.abs z <? 2 ^ 24)%Z then z
  else
    let p := (2 ^ (Z.log2 (Z.abs z) - 23))%Z in
    let q := (Z.abs z / p)%Z in
    let r := (Z.abs z mod p)%Z in
    let q' := if (2 * r <? p)%Z then q
              else if (p <? 2 * r)%Z then (q + 1)%Z
              else if Z.even q then q else (q + 1)%Z in
    (Z.sgn z * (q' * p))%Z.

Section Roadgraph.
  Context {S : Scalar}.
  Local Open Scope F_scope.

  (** jax.lax.top_k along one axis: largest first, equal keys by lower index.
      Simplification: the order of NaN keys is not modelled. *)
  Fixpoint topk_insert (x : F * nat) (l : list (F * nat)) : list (F * nat) :=
    match l with
    | [] => [x]
    | y :: r => if fltb (fst x) (fst y) then y :: topk_insert x r else x :: l
    end.

  Definition top_k (keys : list F) (k : nat) : res (list nat) :=
    let* _ := guard (k <=? length keys)%nat ValueError in
    Ok (map snd (firstn k
      (fold_right topk_insert [] (mapi (fun i v => (v, i)) keys)))).

  (** jnp.take_along_axis on one axis with in-range indices. *)
  Definition take_along {A} (l : list A) (idx : list nat) : res (list A) :=
    mapM (fun i => match nth_error l i with Some a => Ok a | None => Err IndexError end) idx.

  (** roadgraph.py:204-231, one point after stacking and unstacking. *)
  Definition restacked (p : rgpt) : rgpt :=
    mkrg (rg_x p) (rg_y p) (rg_z p) (rg_dx p) (rg_dy p) (rg_dz p)
      (float32_int (rg_type p)) (float32_int (rg_id p)) (rg_valid p).

  (** roadgraph.py:172-233, filter_topk_roadgraph_points for one reference
      point. *)
  Definition filter_topk_roadgraph_points (rg : list rgpt) (ref : vec) (topk : nat)
    : res (list rgpt) :=
    if (length rg <? topk)%nat then Err NotImplementedError
    else if (topk <? length rg)%nat then
      let distances :=
        map (fun p => norm2 (fst ref - rg_x p) (snd ref - rg_y p)) rg in
      let valid_distances :=
        map2 (fun (p : rgpt) d => if rg_valid p then d else finf) rg distances in
      let* top_idx := top_k (map fopp valid_distances) topk in
      let* kept := take_along rg top_idx in
      Ok (map restacked kept)
    else Ok rg.
End Roadgraph.
