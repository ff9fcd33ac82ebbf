(** Model of the WOMD dictionaries: arrays by shape and entries, and
    waymax/dataloader/womd_utils.py:58-134 and womd_dataloader.py:58-79. *)
From Coq Require Import String.
From Coq Require Import List ZArith Bool Arith.
From Verif.Lib Require Import Base Scalar.
From Verif.Model Require Import Geometry.
Import ListNotations.
Local Open Scope nat_scope.

Section Womd.
  Context {S : Scalar}.

  (** One array entry: a float, an integer or a boolean. *)
  Inductive val := VF (x : F) | VI (z : Z) | VB (b : bool).

  (** An array: its shape and its entries by multi-index. *)
  Record tensor := mkT { dims : list nat; cell : list nat -> val }.

  (** A Python dict with string keys, in insertion order. *)
  Definition dict := list (string * tensor).
  Fixpoint get (d : dict) (k : string) : option tensor :=
    match d with
    | [] => None
    | (k', v) :: d' => if String.eqb k k' then Some v else get d' k
    end.
  Fixpoint dset (d : dict) (k : string) (v : tensor) : dict :=
    match d with
    | [] => [(k, v)]
    | (k', v') :: d' => if String.eqb k k' then (k', v) :: d' else (k', v') :: dset d' k v
    end.
  (** d[k] *)
  Definition getk (d : dict) (k : string) : res tensor :=
    match get d k with Some v => Ok v | None => Err KeyError end.

  (** s.startswith(p), with the rest of s. *)
  Fixpoint strip (p s : string) : option string :=
    match p, s with
    | EmptyString, _ => Some s
    | String a p', String b s' => if Ascii.eqb a b then strip p' s' else None
    | _, _ => None
    end.

  Fixpoint set_nth {A} (n : nat) (v : A) (l : list A) : list A :=
    match n, l with
    | _, [] => []
    | 0, _ :: r => v :: r
    | Datatypes.S n', a :: r => a :: set_nth n' v r
    end.

  (** tf.concat of two arrays on an axis counted from the front: the ranks agree, and
      so do the other sizes. *)
  Definition tconcat (ax : nat) (a b : tensor) : res tensor :=
    let na := nth ax (dims a) 0 in
    let nb := nth ax (dims b) 0 in
    let* _ := guard ((ax <? length (dims a)) && (length (dims a) =? length (dims b))
                     && forallb (fun p => fst p =? snd p)
                          (combine (set_nth ax 0 (dims a)) (set_nth ax 0 (dims b)))) ValueError in
    Ok (mkT (set_nth ax (na + nb) (dims a))
         (fun idx => let k := nth ax idx 0 in
                     if k <? na then cell a idx else cell b (set_nth ax (k - na) idx))).

  (** tf.concat([p, c, f], axis=-back). *)
  Definition tconcat3 (back : nat) (p c f : tensor) : res tensor :=
    let* _ := guard (back <=? length (dims p)) ValueError in
    let ax := length (dims p) - back in
    let* pc := tconcat ax p c in
    tconcat ax pc f.

  (** womd_utils.py:85-96 and 97-121 for one feature under [kind]. *)
  Definition aggregate_feature (d : dict) (kind feature : string) (back : nat) : res (string * tensor) :=
    let* p := getk d (kind ++ "/past/" ++ feature) in
    let* c := getk d (kind ++ "/current/" ++ feature) in
    let* f := getk d (kind ++ "/future/" ++ feature) in
    let* a := tconcat3 back p c f in
    Ok ((kind ++ "/all/" ++ feature)%string, a).

  (** womd_utils.py:74-80, the features under kind/current/. *)
  Definition current_features (d : dict) (kind : string) : list string :=
    flat_map (fun kv => match strip (kind ++ "/current/") (fst kv) with Some f => [f] | None => [] end) d.

  (** womd_utils.py:98-102. *)
  Definition tl_back (feature : string) : nat :=
    if String.eqb feature "timestamp_micros" then 1 else 2.

  Definition removed_keys (kind feature : string) : list string :=
    [(kind ++ "/past/" ++ feature)%string; (kind ++ "/current/" ++ feature)%string;
     (kind ++ "/future/" ++ feature)%string].

  (** womd_utils.py:122-129. *)
  Definition which_time (past_length future_length : nat) : tensor :=
    mkT [past_length + 1 + future_length]
      (fun idx => let k := nth 0 idx 0 in
                  VF (if k <? past_length then fopp f1 else if k <? past_length + 1 then f0 else f1)).

  (** x.shape[1] *)
  Definition shape1 (t : tensor) : res nat :=
    match nth_error (dims t) 1 with Some n => Ok n | None => Err IndexError end.

  Definition state_kind : string := "state".
  Definition tl_kind : string := "traffic_light_state".

  (** womd_utils.py:58-134, aggregate_time_tensors.  Simplification: the sets of
      features are visited in the order of the dictionary. *)
  Definition aggregate_time_tensors (d : dict) : res dict :=
    let state_features := current_features d state_kind in
    let tl_features := current_features d tl_kind in
    let* sts := mapM (fun f => aggregate_feature d state_kind f 1) state_features in
    let* tls := mapM (fun f => aggregate_feature d tl_kind f (tl_back f)) tl_features in
    let removed := flat_map (removed_keys state_kind) state_features
                   ++ flat_map (removed_keys tl_kind) tl_features in
    let* pv := getk d "state/past/valid" in
    let* past_length := shape1 pv in
    let* fv := getk d "state/future/valid" in
    let* future_length := shape1 fv in
    let concatenated := sts ++ tls ++ [("state/which_time"%string, which_time past_length future_length)] in
    let kept := filter (fun kv => negb (existsb (String.eqb (fst kv)) removed)) d in
    Ok (fold_left (fun acc kv => dset acc (fst kv) (snd kv)) (concatenated ++ kept) []).

  (** womd_dataloader.py:67 on one entry; an integer entry is converted. *)
  Definition wrap_val (v : val) : val :=
    match v with
    | VF x => VF (wrap_yaws x)
    | VI z => VF (wrap_yaws (fofZ z))
    | VB b => VF (wrap_yaws (fbool b))
    end.

  (** v[:n] for an int n, on the first axis. *)
  Definition py_stop (n : Z) (size : nat) : nat :=
    if (n <? 0)%Z then Z.to_nat (Z.of_nat size + n) else Nat.min (Z.to_nat n) size.
  Definition take_rows (n : Z) (t : tensor) : res tensor :=
    match dims t with
    | [] => Err ValueError
    | d :: ds => Ok (mkT (py_stop n d :: ds) (cell t))
    end.

  (** womd_dataloader.py:58-79, preprocess_womd_example. *)
  Definition preprocess_womd_example (example : dict) (aggregate_timesteps : bool)
    (max_num_objects : option Z) : res dict :=
    let* processed :=
      if aggregate_timesteps then
        let* p := aggregate_time_tensors example in
        let* yaw := getk p "state/all/bbox_yaw" in
        Ok (dset p "state/all/bbox_yaw" (mkT (dims yaw) (fun idx => wrap_val (cell yaw idx))))
      else Ok example in
    match max_num_objects with
    | None => Ok processed
    | Some n =>
        mapM (fun kv => match strip "state/" (fst kv) with
                        | Some _ => let* v := take_rows n (snd kv) in Ok (fst kv, v)
                        | None => Ok kv
                        end) processed
    end.
End Womd.
