(** Facts about specs. *)
From Coq Require Import List ZArith Bool Lia.
From Verif.Lib Require Import Base JaxIndex Scalar.
From Verif.Model Require Import State Dynamics BaseEnv Dyn_State Dyn_Delta Dyn_Bicycle Discretizer Batch Specs.
From Verif.Spec Require Import BatchSpec SpecsSpec.
Import ListNotations.
Open Scope nat_scope.

Lemma indices_inside d i : In i (indices d) <-> inside d i.
Proof.
  unfold inside. revert i. induction d as [|n d IH]; intros i; simpl.
  - split; [intros [<-|[]]; constructor | intros H; inversion H; auto].
  - rewrite in_flat_map. split.
    + intros (k & Hk & H). apply in_seq in Hk. apply in_map_iff in H as (j & <- & Hj). constructor; [lia | now apply IH].
    + intros H. inversion H as [|? k ? j Hk Hj]; subst. exists k. split; [apply in_seq; lia|].
      apply in_map. now apply IH.
Qed.

Lemma flat_map_length_const {A B} (f : A -> list B) k l : (forall x, length (f x) = k) ->
  length (flat_map f l) = length l * k.
Proof. intros H. induction l; simpl; [reflexivity|]. rewrite app_length, H, IHl. lia. Qed.

Lemma indices_length d : length (indices d) = numel d.
Proof.
  induction d as [|n d IH]; simpl; [reflexivity|].
  rewrite (flat_map_length_const _ (length (indices d))) by (intros; now rewrite map_length).
  now rewrite seq_length, IH.
Qed.

Lemma flat_length {A} (x : arr A) : length (flat x) = numel (dims x).
Proof. unfold flat. now rewrite map_length, indices_length. Qed.

Lemma map_flat_map {A B C} (g : B -> C) (f : A -> list B) l :
  map g (flat_map f l) = flat_map (fun x => map g (f x)) l.
Proof. induction l; simpl; [reflexivity|]. now rewrite map_app, IHl. Qed.

(** The entries of a matrix are those of its rows. *)
Lemma flat_rows {A} (x : arr A) n d : dims x = [n; d] ->
  flat x = concat (map (fun i => flat (row_of x i)) (seq 0 n)).
Proof.
  intros E. unfold flat at 1. rewrite E. change (indices [n; d]) with (flat_map (fun i => map (cons i) (indices [d])) (seq 0 n)).
  rewrite map_flat_map, <- flat_map_concat_map. apply flat_map_ext. intros i. rewrite map_map.
  unfold flat, row_of. simpl. now rewrite E.
Qed.

Lemma flat_vec {A} (x : arr A) d : dims x = [d] -> flat x = map (fun j => cell x [j]) (seq 0 d).
Proof.
  intros E. unfold flat. rewrite E. simpl. rewrite flat_map_concat_map, concat_map, !map_map. simpl.
  induction (seq 0 d); simpl; [reflexivity|]. now rewrite IHl.
Qed.

Lemma inside_vec d i : inside [d] i <-> exists j, i = [j] /\ j < d.
Proof.
  unfold inside. split.
  - intros H. inversion H as [|? j ? l Hj Hl]; subst. inversion Hl; subst. eauto.
  - intros (j & -> & H). repeat constructor. exact H.
Qed.

Lemma inside_mat n d i : inside [n; d] i <-> exists k j, i = [k; j] /\ k < n /\ j < d.
Proof.
  unfold inside. split.
  - intros H. inversion H as [|? k ? l Hk Hl]; subst. apply inside_vec in Hl as (j & -> & Hj). eauto.
  - intros (k & j & -> & Hk & Hj). repeat constructor; assumption.
Qed.

Section Specs.
  Context {S : Scalar}.

  Lemma bto_vec d : broadcasts_to [d] [d] = true.
  Proof. unfold broadcasts_to, bdims. simpl. now rewrite Nat.eqb_refl; simpl; rewrite Nat.eqb_refl. Qed.
  Lemma bto_mat n d : broadcasts_to [n; d] [n; d] = true.
  Proof. unfold broadcasts_to, bdims. simpl. rewrite !Nat.eqb_refl. simpl. now rewrite !Nat.eqb_refl. Qed.

  Lemma bidx_self d i : inside d i -> bidx d i = i.
  Proof.
    intros H. unfold bidx. rewrite (Forall2_len _ _ _ H), Nat.sub_diag. simpl.
    induction H as [|k j d i Hk H IH]; simpl; [reflexivity|].
    rewrite IH. destruct (Nat.eqb_spec k 1); [|reflexivity]. f_equal. lia.
  Qed.

  (** A successful BoundedArray with full-shaped bounds. *)
  Lemma bounded_array_Ok shape dt mn mx sp : bounded_array shape dt mn mx = Ok sp ->
    sp = mkbs shape dt mn mx /\
    (dims mn = shape -> dims mx = shape -> forall i, inside shape i -> fltb (cell mx i) (cell mn i) = false).
  Proof.
    unfold bounded_array. destruct (_ && _); [simpl|discriminate].
    destruct (forallb _ _) eqn:E; [simpl|discriminate]. intros H; injection H as <-. split; [reflexivity|].
    intros E1 E2 i Hi. rewrite forallb_forall in E. specialize (E i (proj2 (indices_inside _ _) Hi)).
    rewrite E1, E2, !bidx_self in E by exact Hi. now apply negb_true_iff in E.
  Qed.

  Lemma bounded_array_make shape dt mn mx :
    broadcasts_to shape shape = true -> dims mn = shape -> dims mx = shape ->
    (forall i, inside shape i -> fltb (cell mx i) (cell mn i) = false) ->
    bounded_array shape dt mn mx = Ok (mkbs shape dt mn mx).
  Proof.
    intros B E1 E2 H. unfold bounded_array. rewrite E1, E2, B. simpl.
    replace (forallb _ _) with true; [reflexivity|]. symmetry. apply forallb_forall. intros i Hi.
    apply indices_inside in Hi. rewrite !bidx_self by exact Hi. now rewrite H.
  Qed.

  Lemma vec_spec_of d dt l m sp : 1 <= d -> length l = d -> length m = d ->
    bounded_array [d] dt (vec1 l) (vec1 m) = Ok sp ->
    vector_spec d sp /\ sp = mkbs [d] dt (vec1 l) (vec1 m).
  Proof.
    intros Hd L M H. destruct (bounded_array_Ok _ _ _ _ _ H) as [-> C].
    assert (D1 : dims (vec1 l) = [d]) by (simpl; now rewrite L).
    assert (D2 : dims (vec1 m) = [d]) by (simpl; now rewrite M).
    split; [|reflexivity]. unfold vector_spec. cbn [bs_shape bs_min bs_max].
    split; [reflexivity|]. split; [exact D1|]. split; [exact D2|]. split; [exact Hd|].
    intros j Hj. apply C; auto. apply inside_vec; eauto.
  Qed.

  Lemma delta_vec q sp : delta_action_spec q = Ok sp -> vector_spec 3 sp.
  Proof. intros H. apply (vec_spec_of 3) in H; [apply H|lia|reflexivity|reflexivity]. Qed.
  Lemma bicycle_vec q sp : bicycle_action_spec q = Ok sp -> vector_spec 2 sp.
  Proof. unfold bicycle_action_spec, bicycle_spec. intros H. apply (vec_spec_of 2) in H; [apply H|lia|reflexivity|reflexivity]. Qed.
  Lemma dw_vec w sp : dw_action_spec w = Ok sp -> vector_spec 1 sp.
  Proof. intros H. apply (vec_spec_of 1) in H; [apply H|lia|reflexivity|reflexivity]. Qed.

  (** The multi-agent action spec. *)
  Lemma base_spec c dim sp : vector_spec dim sp ->
    exists sp', base_action_spec c (Ok sp) = Ok sp' /\ bs_shape sp' = [c_max_num_objects c; dim] /\
      bs_dtype sp' = bs_dtype sp /\
      forall a, conforms sp' a <-> dims a = [c_max_num_objects c; dim] /\
                  forall i, i < c_max_num_objects c -> conforms sp (row_of a i).
  Proof.
    intros (E & E1 & E2 & Hd & C). set (n := c_max_num_objects c).
    exists (mkbs [n; dim] (bs_dtype sp) (tile_rows n (bs_min sp)) (tile_rows n (bs_max sp))).
    split.
    { unfold base_action_spec. cbn [bind]. rewrite E1, E2, E. fold n. apply bounded_array_make.
      - apply bto_mat.
      - unfold tile_rows; cbn [dims]. now rewrite E1.
      - unfold tile_rows; cbn [dims]. now rewrite E2.
      - intros i Hi. apply inside_mat in Hi as (k & j & -> & _ & Hj). now apply C. }
    split; [reflexivity|]. split; [reflexivity|]. intros a. unfold conforms. cbn [bs_shape bs_min bs_max]. split.
    - intros [Da H]. split; [exact Da|]. intros i Hi. split; [simpl; now rewrite Da, E|].
      rewrite E. intros j lo hi Hj Bl Bh. apply inside_vec in Hj as (j' & -> & Hj).
      apply (H [i; j'] lo hi).
      + apply inside_mat; eauto.
      + right. destruct Bl as [[D _]|[_ ->]]; [rewrite E1 in D; discriminate|]. cbn. rewrite E1. auto.
      + right. destruct Bh as [[D _]|[_ ->]]; [rewrite E2 in D; discriminate|]. cbn. rewrite E2. auto.
    - intros [Da H]. split; [exact Da|]. intros i lo hi Hi Bl Bh. apply inside_mat in Hi as (k & j & -> & Hk & Hj).
      destruct (H k Hk) as [_ H']. apply (H' [j] lo hi).
      + rewrite E. apply inside_vec; eauto.
      + right. rewrite E1. destruct Bl as [[D _]|[_ ->]]; [discriminate D|]. auto.
      + right. rewrite E2. destruct Bh as [[D _]|[_ ->]]; [discriminate D|]. auto.
  Qed.

  Lemma base_spec_state c sp : state_action_spec = Ok sp -> base_action_spec c state_action_spec = Err IndexError.
  Proof.
    intros H. rewrite H. destruct (bounded_array_Ok _ _ _ _ _ H) as [-> _]. reflexivity.
  Qed.

  (** Squeezing. *)
  Lemma squeeze_spec sp : vector_spec 1 sp ->
    exists sp', dm_action_spec true (Ok sp) = Ok sp' /\ bs_shape sp' = [] /\ bs_dtype sp' = bs_dtype sp /\
      forall x, conforms sp' (scalar x) <-> conforms sp (vec1 [x]).
  Proof.
    intros (E & E1 & E2 & _ & C).
    exists (mkbs [] (bs_dtype sp) (scalar (cell (bs_min sp) [0])) (scalar (cell (bs_max sp) [0]))). split.
    { unfold dm_action_spec. cbn [bind]. rewrite E. cbn [dims_eqb Nat.eqb andb]. rewrite E1, E2.
      apply bounded_array_make; try reflexivity. intros i Hi. inversion Hi; subst. apply C. lia. }
    split; [reflexivity|]. split; [reflexivity|]. intros x. unfold conforms. cbn [bs_shape bs_min bs_max]. split.
    - intros [_ H]. split; [simpl; now rewrite E|]. rewrite E. intros i lo hi Hi Bl Bh.
      apply inside_vec in Hi as (j & -> & Hj). assert (j = 0) as -> by lia.
      destruct (H [] lo hi) as [A B].
      + constructor.
      + left. destruct Bl as [[D _]|[_ ->]]; [rewrite E1 in D; discriminate|]. auto.
      + left. destruct Bh as [[D _]|[_ ->]]; [rewrite E2 in D; discriminate|]. auto.
      + auto.
    - intros [_ H]. split; [reflexivity|]. intros i lo hi Hi Bl Bh. inversion Hi; subst.
      rewrite E in H. apply (H [0] lo hi).
      + apply inside_vec; eauto.
      + right. rewrite E1. destruct Bl as [[_ ->]|[_ ->]]; auto.
      + right. rewrite E2. destruct Bh as [[_ ->]|[_ ->]]; auto.
  Qed.
End Specs.
