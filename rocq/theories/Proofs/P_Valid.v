(** Validity flags of updates and inverse actions (C55). *)
From Coq Require Import List ZArith Lia Bool.
From Verif.Lib Require Import Base JaxIndex Scalar.
From Verif.Model Require Import Operations State Dynamics Geometry Dyn_State Dyn_Delta Dyn_Bicycle
  Discretizer.
From Verif.Spec Require Import StateSpec ValidSpec.
From Verif.Proofs Require Import Core P_Step P_Delta P_Expert.
Import ListNotations.

Section V.
  Context {S : Scalar}.

  Lemma lift_valid v f inv :
    (forall a p u, f a p = Ok u -> u_valid u = v a p) ->
    update_valid v (mkdyn (per_object f) inv).
  Proof.
    intros Hf acts cur us H. cbn [d_update] in H.
    destruct (per_object_Ok _ _ _ _ H) as (_ & L & PO). split; auto.
    intros i a p Ea Ep. destruct (PO i a p Ea Ep) as (u & Eu & Nu). eauto.
  Qed.

  Lemma state_valid : update_valid (fun a _ => a_valid a) StateDynamics.
  Proof.
    apply lift_valid. intros a p u H. unfold state_update in H.
    destruct (a_data a) as [|? [|? [|? [|? [|? ?]]]]]; try discriminate.
    injection H as <-. reflexivity.
  Qed.

  Lemma delta_global_valid q : update_valid (fun a p => p_valid p && a_valid a) (DeltaGlobal q).
  Proof.
    apply lift_valid. intros a p u H. unfold delta_global_update in H.
    destruct (a_data a) as [|? [|? [|? [|? ?]]]]; try discriminate.
    injection H as <-. reflexivity.
  Qed.

  Lemma delta_local_valid q : update_valid (fun a p => p_valid p && a_valid a) (DeltaLocal q).
  Proof.
    apply lift_valid. intros a p u H. unfold delta_local_update, delta_global_update in H.
    destruct (a_data a) as [|? [|? [|? ?]]]; try discriminate. cbn [a_data a_valid] in H.
    injection H as <-. cbn [u_valid]. now destruct (p_valid p).
  Qed.

  Lemma bicycle_valid q : update_valid (fun a p => p_valid p && a_valid a) (InvertibleBicycleModel q).
  Proof.
    apply lift_valid. intros a p u H. unfold bicycle_update in H.
    destruct (a_data a) as [|? [|? ?]]; try discriminate.
    destruct (bicycle_clip _ _ _) in H. injection H as <-. reflexivity.
  Qed.

  Lemma state_inv_valid : inverse_valid (fun _ p1 => p_valid p1) StateDynamics.
  Proof.
    intros n T tr ms t R Ht. destruct (state_inverse_Ok n T tr ms t R Ht) as (acts & E & L & A).
    exists acts. split; auto. split; auto. intros i p0 p1 Hi _ E1.
    eexists. split; [apply (A i p1 Hi E1)|reflexivity].
  Qed.

  Lemma delta_global_inv_valid q : inverse_valid (fun p0 p1 => p_valid p0 && p_valid p1) (DeltaGlobal q).
  Proof.
    intros n T tr ms t R Ht. cbn [d_inverse DeltaGlobal]. unfold delta_global_inverse.
    destruct (two_frames_Ok n T tr t R Ht) as (ps & Hp & Lp & Ap). rewrite Hp. cbn [bind].
    eexists. split; [reflexivity|]. split; [now rewrite map_length|].
    intros i p0 p1 Hi E0 E1. rewrite nth_error_map, (Ap i p0 p1 Hi E0 E1). cbn [option_map fst snd].
    eexists. split; [reflexivity|]. unfold delta_global_inverse1. now destruct (delta_clip _ _ _ _) as [[? ?] ?].
  Qed.

  Lemma delta_local_inv_valid q : inverse_valid (fun p0 p1 => p_valid p0 && p_valid p1) (DeltaLocal q).
  Proof.
    intros n T tr ms t R Ht. cbn [d_inverse DeltaLocal]. unfold delta_local_inverse.
    destruct (two_frames_Ok n T tr t R Ht) as (ps & Hp & Lp & Ap). rewrite Hp. cbn [bind].
    destruct (dynamic_index_total n T tr (Z.of_nat t) R ltac:(lia)) as [cs Hc]. rewrite Hc. cbn [bind].
    destruct (dynamic_index_Ok n T tr (Z.of_nat t) cs R Hc) as [Lc Nc].
    rewrite norm_start_of_nat in Nc by lia.
    eexists. split; [reflexivity|]. split; [rewrite map2_length; lia|].
    intros i p0 p1 Hi E0 E1. rewrite nth_error_map2, (Ap i p0 p1 Hi E0 E1), (Nc i Hi), E0.
    cbn [fst snd]. eexists. split; [reflexivity|]. unfold delta_local_inverse1, delta_global_inverse1.
    destruct (delta_clip _ _ _ _) as [[? ?] ?]. cbn [a_data a_valid].
    destruct (delta_clip _ _ _ _) as [[? ?] ?]. cbn [a_valid]. now destruct (p_valid p0).
  Qed.

  Lemma bicycle_inv_valid q :
    inverse_valid (fun p0 p1 => p_valid p0 && p_valid p1) (InvertibleBicycleModel q).
  Proof.
    intros n T tr ms t R Ht. cbn [d_inverse InvertibleBicycleModel]. unfold bicycle_inverse.
    destruct (two_frames_Ok n T tr t R Ht) as (ps & Hp & Lp & Ap). rewrite Hp. cbn [bind].
    eexists. split; [reflexivity|]. split; [now rewrite map_length|].
    intros i p0 p1 Hi E0 E1. rewrite nth_error_map, (Ap i p0 p1 Hi E0 E1). cbn [option_map fst snd].
    eexists. split; [reflexivity|]. unfold bicycle_inverse_action.
    destruct (bicycle_inverse1 (bc_dt q) true p0 p1) as [[a s] v] eqn:E.
    destruct (bc_normalize q); destruct (bicycle_clip _ _ _); cbn [a_valid];
      unfold bicycle_inverse1 in E; injection E; intros; congruence.
  Qed.
End V.
