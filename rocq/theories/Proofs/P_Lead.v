(** Proofs for C42: selection of the leading object. *)
From Coq Require Import Reals List ZArith Bool Lra Lia Psatz.
From Verif.Lib Require Import Base JaxIndex Scalar XR.
From Verif.Model Require Import Operations State Dynamics Geometry Discretizer Metrics Waypoint.
From Verif.Spec Require Import GeomSpec WaypointSpec.
From Verif.Proofs Require Import P_Pose P_Overlap P_Metrics P_IDM.
Import ListNotations.
Open Scope R_scope.

(* ---------------- minima ---------------- *)

Lemma list_min_fin (l : list xr) r : In (Fin r) l ->
  (forall y, In y l -> y = PInf \/ exists q, y = Fin q /\ r <= q) ->
  list_min (S := XR) l = Fin r.
Proof.
  intros Hin Hall. destruct l as [|x l]; [destruct Hin|]. unfold list_min.
  assert (O : forall y, In y (x :: l) -> okd y).
  { intros y Hy. destruct (Hall y Hy) as [->|(q & -> & _)]; exact I. }
  destruct (fminl_okd l x) as (A & B & C).
  - apply O. now left.
  - apply Forall_forall. intros y Hy. apply O. now right.
  - set (m := fminl (S := XR) x l) in *. specialize (C _ Hin).
    destruct (Hall m B) as [Em|(q & Em & Hq)]; rewrite Em in C |- *.
    + discriminate.
    + simpl in C. apply Rltb_false in C. f_equal. lra.
Qed.

Lemma list_min_inf (l : list xr) : (forall y, In y l -> y = PInf) -> list_min (S := XR) l = PInf.
Proof.
  intros Hall. destruct l as [|x l]; [reflexivity|]. unfold list_min.
  destruct (fminl_okd l x) as (A & B & C).
  - rewrite (Hall x) by now left. exact I.
  - apply Forall_forall. intros y Hy. rewrite (Hall y) by now right. exact I.
  - now apply Hall.
Qed.

Lemma list_min_okd (l : list xr) : Forall okd l ->
  okd (list_min (S := XR) l) /\ (l <> [] -> In (list_min (S := XR) l) l).
Proof.
  destruct l as [|x l]; intros H; [split; [exact I|congruence]|]. inversion H; subst. unfold list_min.
  destruct (fminl_okd l x) as (A & B & C); auto.
Qed.

(* ---------------- the masked cumulative sum ---------------- *)

Definition posd (x : xr) : Prop := x = PInf \/ exists r, x = Fin r /\ 0 <= r.

Definition fill (l : list xr) : list xr :=
  map2 (fun (m : bool) (v : xr) => if m then v else Fin 0) (map (fisfinite (Scalar := XR)) l) l.
Definition pick (l c : list xr) : list xr :=
  map2 (fun (m : bool) (v : xr) => if m then v else PInf) (map (fisfinite (Scalar := XR)) l) c.

Lemma cum_low l acc y : Forall posd l -> 0 <= acc ->
  In y (pick l (cumsum_from (S := XR) (Fin acc) (fill l))) -> y = PInf \/ exists q, y = Fin q /\ acc <= q.
Proof.
  revert acc. induction l as [|x l IH]; intros acc Hl Ha; [intros []|].
  inversion Hl as [|? ? [->|(r & -> & Hr)] Hl']; subst; cbn - [Rplus].
  - intros [<-|H]; [now left|]. rewrite Rplus_0_r in H. now apply IH.
  - intros [<-|H]; [right; eexists; split; [reflexivity|lra]|].
    destruct (IH (acc + r) Hl' ltac:(lra) H) as [->|(q & -> & Hq)]; [now left|].
    right. exists q. split; auto. lra.
Qed.

Lemma cum_first l t0 r acc : Forall posd l -> 0 <= acc -> nth_error l t0 = Some (Fin r) ->
  (forall t, (t < t0)%nat -> nth_error l t = Some PInf) ->
  In (Fin (acc + r)) (pick l (cumsum_from (S := XR) (Fin acc) (fill l))) /\
  forall y, In y (pick l (cumsum_from (S := XR) (Fin acc) (fill l))) ->
    y = PInf \/ exists q, y = Fin q /\ acc + r <= q.
Proof.
  revert t0 acc. induction l as [|x l IH]; intros t0 acc Hl Ha Ht Hb; [destruct t0; discriminate|].
  inversion Hl as [|? ? Hx Hl']; subst. destruct t0 as [|t0].
  - apply Some_inj in Ht. subst x. destruct Hx as [|(r' & Er & Hr)]; [discriminate|].
    injection Er as <-. cbn - [Rplus]. split; [now left|]. intros y [<-|H].
    + right. eexists. split; [reflexivity|lra].
    + apply (cum_low l); auto. lra.
  - assert (x = PInf) by (apply Some_inj; apply (Hb 0%nat); lia). subst x.
    cbn - [Rplus]. rewrite Rplus_0_r.
    destruct (IH t0 acc Hl' Ha Ht) as [A B].
    { intros t Hlt. apply (Hb (Datatypes.S t)). lia. }
    split; [now right|]. intros y [<-|H]; [now left|now apply B].
Qed.

Lemma cum_none l acc y : (forall x, In x l -> x = PInf) ->
  In y (pick l (cumsum_from (S := XR) acc (fill l))) -> y = PInf.
Proof.
  revert acc. induction l as [|x l IH]; intros acc Hl; [intros []|].
  assert (x = PInf) by (apply Hl; now left). subst x. cbn - [Rplus xadd].
  intros [<-|H]; [reflexivity|]. eapply IH; [|exact H]. intros z Hz. apply Hl. now right.
Qed.

Lemma cumsum_eq l : cumsum (S := XR) (fill l) = cumsum_from (S := XR) (Fin 0) (fill l).
Proof.
  destruct l as [|[r| | |] l]; cbn - [Rplus]; rewrite ?Rplus_0_l; reflexivity.
Qed.

(** The velocity computed from the per-waypoint minima. *)
Definition lead_of_minima (per_t : list xr) : xr :=
  let lead := list_min (S := XR) (pick per_t (cumsum (S := XR) (fill per_t))) in
  if fisfinite (Scalar := XR) lead then lead else Fin (-1).

Lemma lead_first per t0 r : Forall posd per -> nth_error per t0 = Some (Fin r) ->
  (forall t, (t < t0)%nat -> nth_error per t = Some PInf) -> lead_of_minima per = Fin r.
Proof.
  intros Hp Ht Hb. unfold lead_of_minima. rewrite cumsum_eq.
  destruct (cum_first per t0 r 0 Hp ltac:(lra) Ht Hb) as [A B]. rewrite Rplus_0_l in *.
  now rewrite (list_min_fin _ r).
Qed.
Lemma lead_none per : (forall x, In x per -> x = PInf) -> lead_of_minima per = Fin (-1).
Proof.
  intros H. unfold lead_of_minima. rewrite cumsum_eq.
  rewrite list_min_inf; [reflexivity|]. intros y Hy. eapply cum_none; eauto.
Qed.

(* ---------------- one column ---------------- *)

Definition vels_at (speeds : list (list xr)) (coll valid : list (list bool)) : list (list xr) :=
  map3 (map3 (collision_vels_at (S := XR))) speeds coll valid.
Definition col (a : list (list xr)) (t : nat) : list xr := map (fun r => nth t r PInf) a.

Lemma clv_eq speeds coll valid n :
  compute_lead_velocity (S := XR) speeds coll valid n
  = lead_of_minima (map (fun t => list_min (S := XR) (col (vels_at speeds coll valid) t)) (seq 0 n)).
Proof.
  unfold compute_lead_velocity, lead_of_minima. unfold default_lead_velocity.
  rewrite fm1_Fin, f0_Fin. reflexivity.
Qed.

Lemma at2_vels speeds coll valid j t sv c v :
  at2 speeds j t = Some sv -> at2 coll j t = Some c -> at2 valid j t = Some v ->
  at2 (vels_at speeds coll valid) j t = Some (if v then if c then sv else PInf else PInf).
Proof.
  unfold at2, vels_at. intros A B C. rewrite nth_error_map3. change (@F XR) with xr in *. change (@F XR) with xr.
  destruct (nth_error speeds j) as [r1|]; [|discriminate].
  destruct (nth_error coll j) as [r2|]; [|discriminate].
  destruct (nth_error valid j) as [r3|]; [|discriminate].
  cbv beta iota. rewrite nth_error_map3. change (@F XR) with xr. rewrite A, B, C. reflexivity.
Qed.

Definition decided (speeds : list (list xr)) (coll valid : list (list bool)) n m : Prop :=
  rect n m speeds /\ rect n m coll /\ rect n m valid.

Lemma col_entry speeds coll valid n m t y : decided speeds coll valid n m -> (t < m)%nat ->
  In y (col (vels_at speeds coll valid) t) <->
  exists j, (j < n)%nat /\ exists sv c v, at2 speeds j t = Some sv /\ at2 coll j t = Some c /\
    at2 valid j t = Some v /\ y = (if v then if c then sv else PInf else PInf).
Proof.
  intros (R1 & R2 & R3) Ht. unfold col.
  assert (E : forall j, (j < n)%nat -> exists sv c v, at2 speeds j t = Some sv /\ at2 coll j t = Some c /\
    at2 valid j t = Some v).
  { intros j Hj. destruct (rect_at2 n m speeds j t R1 Hj Ht) as [a A].
    destruct (rect_at2 n m coll j t R2 Hj Ht) as [b B]. destruct (rect_at2 n m valid j t R3 Hj Ht) as [c C]. eauto 7. }
  split.
  - intros H. apply In_nth_error in H as [j Hj]. rewrite nth_error_map in Hj.
    destruct (nth_error (vels_at speeds coll valid) j) as [row|] eqn:Er; [|discriminate].
    cbn [option_map] in Hj. apply Some_inj in Hj.
    assert (Jn : (j < n)%nat).
    { destruct R1 as [L1 _]. rewrite <- L1. apply nth_error_Some. intros K. unfold vels_at in Er. 
      rewrite nth_error_map3 in Er. change (@F XR) with xr in Er. rewrite K in Er. discriminate. }
    exists j. split; auto. destruct (E j Jn) as (sv & c & v & A & B & C). exists sv, c, v. repeat split; auto.
    pose proof (at2_vels _ _ _ _ _ _ _ _ A B C) as K. unfold at2 in K. rewrite Er in K.
    rewrite <- Hj. apply nth_error_nth. exact K.
  - intros (j & Hj & sv & c & v & A & B & C & ->).
    pose proof (at2_vels _ _ _ _ _ _ _ _ A B C) as K. unfold at2 in K.
    destruct (nth_error (vels_at speeds coll valid) j) as [row|] eqn:Er; [|discriminate].
    apply in_map_iff. exists row. split; [|eapply nth_error_In; eauto]. apply nth_error_nth. exact K.
Qed.

Section Matrix.
  Variables (speeds : list (list xr)) (coll valid : list (list bool)) (n m : nat).
  Hypothesis D : decided speeds coll valid n m.
  Hypothesis P : forall j t, hit coll valid j t -> exists r, at2 speeds j t = Some (Fin r) /\ 0 <= r.

  Let per t := list_min (S := XR) (col (vels_at speeds coll valid) t).

  Lemma hit_lt j t : hit coll valid j t -> (j < n)%nat /\ (t < m)%nat.
  Proof.
    intros [H _]. destruct D as (_ & [L A] & _). unfold at2 in H.
    destruct (nth_error coll j) as [r|] eqn:E; [|discriminate].
    assert (Er : length r = m) by (apply A; eapply nth_error_In; eauto).
    apply nth_error_Some_lt in E. apply nth_error_Some_lt in H. lia.
  Qed.

  Lemma col_cases t y : (t < m)%nat -> In y (col (vels_at speeds coll valid) t) ->
    y = PInf \/ exists j r, hit coll valid j t /\ at2 speeds j t = Some (Fin r) /\ 0 <= r /\ y = Fin r.
  Proof.
    intros Ht H. apply (col_entry _ _ _ _ _ _ _ D Ht) in H as (j & Hj & sv & c & v & A & B & C & ->).
    destruct v; [|now left]. destruct c; [|now left]. right.
    assert (Hh : hit coll valid j t) by (split; auto).
    destruct (P j t Hh) as (r & E & Hr). exists j, r. repeat split; auto. rewrite A in E. now apply Some_inj in E.
  Qed.

  Lemma col_hit t j : hit coll valid j t -> exists r, at2 speeds j t = Some (Fin r) /\
    In (Fin r) (col (vels_at speeds coll valid) t).
  Proof.
    intros Hh. destruct (P j t Hh) as (r & E & Hr). exists r. split; auto.
    destruct (hit_lt j t Hh) as [Hj Ht]. apply (col_entry _ _ _ _ _ _ _ D Ht).
    exists j. split; auto. destruct Hh as [H1 H2]. exists (Fin r), true, true. auto.
  Qed.

  Lemma per_free t : (t < m)%nat -> (forall j, ~ hit coll valid j t) -> per t = PInf.
  Proof.
    intros Ht Hn. apply list_min_inf. intros y Hy. destruct (col_cases t y Ht Hy) as [->|(j & r & Hh & _)]; auto.
    destruct (Hn j Hh).
  Qed.

  Lemma per_posd t : (t < m)%nat -> posd (per t).
  Proof.
    intros Ht. unfold per.
    assert (O : Forall okd (col (vels_at speeds coll valid) t)).
    { apply Forall_forall. intros y Hy. destruct (col_cases t y Ht Hy) as [->|(j & r & _ & _ & _ & ->)]; exact I. }
    destruct (list_min_okd _ O) as [_ B].
    destruct (col (vels_at speeds coll valid) t) as [|x l] eqn:E; [now left|].
    rewrite <- E in *. assert (N : col (vels_at speeds coll valid) t <> []) by (rewrite E; discriminate).
    destruct (col_cases t _ Ht (B N)) as [->|(j & r & _ & _ & Hr & ->)]; [now left|right; eauto].
  Qed.

  Lemma per_hit t j : hit coll valid j t -> exists r, per t = Fin r /\
    smallest (fun j => hit coll valid j t) (fun j r => at2 speeds j t = Some (Fin r)) r.
  Proof.
    intros Hh. destruct (hit_lt j t Hh) as [Hj Ht]. unfold per.
    assert (O : Forall okd (col (vels_at speeds coll valid) t)).
    { apply Forall_forall. intros y Hy. destruct (col_cases t y Ht Hy) as [->|(j' & r & _ & _ & _ & ->)]; exact I. }
    destruct (col_hit t j Hh) as (r0 & A0 & I0).
    destruct (col (vels_at speeds coll valid) t) as [|x l] eqn:E; [destruct I0|].
    inversion O; subst. destruct (fminl_okd l x) as (A & B & C); auto.
    change (list_min (S := XR) (x :: l)) with (fminl (S := XR) x l).
    set (mn := fminl (S := XR) x l) in *. rewrite <- E in *.
    destruct (col_cases t mn Ht B) as [K|(j' & r & Hh' & A' & Hr & K)].
    - specialize (C _ I0). rewrite K in C. discriminate.
    - exists r. split; auto. split; [exists j'; auto|]. intros j2 r2 G2 E2.
      destruct (col_hit t j2 G2) as (r3 & A3 & I3). rewrite E2 in A3. injection A3 as <-.
      specialize (C _ I3). rewrite K in C. simpl in C. apply Rltb_false in C. lra.
  Qed.

  Lemma per_nth t : (t < m)%nat -> nth_error (map per (seq 0 m)) t = Some (per t).
  Proof. intros Ht. rewrite nth_error_map, (nth_error_nth' _ 0%nat) by (rewrite seq_length; auto).
    rewrite seq_nth by auto. reflexivity. Qed.

  Lemma lead_velocity_first t0 : first_hit (hit coll valid) t0 ->
    exists r, compute_lead_velocity (S := XR) speeds coll valid m = Fin r /\
      smallest (fun j => hit coll valid j t0) (fun j r => at2 speeds j t0 = Some (Fin r)) r.
  Proof.
    intros [(j & Hh) Hb]. destruct (hit_lt j t0 Hh) as [Hj Ht]. destruct (per_hit t0 j Hh) as (r & Er & Sr).
    exists r. split; auto. rewrite clv_eq. apply (lead_first _ t0).
    - apply Forall_forall. intros y Hy. apply in_map_iff in Hy as (t & <- & Hin). apply in_seq in Hin.
      apply per_posd. lia.
    - fold (per). rewrite <- Er. now apply per_nth.
    - intros t Hlt. change (nth_error (map per (seq 0 m)) t = Some PInf).
      rewrite per_nth by lia. f_equal. apply per_free; [lia|]. intros j' Hh'. exact (Hb t j' Hlt Hh').
  Qed.

  Lemma lead_velocity_none : (forall j t, ~ hit coll valid j t) ->
    compute_lead_velocity (S := XR) speeds coll valid m = Fin (-1).
  Proof.
    intros Hn. rewrite clv_eq. apply lead_none. intros y Hy. apply in_map_iff in Hy as (t & <- & Hin).
    apply in_seq in Hin. apply per_free; [lia|]. intros j. apply Hn.
  Qed.
End Matrix.

(* ---------------- distances ---------------- *)

Lemma lead_distance_first (future : list (pt (S := XR))) coll cur t0 d0 :
  length future = length coll ->
  nth_error coll t0 = Some true ->
  (exists w, nth_error future t0 = Some w /\ pt_dist3 (S := XR) cur w = Fin d0) ->
  (forall t w, nth_error coll t = Some true -> nth_error future t = Some w ->
     exists d, pt_dist3 (S := XR) cur w = Fin d /\ d0 <= d) ->
  compute_lead_distance (S := XR) future coll cur = Fin d0.
Proof.
  intros L H0 (w0 & W0 & D0) Hall. unfold compute_lead_distance.
  rewrite (list_min_fin _ d0); [reflexivity| |].
  - apply nth_error_In with t0. rewrite nth_error_map2, W0, H0, D0. reflexivity.
  - intros y Hy. apply In_nth_error in Hy as [t Ht]. rewrite nth_error_map2 in Ht.
    destruct (nth_error future t) as [w|] eqn:Ew; [|discriminate].
    destruct (nth_error coll t) as [c|] eqn:Ec; [|discriminate]. apply Some_inj in Ht. subst y.
    destruct c; [|now left]. right. destruct (Hall t w Ec Ew) as (d & -> & Hd). eauto.
Qed.

Lemma lead_distance_none (future : list (pt (S := XR))) coll cur :
  (forall t, nth_error coll t <> Some true) ->
  compute_lead_distance (S := XR) future coll cur = Fin (-1).
Proof.
  intros Hn. unfold compute_lead_distance. rewrite list_min_inf.
  - unfold default_lead_distance. rewrite fm1_Fin. reflexivity.
  - intros y Hy. apply In_nth_error in Hy as [t Ht]. rewrite nth_error_map2 in Ht.
    destruct (nth_error future t) as [w|] eqn:Ew; [|discriminate].
    destruct (nth_error coll t) as [c|] eqn:Ec; [|discriminate]. apply Some_inj in Ht. subst y.
    destruct c; [destruct (Hn t Ec)|reflexivity].
Qed.

(* ---------------- the scene ---------------- *)

Lemma is_frame_inj p f g : is_frame p f -> is_frame p g -> f = g.
Proof.
  intros (A1 & A2 & A3 & A4 & A5 & A6 & A7 & A8) (B1 & B2 & B3 & B4 & B5 & B6 & B7 & B8).
  destruct f, g; simpl in *.
  rewrite A1 in B1; rewrite A2 in B2; rewrite A3 in B3; rewrite A4 in B4; rewrite A5 in B5;
    rewrite A6 in B6; rewrite A7 in B7; rewrite A8 in B8.
  congruence.
Qed.

Lemma obj_speed_frame p f : is_frame p f -> p_valid p = true -> obj_speed (S := XR) p = Fin (rspeed f).
Proof.
  intros (_ & _ & _ & A4 & A5 & _) V. unfold obj_speed. rewrite V, A4, A5. apply norm2_Fin.
Qed.
Lemma rspeed_nonneg f : 0 <= rspeed f.
Proof. apply sqrt_pos. Qed.

Lemma pt_box_frame p f : is_frame p f -> pt_box (S := XR) p = fbox (advanced f 0).
Proof.
  intros (A1 & A2 & _ & _ & _ & A6 & A7 & A8). unfold pt_box, fbox, advanced. simpl rx; simpl ry; simpl rlen; simpl rwid; simpl ryaw.
  rewrite A1, A2, A6, A7, A8, !Rmult_0_l, !Rplus_0_r. reflexivity.
Qed.

Lemma spacing_Fin D N k : (N <> 0)%nat -> spacing (S := XR) (Fin D) N k = Fin (D * INR k / INR N).
Proof.
  intros H. unfold spacing. rewrite !fofZ_Fin, fmul_Fin, <- !INR_IZR_INZ, fdiv_Fin; auto.
  now apply not_0_INR.
Qed.

Lemma headway_box D N p f k : (N <> 0)%nat -> is_frame p f ->
  pt_box (S := XR) (headway_point (Fin D) N p k) = fbox (advanced f (D * INR k / INR N)).
Proof.
  intros H (A1 & A2 & _ & _ & _ & A6 & A7 & A8). unfold headway_point, pt_box, fbox, advanced. cbn [p_x p_y p_yaw p_len p_wid rx ry rlen rwid ryaw].
  rewrite spacing_Fin by auto. rewrite A1, A2, A6, A7, A8, fcos_Fin, fsin_Fin, !fmul_Fin, !fadd_Fin.
  f_equal; f_equal; ring.
Qed.

Lemma norm3_Fin a b c : norm3 (S := XR) (Fin a) (Fin b) (Fin c) = Fin (sqrt (a * a + b * b + c * c)).
Proof. unfold norm3. xr. rewrite fsqrt_Fin; [reflexivity|nra]. Qed.

Lemma headway_dist D N p f k : (N <> 0)%nat -> 0 <= D -> is_frame p f ->
  pt_dist3 (S := XR) p (headway_point (Fin D) N p k) = Fin (D * INR k / INR N).
Proof.
  intros H HD (A1 & A2 & A3 & _ & _ & A6 & _ & _). unfold pt_dist3, headway_point. cbn [p_x p_y p_z].
  rewrite spacing_Fin by auto. rewrite A1, A2, A3, A6, fcos_Fin, fsin_Fin, !fmul_Fin, !fadd_Fin, !fsub_Fin, norm3_Fin.
  f_equal. set (d := D * INR k / INR N).
  assert (Hd : 0 <= d).
  { unfold d, Rdiv. apply Rmult_le_pos; [apply Rmult_le_pos; auto; apply pos_INR|].
    left. apply Rinv_0_lt_compat. apply lt_0_INR. lia. }
  pose proof (cs1 (fyaw f)) as E. set (c := cos (fyaw f)) in *. set (s := sin (fyaw f)) in *.
  replace ((fx f - (c * d + fx f)) * (fx f - (c * d + fx f)) + (fy f - (s * d + fy f)) * (fy f - (s * d + fy f))
    + (fz f - fz f) * (fz f - fz f)) with (d * d).
  - now apply sqrt_square.
  - transitivity (d * d * (c * c + s * s)); [rewrite E|]; ring.
Qed.

Lemma self_dist p f : is_frame p f -> pt_dist3 (S := XR) p p = Fin 0.
Proof.
  intros (A1 & A2 & A3 & _). unfold pt_dist3. rewrite A1, A2, A3, !fsub_Fin, norm3_Fin. f_equal.
  replace (_ + _ + _) with 0 by ring. apply sqrt_0.
Qed.

(** The check points of an object that looks ahead from its present position. *)
Definition checkpoints (D : R) (N : nat) (me : pt (S := XR)) : list (pt (S := XR)) :=
  me :: map (headway_point (S := XR) (Fin D) N me) (seq 1 N).

Lemma lookahead_checkpoints (p : idm_params (S := XR)) log me D :
  lookahead_from_current_position p = true -> additional_lookahead_distance p = Fin D ->
  lookahead_traj (S := XR) p log me = Ok (checkpoints D (additional_headway_points p) me).
Proof.
  intros H HD. unfold lookahead_traj. rewrite H, HD. cbn [bind].
  unfold reference_traj. cbn [map argmin argmin_from dyn_slice length Nat.leb].
  unfold checkpoints.
  assert (E : norm_start (Z.of_nat 0) 1 1 = 0%nat) by reflexivity.
  rewrite E. cbn [skipn firstn bind].
  destruct (additional_headway_points p) as [|N]; reflexivity.
Qed.

Section Scene.
  Variables (cur : list (pt (S := XR))) (D : R) (N i : nat) (me : pt (S := XR)) (f : rframe).
  Hypothesis HD : 0 <= D.
  Hypothesis Hme : nth_error cur i = Some me.
  Hypothesis Vme : p_valid me = true.
  Hypothesis Fme : is_frame me f.
  Hypothesis Hfr : forall j p, nth_error cur j = Some p -> p_valid p = true -> exists g, is_frame p g.

  Let tr := checkpoints D N me.

  Lemma ck_len : length tr = Datatypes.S N.
  Proof. unfold tr, checkpoints. simpl. now rewrite map_length, seq_length. Qed.

  Lemma ck_nth t : (t <= N)%nat -> exists w, nth_error tr t = Some w /\ p_valid w = true /\
    pt_box w = fbox (advanced f (D * INR t / INR N)) /\ pt_dist3 (S := XR) me w = Fin (D * INR t / INR N).
  Proof.
    intros Ht. destruct t as [|t].
    - exists me. split; [reflexivity|]. split; auto.
      assert (E : D * INR 0 / INR N = 0) by (simpl INR; unfold Rdiv; ring). rewrite E.
      split; [now apply pt_box_frame|]. now apply (self_dist me f).
    - assert (Nz : (N <> 0)%nat) by lia. exists (headway_point (S := XR) (Fin D) N me (Datatypes.S t)).
      split; [|split; [|split]].
      + unfold tr, checkpoints. cbn [nth_error]. rewrite nth_error_map.
        rewrite (nth_error_nth' _ 0%nat) by (rewrite seq_length; lia). now rewrite seq_nth by lia.
      + exact Vme.
      + now apply headway_box.
      + now apply (headway_dist D N me f).
  Qed.

  Let coll := mapi (fun j c => map (fun w => collision (S := XR) i w j c) tr) cur.
  Let speeds : list (list xr) := map (fun c => map (fun _ => obj_speed (S := XR) c) tr) cur.
  Let valid := map (fun c : pt (S := XR) => map (fun _ : pt (S := XR) => p_valid c) tr) cur.
  Let any := map (fun t => existsb (fun r => nth t r false) coll) (seq 0 (length tr)).

  Lemma object_lead_eq : object_lead (S := XR) i tr cur me
    = (compute_lead_velocity (S := XR) speeds coll valid (length tr), compute_lead_distance (S := XR) tr any me).
  Proof. reflexivity. Qed.

  Lemma scene_decided : decided speeds coll valid (length cur) (length tr).
  Proof.
    unfold decided, rect. repeat split.
    - unfold speeds. apply map_length.
    - unfold speeds. intros r Hr. apply in_map_iff in Hr as (c & <- & _). apply map_length.
    - unfold coll. apply mapi_length.
    - unfold coll. intros r Hr. apply In_nth_error in Hr as [j Hj]. rewrite nth_error_mapi in Hj.
      destruct (nth_error cur j); [|discriminate]. apply Some_inj in Hj. subst r. apply map_length.
    - unfold valid. apply map_length.
    - unfold valid. intros r Hr. apply in_map_iff in Hr as (c & <- & _). apply map_length.
  Qed.

  Lemma at2_coll j t b : at2 coll j t = Some b <->
    exists c w, nth_error cur j = Some c /\ nth_error tr t = Some w /\ b = collision (S := XR) i w j c.
  Proof.
    unfold at2, coll. rewrite nth_error_mapi. destruct (nth_error cur j) as [c|]; cbn [option_map].
    - rewrite nth_error_map. destruct (nth_error tr t) as [w|]; cbn [option_map].
      + split; [intros H; apply Some_inj in H; eauto|intros (c' & w' & A & B & ->)].
        apply Some_inj in A, B. now subst.
      + split; [discriminate|intros (c' & w' & _ & B & _); discriminate].
    - split; [discriminate|intros (c' & w' & A & _); discriminate].
  Qed.
  Lemma at2_valid j t b : at2 valid j t = Some b <->
    exists c w, nth_error cur j = Some c /\ nth_error tr t = Some w /\ b = p_valid c.
  Proof.
    unfold at2, valid. rewrite nth_error_map. destruct (nth_error cur j) as [c|]; cbn [option_map].
    - rewrite nth_error_map. destruct (nth_error tr t) as [w|]; cbn [option_map].
      + split; [intros H; apply Some_inj in H; eauto|intros (c' & w' & A & B & ->)].
        apply Some_inj in A, B. now subst.
      + split; [discriminate|intros (c' & w' & _ & B & _); discriminate].
    - split; [discriminate|intros (c' & w' & A & _); discriminate].
  Qed.
  Lemma at2_speed j t b : at2 speeds j t = Some b <->
    exists c w, nth_error cur j = Some c /\ nth_error tr t = Some w /\ b = obj_speed (S := XR) c.
  Proof.
    unfold at2, speeds. rewrite nth_error_map. destruct (nth_error cur j) as [c|]; cbn [option_map].
    - rewrite nth_error_map. destruct (nth_error tr t) as [w|]; cbn [option_map].
      + split; [intros H; apply Some_inj in H; eauto|intros (c' & w' & A & B & ->)].
        apply Some_inj in A, B. now subst.
      + split; [discriminate|intros (c' & w' & _ & B & _); discriminate].
    - split; [discriminate|intros (c' & w' & A & _); discriminate].
  Qed.

  Lemma collision_spec j c t w : nth_error cur j = Some c -> nth_error tr t = Some w -> (t <= N)%nat ->
    collision (S := XR) i w j c = true <-> in_the_way cur D N i j t.
  Proof.
    intros Hc Hw Ht. destruct (ck_nth t Ht) as (w' & A & Vw & Bw & _). rewrite Hw in A. apply Some_inj in A. subst w'.
    unfold collision, in_the_way, obstructs. rewrite Vw. cbn [andb].
    destruct (p_valid c) eqn:Vc; cbn [andb].
    - destruct (Nat.eqb_spec i j) as [E|E]; cbn [negb].
      + split; [discriminate|intros (_ & Hn & _)]. congruence.
      + destruct (Hfr j c Hc Vc) as [g Hg]. rewrite Bw, (pt_box_frame c g Hg), overlap_exact. split.
        * intros H. split; auto. split; auto. exists me, c, f, g. repeat (split; auto).
        * intros (_ & _ & pi & pj & fi & fj & Ei & Ej & _ & _ & Fi & Fj & Q).
          rewrite Hme in Ei. rewrite Hc in Ej. apply Some_inj in Ei, Ej. subst pi pj.
          rewrite (is_frame_inj _ _ _ Fme Fi), (is_frame_inj _ _ _ Hg Fj). exact Q.
    - split; [discriminate|]. intros (_ & _ & pi & pj & fi & fj & Ei & Ej & _ & Vj & _).
      rewrite Hc in Ej. apply Some_inj in Ej. subst. congruence.
  Qed.

  Lemma hit_in_the_way j t : hit coll valid j t <-> in_the_way cur D N i j t.
  Proof.
    split.
    - intros [A _]. apply at2_coll in A as (c & w & Hc & Hw & E).
      apply (collision_spec j c t w); auto.
      apply nth_error_Some_lt in Hw. rewrite ck_len in Hw. lia.
    - intros H. pose proof H as (Ht & Hn & pi & pj & fi & fj & Ei & Ej & Vi & Vj & _).
      destruct (ck_nth t Ht) as (w & Hw & _). split.
      + apply at2_coll. exists pj, w. repeat split; auto. symmetry. now apply (collision_spec j pj t w).
      + apply at2_valid. exists pj, w. auto.
  Qed.

  Lemma any_spec t : nth_error any t = Some true <-> exists j, in_the_way cur D N i j t.
  Proof.
    unfold any. split.
    - intros H. rewrite nth_error_map in H.
      destruct (nth_error (seq 0 (length tr)) t) as [q|] eqn:Eq; [|discriminate].
      cbn [option_map] in H. apply Some_inj in H.
      assert (Lt : (t < length tr)%nat) by (apply nth_error_Some_lt in Eq; now rewrite seq_length in Eq).
      rewrite (nth_error_nth' _ 0%nat), seq_nth in Eq by (rewrite ?seq_length; auto). apply Some_inj in Eq. simpl in Eq. subst q.
      apply existsb_exists in H as (r & Hr & Hn). apply In_nth_error in Hr as [j Hj].
      exists j. apply hit_in_the_way.
      assert (A : at2 coll j t = Some true).
      { unfold at2. rewrite Hj. assert (Lr : length r = length tr).
        { destruct scene_decided as (_ & [_ R] & _). apply R. eapply nth_error_In; eauto. }
        rewrite (nth_error_nth' r false) by lia. now rewrite Hn. }
      split; auto. apply at2_coll in A as (c & w & Hc & Hw & E). apply at2_valid. exists c, w. repeat split; auto.
      unfold collision in E. destruct (p_valid w && p_valid c && negb (i =? j)%nat) eqn:K; [|discriminate].
      apply andb_true_iff in K as [K _]. apply andb_true_iff in K as [_ K]. auto.
    - intros (j & H). pose proof H as (Ht & _). rewrite nth_error_map.
      rewrite (nth_error_nth' _ 0%nat), seq_nth by (rewrite ?seq_length, ?ck_len; lia). cbn [option_map]. f_equal.
      apply existsb_exists. apply hit_in_the_way in H as [A _]. unfold at2 in A.
      destruct (nth_error coll j) as [r|] eqn:E; [|discriminate]. exists r.
      split; [eapply nth_error_In; eauto|]. now apply nth_error_nth.
  Qed.

  Lemma hit_speeds j t : hit coll valid j t -> exists r, at2 speeds j t = Some (Fin r) /\ 0 <= r.
  Proof.
    intros [A B]. apply at2_coll in A as (c & w & Hc & Hw & _). apply at2_valid in B as (c' & w' & Hc' & _ & V).
    rewrite Hc in Hc'. apply Some_inj in Hc'. subst c'.
    destruct (Hfr j c Hc (eq_sym V)) as [g Hg]. exists (rspeed g). split; [|apply rspeed_nonneg].
    apply at2_speed. exists c, w. repeat split; auto. symmetry. now apply obj_speed_frame.
  Qed.

  Lemma first_true (l : list bool) : (forall t, nth_error l t <> Some true) \/
    exists t0, nth_error l t0 = Some true /\ forall t, (t < t0)%nat -> nth_error l t <> Some true.
  Proof.
    induction l as [|b l IH]; [left; intros [|t]; discriminate|]. destruct b.
    - right. exists 0%nat. split; [reflexivity|]. intros; lia.
    - destruct IH as [IH|(t0 & A & B)].
      + left. intros [|t]; [discriminate|]. apply IH.
      + right. exists (Datatypes.S t0). split; auto. intros [|t] Ht; [discriminate|]. apply B. lia.
  Qed.

  Lemma scene_leader : exists u d, object_lead (S := XR) i tr cur me = (Fin u, Fin d) /\ leader cur D N i u d.
  Proof.
    rewrite object_lead_eq. destruct (first_true any) as [Hn|(k0 & Hk & Hb)].
    - exists (-1), (-1).
      rewrite (lead_velocity_none speeds coll valid (length cur) (length tr) scene_decided hit_speeds).
      + rewrite lead_distance_none by auto. split; auto. left. split; auto.
        intros j k H. apply (Hn k). apply any_spec. eauto.
      + intros j t H. apply (Hn t). apply any_spec. exists j. now apply hit_in_the_way.
    - apply any_spec in Hk as (j0 & H0).
      assert (FH : first_hit (hit coll valid) k0).
      { split; [exists j0; now apply hit_in_the_way|]. intros t j Ht Hh. apply (Hb t Ht). apply any_spec. exists j.
        now apply hit_in_the_way. }
      destruct (lead_velocity_first speeds coll valid (length cur) (length tr) scene_decided hit_speeds k0 FH)
        as (u & Eu & Su).
      exists u, (D * INR k0 / INR N). rewrite Eu.
      assert (Hk0 : (k0 <= N)%nat) by (destruct H0; auto).
      rewrite (lead_distance_first tr any me k0 (D * INR k0 / INR N)).
      + split; auto. right. exists k0. split; [|split; auto].
        * destruct FH as [(j & Hj) Hl]. split; [exists j; now apply hit_in_the_way|].
          intros t j' Ht Hw. apply (Hl t j' Ht). now apply hit_in_the_way.
        * destruct Su as [(j1 & A1 & B1) C]. split.
          -- exists j1. split; [now apply hit_in_the_way|].
             apply at2_speed in B1 as (c & w & Hc & Hw & Ev).
             destruct A1 as [_ A1]. apply at2_valid in A1 as (c' & w' & Hc' & _ & V).
             rewrite Hc in Hc'. apply Some_inj in Hc'. subst c'.
             destruct (Hfr j1 c Hc (eq_sym V)) as [g Hg]. exists c, g. split; auto. split; auto.
             rewrite (obj_speed_frame c g Hg (eq_sym V)) in Ev. congruence.
          -- intros j r Hw (p & g & Hp & Hg & ->). apply (C j); [now apply hit_in_the_way|].
             destruct (ck_nth k0 Hk0) as (w & Hww & _). apply at2_speed. exists p, w. repeat split; auto.
             symmetry. apply obj_speed_frame; auto.
             destruct Hw as (_ & _ & pi & pj & fi & fj & Ei & Ej & _ & Vj & _).
             rewrite Hp in Ej. apply Some_inj in Ej. now subst.
      + unfold any. now rewrite map_length, seq_length.
      + apply any_spec. eauto.
      + destruct (ck_nth k0 Hk0) as (w & A & _ & _ & B). eauto.
      + intros t w Ht Hw. assert (Lt : (t <= N)%nat).
        { apply nth_error_Some_lt in Hw. rewrite ck_len in Hw. lia. }
        destruct (ck_nth t Lt) as (w' & A & _ & _ & B). rewrite Hw in A. apply Some_inj in A. subst w'.
        exists (D * INR t / INR N). split; auto.
        assert (k0 <= t)%nat.
        { destruct (Nat.le_gt_cases k0 t); auto. destruct (Hb t); auto. }
        destruct (Nat.eq_dec N 0) as [E0|E0].
        * assert (t = 0%nat /\ k0 = 0%nat) as [-> ->] by lia. lra.
        * unfold Rdiv. apply Rmult_le_compat_r.
          -- left. apply Rinv_0_lt_compat. apply lt_0_INR. lia.
          -- apply Rmult_le_compat_l; auto. now apply le_INR.
  Qed.
End Scene.

(** A leader's data have the signs the acceleration formula expects. *)
Lemma leader_signs cur D N i u d : 0 <= D -> leader cur D N i u d -> (u = -1 /\ d = -1) \/ (0 <= u /\ 0 <= d).
Proof.
  intros HD [(_ & -> & ->)|(k0 & ((j0 & (Hk & _)) & _) & -> & ((j & Hj & p & g & _ & _ & ->) & _))]; [now left|right].
  split; [apply rspeed_nonneg|]. destruct (Nat.eq_dec N 0) as [E|E].
  - assert (k0 = 0%nat) by lia. subst. simpl INR. unfold Rdiv. rewrite Rmult_0_r, Rmult_0_l. lra.
  - unfold Rdiv. apply Rmult_le_pos; [apply Rmult_le_pos; auto; apply pos_INR|].
    left. apply Rinv_0_lt_compat. apply lt_0_INR. lia.
Qed.

Lemma interaction_leader s0 th a b v u d : (u = -1 /\ d = -1) \/ (0 <= u /\ 0 <= d) ->
  interaction s0 th a b v u d = if Req_EM_T d (-1) then 0 else wanted_gap s0 th a b v u / effective_gap d.
Proof.
  intros H. unfold interaction. destruct (Req_EM_T d (-1)); auto. destruct (Req_EM_T u (-1)); auto. lra.
Qed.

(* ---------------- the policy's speeds ---------------- *)

(** Leads are always real numbers, whatever the scene. *)
Lemma lead_finite {i tr cur me} : exists u d, object_lead (S := XR) i tr cur me = (Fin u, Fin d).
Proof.
  unfold object_lead, compute_lead_velocity, compute_lead_distance, default_lead_velocity, default_lead_distance.
  rewrite !fm1_Fin.
  match goal with |- context [(if fisfinite ?x then ?x else Fin (-1), if fisfinite ?y then ?y else Fin (-1))] =>
    generalize x y end.
  intros x y. change (@F XR) with xr in *.
  destruct x, y; eexists _, _; reflexivity.
Qed.

Lemma idm_update_nth p s cur sv : current_sim (S := XR) s = Ok cur -> idm_update_speed p s = Ok sv ->
  forall i log me, nth_error (s_log s) i = Some log -> nth_error cur i = Some me ->
    exists tr, lookahead_traj (S := XR) p log me = Ok tr /\
      nth_error sv i = Some (next_speed (S := XR) default_time_delta (obj_speed me)
                              (object_accel p i tr cur me), true).
Proof.
  intros Hc H i log me Hl Hm. unfold idm_update_speed in H. rewrite Hc in H. cbn [bind] in H.
  apply bind_Ok in H as ([] & Hg & H). apply bind_Ok in H as (trs & Ht & H). apply Ok_inj in H. subst sv.
  assert (K : nth_error (combine (s_log s) cur) i = Some (log, me)).
  { clear -Hl Hm. revert i cur Hl Hm. induction (s_log s) as [|a l IH]; intros [|i] [|c cur] Hl Hm; try discriminate.
    - simpl in *. congruence.
    - simpl in *. now apply IH. }
  destruct (mapM_nth _ _ _ _ _ Ht K) as (tr & Htr & Etr). cbn [fst snd] in Htr. exists tr. split; auto.
  assert (K2 : nth_error (combine trs cur) i = Some (tr, me)).
  { clear -Etr Hm. revert i cur Etr Hm. induction trs as [|a l IH]; intros [|i] [|c cur] Hl Hm; try discriminate.
    - simpl in *. congruence.
    - simpl in *. now apply IH. }
  rewrite nth_error_mapi, K2. reflexivity.
Qed.
