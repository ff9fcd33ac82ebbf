(** Proofs for C24 (separating axis test). *)
From Coq Require Import Reals ZArith Lra Lia List Bool Nsatz Psatz.
From Verif.Lib Require Import Base Scalar XR.
From Verif.Model Require Import Geometry.
From Verif.Spec Require Import GeomSpec.
From Verif.Proofs Require Import P_Angles P_Pose.
Import ListNotations.
Open Scope R_scope.

(* ---------------- one-dimensional Helly ---------------- *)

Lemma max_in (f : R * R -> R) (l : list (R * R)) : l <> [] ->
  exists i, In i l /\ forall j, In j l -> f j <= f i.
Proof.
  induction l as [|a l IH]; [congruence|]. intros _. destruct l as [|b l].
  - exists a. split; [now left|]. intros j [<-|[]]. lra.
  - destruct IH as (i & Hi & Hm); [congruence|].
    destruct (Rle_dec (f a) (f i)) as [L|L].
    + exists i. split; [now right|]. intros j [<-|Hj]; [exact L | now apply Hm].
    + exists a. split; [now left|]. intros j [<-|Hj]; [lra|]. specialize (Hm j Hj). lra.
Qed.

Lemma helly_int (l : list (R * R)) :
  (forall i j, In i l -> In j l -> fst i < snd j) ->
  exists x, forall i, In i l -> fst i < x < snd i.
Proof.
  intros H. destruct l as [|a l']; [exists 0; intros i []|]. set (l := a :: l') in *.
  assert (NE : l <> []) by (unfold l; congruence).
  destruct (max_in fst l NE) as (i & Hi & Mi).
  destruct (max_in (fun p => - snd p) l NE) as (j & Hj & Mj).
  exists ((fst i + snd j) / 2). intros k Hk.
  specialize (H i j Hi Hj). specialize (Mi k Hk). specialize (Mj k Hk). simpl in Mj. lra.
Qed.

(** A constraint |k x - m| < h. *)
Record con := mkcon { ck : R; cm : R; ch : R }.
Definition sat (c : con) (x : R) : Prop := Rabs (ck c * x - cm c) < ch c.
Definition lo_hi (c : con) : R * R :=
  (cm c / ck c - ch c / Rabs (ck c), cm c / ck c + ch c / Rabs (ck c)).

Lemma Rabs_lt x h : Rabs x < h <-> - h < x < h.
Proof.
  split; intros H.
  - now apply Rabs_def2 in H.
  - apply Rabs_def1; lra.
Qed.

Lemma sat_int c x : ck c <> 0 ->
  fst (lo_hi c) < x < snd (lo_hi c) -> sat c x.
Proof.
  intros Hk H. unfold sat, lo_hi in *; cbn [fst snd] in H.
  assert (P : 0 < Rabs (ck c)) by now apply Rabs_pos_lt.
  replace (ck c * x - cm c) with (ck c * (x - cm c / ck c)) by (field; exact Hk).
  rewrite Rabs_mult.
  assert (A : Rabs (x - cm c / ck c) < ch c / Rabs (ck c)) by (apply Rabs_lt; lra).
  apply (Rmult_lt_compat_l _ _ _ P) in A.
  replace (Rabs (ck c) * (ch c / Rabs (ck c))) with (ch c) in A by (field; lra). exact A.
Qed.

Definition compat (c d : con) : Prop :=
  Rabs (ck d * cm c - ck c * cm d) < Rabs (ck d) * ch c + Rabs (ck c) * ch d.

Lemma compat_int c d : ck c <> 0 -> ck d <> 0 -> compat c d ->
  fst (lo_hi c) < snd (lo_hi d).
Proof.
  unfold compat, lo_hi; cbn [fst snd]. intros Hc Hd H.
  assert (P : 0 < Rabs (ck c)) by now apply Rabs_pos_lt.
  assert (Q : 0 < Rabs (ck d)) by now apply Rabs_pos_lt.
  cut (cm c / ck c - cm d / ck d < ch c / Rabs (ck c) + ch d / Rabs (ck d)); [lra|].
  eapply Rle_lt_trans; [apply Rle_abs|].
  replace (cm c / ck c - cm d / ck d) with
    ((ck d * cm c - ck c * cm d) / (ck c * ck d)) by (field; auto).
  unfold Rdiv at 1. rewrite Rabs_mult, Rabs_inv, Rabs_mult.
  replace (ch c / Rabs (ck c) + ch d / Rabs (ck d)) with
    ((Rabs (ck d) * ch c + Rabs (ck c) * ch d) * / (Rabs (ck c) * Rabs (ck d)))
    by (field; lra).
  apply Rmult_lt_compat_r; [|exact H]. apply Rinv_0_lt_compat. nra.
Qed.

Lemma helly_con (cs : list con) :
  (forall c, In c cs -> ck c = 0 -> Rabs (cm c) < ch c) ->
  (forall c, In c cs -> 0 < ch c) ->
  (forall c d, In c cs -> In d cs -> ck c <> 0 -> ck d <> 0 -> c <> d -> compat c d) ->
  exists x, forall c, In c cs -> sat c x.
Proof.
  intros H0 Hp Hc.
  set (nz := filter (fun c => if Req_EM_T (ck c) 0 then false else true) cs).
  assert (NZ : forall c, In c nz <-> In c cs /\ ck c <> 0).
  { intros c. unfold nz. rewrite filter_In. destruct (Req_EM_T (ck c) 0); intuition. }
  destruct (helly_int (map lo_hi nz)) as (x & Hx).
  { intros i j Hi Hj. apply in_map_iff in Hi as (c & <- & Ic). apply in_map_iff in Hj as (d & <- & Id).
    apply NZ in Ic as (Ic & Kc). apply NZ in Id as (Id & Kd). apply compat_int; auto.
    assert (DEC : c = d \/ c <> d).
    { destruct c as [k1 m1 h1], d as [k2 m2 h2].
      destruct (Req_EM_T k1 k2); [|right; congruence].
      destruct (Req_EM_T m1 m2); [|right; congruence].
      destruct (Req_EM_T h1 h2); [left|right]; congruence. }
    destruct DEC as [<-|NE]; [|now apply Hc].
    unfold compat. specialize (Hp c Ic). assert (0 < Rabs (ck c)) by now apply Rabs_pos_lt.
    replace (ck c * cm c - ck c * cm c) with 0 by ring. rewrite Rabs_R0. nra. }
  exists x. intros c Ic. destruct (Req_EM_T (ck c) 0) as [E|E].
  - unfold sat. rewrite E. replace (0 * x - cm c) with (- cm c) by ring.
    rewrite Rabs_Ropp. now apply H0.
  - apply sat_int; [exact E|]. apply Hx. apply in_map. apply NZ. auto.
Qed.

(* ---------------- two centred rectangles ---------------- *)

(** Rectangle A is |x| < a, |y| < b; rectangle B has centre (p, q), half sizes
    c, d and heading with cosine C and sine S. *)
Lemma sat2 a b c d p q C S :
  C * C + S * S = 1 -> 0 < a -> 0 < b -> 0 < c -> 0 < d ->
  Rabs p < a + c * Rabs C + d * Rabs S ->
  Rabs q < b + c * Rabs S + d * Rabs C ->
  Rabs (p * C + q * S) < c + a * Rabs C + b * Rabs S ->
  Rabs (- p * S + q * C) < d + a * Rabs S + b * Rabs C ->
  exists x y, Rabs x < a /\ Rabs y < b /\
    Rabs ((x - p) * C + (y - q) * S) < c /\ Rabs (- (x - p) * S + (y - q) * C) < d.
Proof.
  intros E Ha Hb Hc Hd H1 H2 H3 H4.
  pose proof (Rabs_pos C) as PC. pose proof (Rabs_pos S) as PS.
  assert (CC : Rabs C * Rabs C = C * C) by (rewrite <- Rabs_mult; apply Rabs_pos_eq; nra).
  assert (SS : Rabs S * Rabs S = S * S) by (rewrite <- Rabs_mult; apply Rabs_pos_eq; nra).
  assert (PCS : 0 < c * Rabs C + d * Rabs S).
  { destruct (Req_EM_T C 0) as [->|NC].
    - destruct (Req_EM_T S 0) as [->|NS]; [lra|]. assert (0 < Rabs S) by now apply Rabs_pos_lt.
      rewrite Rabs_R0. nra.
    - assert (0 < Rabs C) by now apply Rabs_pos_lt. nra. }
  assert (Q2 : Rabs (q * S) < c + b * Rabs S + Rabs C * (c * Rabs C + d * Rabs S)).
  { rewrite Rabs_mult. destruct (Req_EM_T S 0) as [->|NS].
    - rewrite Rabs_R0. nra.
    - assert (0 < Rabs S) by now apply Rabs_pos_lt.
      apply (Rmult_lt_compat_r (Rabs S)) in H2; [|assumption]. nra. }
  assert (Q3 : Rabs (q * C) < d + b * Rabs C + Rabs S * (c * Rabs C + d * Rabs S)).
  { rewrite Rabs_mult. destruct (Req_EM_T C 0) as [->|NC].
    - rewrite Rabs_R0. nra.
    - assert (0 < Rabs C) by now apply Rabs_pos_lt.
      apply (Rmult_lt_compat_r (Rabs C)) in H2; [|assumption]. nra. }
  destruct (helly_con
    [mkcon 1 0 a; mkcon C (p * C + q * S) (c + b * Rabs S);
     mkcon S (p * S - q * C) (d + b * Rabs C); mkcon 1 p (c * Rabs C + d * Rabs S)])
    as (x & Hx).
  { intros k [<-|[<-|[<-|[<-|[]]]]]; cbn [ck cm ch]; intros K; try lra.
    - rewrite K in H3. rewrite Rabs_R0 in H3. rewrite K. lra.
    - rewrite K in H4. rewrite Rabs_R0 in H4. rewrite K.
      replace (p * 0 - q * C) with (- (- p * 0 + q * C)) by ring. rewrite Rabs_Ropp. lra. }
  { intros k [<-|[<-|[<-|[<-|[]]]]]; cbn [ck cm ch]; nra. }
  { assert (SY : forall c d, compat c d -> compat d c).
    { intros k l H. unfold compat in *. rewrite Rabs_minus_sym. lra. }
    assert (C12 : compat (mkcon 1 0 a) (mkcon C (p * C + q * S) (c + b * Rabs S))).
    { unfold compat; cbn [ck cm ch]. rewrite Rabs_R1.
      replace (C * 0 - 1 * (p * C + q * S)) with (- (p * C + q * S)) by ring. rewrite Rabs_Ropp. lra. }
    assert (C13 : compat (mkcon 1 0 a) (mkcon S (p * S - q * C) (d + b * Rabs C))).
    { unfold compat; cbn [ck cm ch]. rewrite Rabs_R1.
      replace (S * 0 - 1 * (p * S - q * C)) with (- p * S + q * C) by ring. lra. }
    assert (C14 : compat (mkcon 1 0 a) (mkcon 1 p (c * Rabs C + d * Rabs S))).
    { unfold compat; cbn [ck cm ch]. rewrite Rabs_R1.
      replace (1 * 0 - 1 * p) with (- p) by ring. rewrite Rabs_Ropp. lra. }
    assert (C23 : compat (mkcon C (p * C + q * S) (c + b * Rabs S)) (mkcon S (p * S - q * C) (d + b * Rabs C))).
    { unfold compat; cbn [ck cm ch].
      replace (S * (p * C + q * S) - C * (p * S - q * C)) with q by (clear - E; nsatz). nra. }
    assert (C24 : compat (mkcon C (p * C + q * S) (c + b * Rabs S)) (mkcon 1 p (c * Rabs C + d * Rabs S))).
    { unfold compat; cbn [ck cm ch]. rewrite Rabs_R1.
      replace (1 * (p * C + q * S) - C * p) with (q * S) by ring. lra. }
    assert (C34 : compat (mkcon S (p * S - q * C) (d + b * Rabs C)) (mkcon 1 p (c * Rabs C + d * Rabs S))).
    { unfold compat; cbn [ck cm ch]. rewrite Rabs_R1.
      replace (1 * (p * S - q * C) - S * p) with (- (q * C)) by ring. rewrite Rabs_Ropp. lra. }
    intros k l [<-|[<-|[<-|[<-|[]]]]] [<-|[<-|[<-|[<-|[]]]]] _ _ NE; try congruence; auto. }
  pose proof (Hx _ (or_introl eq_refl)) as X1.
  pose proof (Hx _ (or_intror (or_introl eq_refl))) as X2.
  pose proof (Hx _ (or_intror (or_intror (or_introl eq_refl)))) as X3.
  pose proof (Hx _ (or_intror (or_intror (or_intror (or_introl eq_refl))))) as X4.
  clear Hx. unfold sat in *; cbn [ck cm ch] in *.
  replace (1 * x - 0) with x in X1 by ring.
  destruct (helly_con
    [mkcon 1 0 b; mkcon S (q * S - (x - p) * C) c; mkcon C (q * C + (x - p) * S) d]) as (y & Hy).
  { intros k [<-|[<-|[<-|[]]]]; cbn [ck cm ch]; intros K; try lra.
    - rewrite K in X2. rewrite Rabs_R0 in X2. rewrite K.
      replace (q * 0 - (x - p) * C) with (- (C * x - (p * C + q * 0))) by ring. rewrite Rabs_Ropp. lra.
    - rewrite K in X3. rewrite Rabs_R0 in X3. rewrite K.
      replace (q * 0 + (x - p) * S) with (S * x - (p * S - q * 0)) by ring. lra. }
  { intros k [<-|[<-|[<-|[]]]]; cbn [ck cm ch]; lra. }
  { assert (SY : forall c d, compat c d -> compat d c).
    { intros k l H. unfold compat in *. rewrite Rabs_minus_sym. lra. }
    assert (C12 : compat (mkcon 1 0 b) (mkcon S (q * S - (x - p) * C) c)).
    { unfold compat; cbn [ck cm ch]. rewrite Rabs_R1.
      replace (S * 0 - 1 * (q * S - (x - p) * C)) with (C * x - (p * C + q * S)) by ring. lra. }
    assert (C13 : compat (mkcon 1 0 b) (mkcon C (q * C + (x - p) * S) d)).
    { unfold compat; cbn [ck cm ch]. rewrite Rabs_R1.
      replace (C * 0 - 1 * (q * C + (x - p) * S)) with (- (S * x - (p * S - q * C))) by ring.
      rewrite Rabs_Ropp. lra. }
    assert (C23 : compat (mkcon S (q * S - (x - p) * C) c) (mkcon C (q * C + (x - p) * S) d)).
    { unfold compat; cbn [ck cm ch].
      replace (C * (q * S - (x - p) * C) - S * (q * C + (x - p) * S)) with (- (1 * x - p)) by (clear - E; nsatz).
      rewrite Rabs_Ropp. lra. }
    intros k l [<-|[<-|[<-|[]]]] [<-|[<-|[<-|[]]]] _ _ NE; try congruence; auto. }
  pose proof (Hy _ (or_introl eq_refl)) as Y1.
  pose proof (Hy _ (or_intror (or_introl eq_refl))) as Y2.
  pose proof (Hy _ (or_intror (or_intror (or_introl eq_refl)))) as Y3.
  unfold sat in *; cbn [ck cm ch] in *.
  exists x, y. split; [exact X1|]. split; [now replace (1 * y - 0) with y in Y1 by ring|].
  split.
  - now replace ((x - p) * C + (y - q) * S) with (S * y - (q * S - (x - p) * C)) by ring.
  - now replace (- (x - p) * S + (y - q) * C) with (C * y - (q * C + (x - p) * S)) by ring.
Qed.

(* ---------------- projections of corners ---------------- *)

Lemma fmin_Rmin a b : fmin (Scalar := XR) (Fin a) (Fin b) = Fin (Rmin a b).
Proof. apply fmin_Fin. Qed.
Lemma fmax_Rmax a b : fmax (Scalar := XR) (Fin a) (Fin b) = Fin (Rmax a b).
Proof. apply fmax_Fin. Qed.

Lemma max4 m u v : Rmax (Rmax (Rmax (m + u - v) (m + u + v)) (m - u + v)) (m - u - v)
  = m + Rabs u + Rabs v.
Proof.
  apply Rle_antisym.
  - pose proof (Rle_abs u). pose proof (Rle_abs v).
    pose proof (Rle_abs (- u)) as A. pose proof (Rle_abs (- v)) as B. rewrite Rabs_Ropp in A, B.
    repeat apply Rmax_lub; lra.
  - destruct (Rle_dec 0 u), (Rle_dec 0 v);
      [rewrite (Rabs_pos_eq u), (Rabs_pos_eq v) | rewrite (Rabs_pos_eq u), (Rabs_left1 v)
       | rewrite (Rabs_left1 u), (Rabs_pos_eq v) | rewrite (Rabs_left1 u), (Rabs_left1 v)]; try lra.
    + eapply Rle_trans; [|apply Rmax_l]. eapply Rle_trans; [|apply Rmax_l].
      eapply Rle_trans; [|apply Rmax_r]. lra.
    + eapply Rle_trans; [|apply Rmax_l]. eapply Rle_trans; [|apply Rmax_l].
      eapply Rle_trans; [|apply Rmax_l]. lra.
    + eapply Rle_trans; [|apply Rmax_l]. eapply Rle_trans; [|apply Rmax_r]. lra.
    + eapply Rle_trans; [|apply Rmax_r]. lra.
Qed.
Lemma min4 m u v : Rmin (Rmin (Rmin (m + u - v) (m + u + v)) (m - u + v)) (m - u - v)
  = m - Rabs u - Rabs v.
Proof.
  apply Rle_antisym.
  - destruct (Rle_dec 0 u), (Rle_dec 0 v);
      [rewrite (Rabs_pos_eq u), (Rabs_pos_eq v) | rewrite (Rabs_pos_eq u), (Rabs_left1 v)
       | rewrite (Rabs_left1 u), (Rabs_pos_eq v) | rewrite (Rabs_left1 u), (Rabs_left1 v)]; try lra.
    + eapply Rle_trans; [apply Rmin_r|]. lra.
    + eapply Rle_trans; [apply Rmin_l|]. eapply Rle_trans; [apply Rmin_r|]. lra.
    + eapply Rle_trans; [apply Rmin_l|]. eapply Rle_trans; [apply Rmin_l|].
      eapply Rle_trans; [apply Rmin_l|]. lra.
    + eapply Rle_trans; [apply Rmin_l|]. eapply Rle_trans; [apply Rmin_l|].
      eapply Rle_trans; [apply Rmin_r|]. lra.
  - pose proof (Rle_abs u). pose proof (Rle_abs v).
    pose proof (Rle_abs (- u)) as A. pose proof (Rle_abs (- v)) as B. rewrite Rabs_Ropp in A, B.
    repeat apply Rmin_glb; lra.
Qed.

(** Centre and half extents of the projection of a box on direction (n1, n2). *)
Definition pc (b : rbox) (n1 n2 : R) : R := rx b * n1 + ry b * n2.
Definition pr (b : rbox) (n1 n2 : R) : R :=
  Rabs (rlen b / 2 * (cos (ryaw b) * n1 + sin (ryaw b) * n2))
  + Rabs (rwid b / 2 * (- sin (ryaw b) * n1 + cos (ryaw b) * n2)).

Lemma proj_corners b n1 n2 :
  exists l, map (fun p : vec => fadd (fmul (fst p) (Fin n1)) (fmul (snd p) (Fin n2)))
        (corners_from_bbox (fbox b)) = l /\
  list_max l = Fin (pc b n1 n2 + pr b n1 n2) /\ list_min l = Fin (pc b n1 n2 - pr b n1 n2).
Proof.
  eexists. split; [reflexivity|].
  rewrite corners_Fin. unfold finv, rpoint; cbn [map fst snd]. xr.
  set (m := pc b n1 n2).
  set (u := rlen b / 2 * (cos (ryaw b) * n1 + sin (ryaw b) * n2)).
  set (v := rwid b / 2 * (- sin (ryaw b) * n1 + cos (ryaw b) * n2)).
  match goal with |- list_max ?l = _ /\ _ =>
    replace l with [Fin (m + u - v); Fin (m + u + v); Fin (m - u + v); Fin (m - u - v)] end.
  2:{ unfold m, u, v, pc. repeat (apply f_equal2; [f_equal; field|]). reflexivity. }
  unfold list_max, list_min, fmaxl, fminl; cbn [fold_left].
  rewrite !fmin_Rmin, !fmax_Rmax, max4, min4. unfold pr. fold u v. split; f_equal; ring.
Qed.

Lemma axis_iff a b n1 n2 (f : vec -> F) :
  (forall p, f p = fadd (fmul (fst p) (Fin n1)) (fmul (snd p) (Fin n2))) ->
  axis_overlap (map f (corners_from_bbox (fbox a))) (map f (corners_from_bbox (fbox b))) = true
  <-> 0 < pr a n1 n2 /\ 0 < pr b n1 n2 /\
      Rabs (pc a n1 n2 - pc b n1 n2) < pr a n1 n2 + pr b n1 n2.
Proof.
  intros Hf.
  rewrite (map_ext _ _ Hf (corners_from_bbox (fbox a))), (map_ext _ _ Hf (corners_from_bbox (fbox b))).
  destruct (proj_corners a n1 n2) as (la & -> & Ma & Na).
  destruct (proj_corners b n1 n2) as (lb & -> & Mb & Nb).
  unfold axis_overlap. rewrite Ma, Mb, Na, Nb, fmin_Rmin, fmax_Rmax. xr.
  rewrite Rltb_true, Rabs_lt.
  set (A := pc a n1 n2). set (B := pc b n1 n2). set (ra := pr a n1 n2). set (rb := pr b n1 n2).
  unfold Rmin, Rmax. destruct (Rle_dec (A + ra) (B + rb)), (Rle_dec (A - ra) (B - rb)); lra.
Qed.

(** has_overlap unfolded over the reals: the four separating axes. *)
Lemma has_overlap_axes a b :
  has_overlap (fbox a) (fbox b) = true <->
  (forall n1 n2,
     (n1 = cos (ryaw a) /\ n2 = sin (ryaw a)) \/ (n1 = - sin (ryaw a) /\ n2 = cos (ryaw a)) \/
     (n1 = cos (ryaw b) /\ n2 = sin (ryaw b)) \/ (n1 = - sin (ryaw b) /\ n2 = cos (ryaw b)) ->
     0 < pr a n1 n2 /\ 0 < pr b n1 n2 /\
     Rabs (pc a n1 n2 - pc b n1 n2) < pr a n1 n2 + pr b n1 n2).
Proof.
  unfold has_overlap, overlap_a_over_b.
  change (b_yaw (fbox a)) with (Fin (ryaw a)). change (b_yaw (fbox b)) with (Fin (ryaw b)).
  xr. rewrite !andb_true_iff.
  rewrite (axis_iff a b (cos (ryaw a)) (sin (ryaw a))) by reflexivity.
  rewrite (axis_iff a b (- sin (ryaw a)) (cos (ryaw a))) by reflexivity.
  rewrite (axis_iff b a (cos (ryaw b)) (sin (ryaw b))) by reflexivity.
  rewrite (axis_iff b a (- sin (ryaw b)) (cos (ryaw b))) by reflexivity.
  split.
  - intros (((A1 & A2 & A3) & (B1 & B2 & B3)) & ((C1 & C2 & C3) & (D1 & D2 & D3))) n1 n2
      [(-> & ->)|[(-> & ->)|[(-> & ->)|(-> & ->)]]].
    + auto.
    + auto.
    + rewrite Rabs_minus_sym. rewrite Rplus_comm. auto.
    + rewrite Rabs_minus_sym. rewrite Rplus_comm. auto.
  - intros H.
    pose proof (H (cos (ryaw a)) (sin (ryaw a)) ltac:(tauto)).
    pose proof (H (- sin (ryaw a)) (cos (ryaw a)) ltac:(tauto)).
    destruct (H (cos (ryaw b)) (sin (ryaw b)) ltac:(tauto)) as (G1 & G2 & G3).
    destruct (H (- sin (ryaw b)) (cos (ryaw b)) ltac:(tauto)) as (K1 & K2 & K3).
    rewrite Rabs_minus_sym, Rplus_comm in G3. rewrite Rabs_minus_sym, Rplus_comm in K3. tauto.
Qed.

Lemma interior_local b p :
  interior b p <->
  Rabs ((fst p - rx b) * cos (ryaw b) + (snd p - ry b) * sin (ryaw b)) < Rabs (rlen b) / 2 /\
  Rabs (- (fst p - rx b) * sin (ryaw b) + (snd p - ry b) * cos (ryaw b)) < Rabs (rwid b) / 2.
Proof.
  pose proof (cs1 (ryaw b)) as E.
  set (C := cos (ryaw b)) in *. set (S := sin (ryaw b)) in *. split.
  - intros (u & v & Hu & Hv & ->). unfold rpoint; cbn [fst snd]. fold C S.
    replace ((rx b + u * C - v * S - rx b) * C + (ry b + u * S + v * C - ry b) * S) with u by (clear - E; nsatz).
    replace (- (rx b + u * C - v * S - rx b) * S + (ry b + u * S + v * C - ry b) * C) with v by (clear - E; nsatz).
    auto.
  - intros (Hu & Hv). eexists. eexists. split; [exact Hu|]. split; [exact Hv|].
    destruct p as [x y]. unfold rpoint; cbn [fst snd]. fold C S. f_equal; clear - E; nsatz.
Qed.

Lemma half_abs x : Rabs (x / 2) = Rabs x / 2.
Proof. unfold Rdiv. rewrite Rabs_mult. f_equal. apply Rabs_pos_eq. lra. Qed.

Lemma overlap_exact a b :
  has_overlap (fbox a) (fbox b) = true <-> exists p, interior a p /\ interior b p.
Proof.
  rewrite has_overlap_axes.
  pose proof (cs1 (ryaw a)) as Ea. pose proof (cs1 (ryaw b)) as Eb.
  set (ca := cos (ryaw a)) in *. set (sa := sin (ryaw a)) in *.
  set (cb := cos (ryaw b)) in *. set (sb := sin (ryaw b)) in *.
  split.
  - intros H.
    set (C := ca * cb + sa * sb). set (S := ca * sb - sa * cb).
    assert (E : C * C + S * S = 1) by (unfold C, S; clear - Ea Eb; nsatz).
    set (p := (rx b - rx a) * ca + (ry b - ry a) * sa).
    set (q := - (rx b - rx a) * sa + (ry b - ry a) * ca).
    destruct (H ca sa ltac:(tauto)) as (A1 & A2 & A3).
    destruct (H (- sa) ca ltac:(tauto)) as (B1 & B2 & B3).
    destruct (H cb sb ltac:(tauto)) as (C1 & C2 & C3).
    destruct (H (- sb) cb ltac:(tauto)) as (D1 & D2 & D3). clear H.
    unfold pr, pc in *.
    fold ca sa cb sb in A1, A2, A3, B1, B2, B3, C1, C2, C3, D1, D2, D3.
    set (la := rlen a / 2) in *. set (wa := rwid a / 2) in *.
    set (lb := rlen b / 2) in *. set (wb := rwid b / 2) in *.
    replace (la * (ca * ca + sa * sa)) with la in * by (clear - Ea Eb; nsatz).
    replace (wa * (- sa * ca + ca * sa)) with 0 in * by ring.
    replace (la * (ca * - sa + sa * ca)) with 0 in * by ring.
    replace (wa * (- sa * - sa + ca * ca)) with wa in * by (clear - Ea Eb; nsatz).
    replace (lb * (cb * cb + sb * sb)) with lb in * by (clear - Ea Eb; nsatz).
    replace (wb * (- sb * cb + cb * sb)) with 0 in * by ring.
    replace (lb * (cb * - sb + sb * cb)) with 0 in * by ring.
    replace (wb * (- sb * - sb + cb * cb)) with wb in * by (clear - Ea Eb; nsatz).
    replace (lb * (cb * ca + sb * sa)) with (lb * C) in * by (unfold C; ring).
    replace (wb * (- sb * ca + cb * sa)) with (- (wb * S)) in * by (unfold S; ring).
    replace (lb * (cb * - sa + sb * ca)) with (lb * S) in * by (unfold S; ring).
    replace (wb * (- sb * - sa + cb * ca)) with (wb * C) in * by (unfold C; ring).
    replace (la * (ca * cb + sa * sb)) with (la * C) in * by (unfold C; ring).
    replace (wa * (- sa * cb + ca * sb)) with (wa * S) in * by (unfold S; ring).
    replace (la * (ca * - sb + sa * cb)) with (- (la * S)) in * by (unfold S; ring).
    replace (wa * (- sa * - sb + ca * cb)) with (wa * C) in * by (unfold C; ring).
    replace (rx a * ca + ry a * sa - (rx b * ca + ry b * sa)) with (- p) in * by (unfold p; ring).
    replace (rx a * - sa + ry a * ca - (rx b * - sa + ry b * ca)) with (- q) in * by (unfold q; ring).
    replace (rx a * cb + ry a * sb - (rx b * cb + ry b * sb)) with (- (p * C + q * S)) in *
      by (unfold p, q, C, S; clear - Ea Eb; nsatz).
    replace (rx a * - sb + ry a * cb - (rx b * - sb + ry b * cb)) with (- (- p * S + q * C)) in *
      by (unfold p, q, C, S; clear - Ea Eb; nsatz).
    rewrite ?Rabs_Ropp, ?Rabs_R0, ?Rabs_mult in *.
    destruct (sat2 (Rabs la) (Rabs wa) (Rabs lb) (Rabs wb) p q C S) as (x & y & X1 & X2 & X3 & X4); try lra.
    exists (rx a + x * ca - y * sa, ry a + x * sa + y * ca).
    rewrite !interior_local; cbn [fst snd]. fold ca sa cb sb. rewrite <- !half_abs. fold la wa lb wb.
    replace ((rx a + x * ca - y * sa - rx a) * ca + (ry a + x * sa + y * ca - ry a) * sa) with x by (clear - Ea Eb; nsatz).
    replace (- (rx a + x * ca - y * sa - rx a) * sa + (ry a + x * sa + y * ca - ry a) * ca) with y by (clear - Ea Eb; nsatz).
    replace ((rx a + x * ca - y * sa - rx b) * cb + (ry a + x * sa + y * ca - ry b) * sb)
      with ((x - p) * C + (y - q) * S) by (unfold p, q, C, S; clear - Ea Eb; nsatz).
    replace (- (rx a + x * ca - y * sa - rx b) * sb + (ry a + x * sa + y * ca - ry b) * cb)
      with (- (x - p) * S + (y - q) * C) by (unfold p, q, C, S; clear - Ea Eb; nsatz).
    auto.
  - intros ((x & y) & IA & IB) n1 n2 Hn.
    assert (N : n1 * n1 + n2 * n2 = 1).
    { destruct Hn as [(-> & ->)|[(-> & ->)|[(-> & ->)|(-> & ->)]]]; lra. }
    clear Hn.
    assert (PJ : forall r, interior r (x, y) -> 0 < pr r n1 n2 /\ Rabs (x * n1 + y * n2 - pc r n1 n2) < pr r n1 n2).
    { clear - N. intros r (u & v & Hu & Hv & E). unfold rpoint in E. injection E as -> ->.
      unfold pr, pc. pose proof (cs1 (ryaw r)) as Er.
      set (c := cos (ryaw r)) in *. set (s := sin (ryaw r)) in *.
      rewrite <- half_abs in Hu, Hv.
      set (g := c * n1 + s * n2). set (h := - s * n1 + c * n2).
      assert (GH : g * g + h * h = 1) by (unfold g, h; clear - Er N; nsatz).
      replace ((rx r + u * c - v * s) * n1 + (ry r + u * s + v * c) * n2 - (rx r * n1 + ry r * n2))
        with (u * g + v * h) by (unfold g, h; ring).
      rewrite !Rabs_mult.
      assert (T : Rabs (u * g + v * h) <= Rabs u * Rabs g + Rabs v * Rabs h).
      { rewrite <- !Rabs_mult. apply Rabs_triang. }
      clearbody g h.
      assert (PG : 0 <= Rabs g) by apply Rabs_pos. assert (PH : 0 <= Rabs h) by apply Rabs_pos.
      pose proof (Rabs_pos u). pose proof (Rabs_pos v).
      assert (STR : Rabs u * Rabs g + Rabs v * Rabs h < Rabs (rlen r / 2) * Rabs g + Rabs (rwid r / 2) * Rabs h).
      { destruct (Req_EM_T g 0) as [->|NG].
        - destruct (Req_EM_T h 0) as [->|NH]; [lra|].
          assert (0 < Rabs h) by now apply Rabs_pos_lt. rewrite Rabs_R0. nra.
        - assert (0 < Rabs g) by now apply Rabs_pos_lt. nra. }
      split; [|lra]. nra. }
    destruct (PJ a IA) as (P1 & P2). destruct (PJ b IB) as (Q1 & Q2).
    split; [exact P1|]. split; [exact Q1|].
    apply Rabs_lt in P2. apply Rabs_lt in Q2. apply Rabs_lt. lra.
Qed.

Lemma overlap_sym a b : has_overlap (S := XR) a b = has_overlap b a.
Proof. unfold has_overlap. apply andb_comm. Qed.

Lemma interior_move t tx ty b p :
  interior (move_box t tx ty b) (move t tx ty p) <-> interior b p.
Proof.
  rewrite !interior_local. unfold move_box, move; cbn [fst snd rx ry rlen rwid ryaw].
  pose proof (cs1 t) as E. rewrite cos_plus, sin_plus.
  set (C := cos (ryaw b)). set (S := sin (ryaw b)).
  replace ((fst p * cos t - snd p * sin t + tx - (rx b * cos t - ry b * sin t + tx)) * (C * cos t - S * sin t) +
    (fst p * sin t + snd p * cos t + ty - (rx b * sin t + ry b * cos t + ty)) * (S * cos t + C * sin t))
    with ((fst p - rx b) * C + (snd p - ry b) * S).
  2:{ set (c := cos t) in *. set (s := sin t) in *.
      transitivity ((c * c + s * s) * ((fst p - rx b) * C + (snd p - ry b) * S)); [rewrite E|]; ring. }
  replace (- (fst p * cos t - snd p * sin t + tx - (rx b * cos t - ry b * sin t + tx)) * (S * cos t + C * sin t) +
    (fst p * sin t + snd p * cos t + ty - (rx b * sin t + ry b * cos t + ty)) * (C * cos t - S * sin t))
    with (- (fst p - rx b) * S + (snd p - ry b) * C).
  2:{ set (c := cos t) in *. set (s := sin t) in *.
      transitivity ((c * c + s * s) * (- (fst p - rx b) * S + (snd p - ry b) * C)); [rewrite E|]; ring. }
  reflexivity.
Qed.

Lemma move_inv t tx ty p : exists p', p = move t tx ty p'.
Proof.
  exists ((fst p - tx) * cos t + (snd p - ty) * sin t, - (fst p - tx) * sin t + (snd p - ty) * cos t).
  destruct p as [x y]. unfold move; cbn [fst snd]. pose proof (cs1 t) as E.
  set (c := cos t) in *. set (s := sin t) in *. clearbody c s. f_equal; nsatz.
Qed.

Lemma overlap_move t tx ty a b :
  has_overlap (fbox (move_box t tx ty a)) (fbox (move_box t tx ty b))
  = has_overlap (fbox a) (fbox b).
Proof.
  apply eq_iff_eq_true. rewrite !overlap_exact. split.
  - intros (p & A & B). destruct (move_inv t tx ty p) as (p' & ->).
    exists p'. now rewrite !interior_move in *.
  - intros (p & A & B). exists (move t tx ty p). now rewrite !interior_move.
Qed.

Lemma overlap_zero a b : rlen a = 0 \/ rwid a = 0 ->
  has_overlap (fbox a) (fbox b) = false.
Proof.
  intros H. destruct (has_overlap (fbox a) (fbox b)) eqn:E; [|reflexivity].
  apply overlap_exact in E as (p & (u & v & Hu & Hv & _) & _).
  pose proof (Rabs_pos u). pose proof (Rabs_pos v).
  destruct H as [H|H]; rewrite H, Rabs_R0 in *; lra.
Qed.

Lemma overlap_self a : rlen a <> 0 -> rwid a <> 0 -> has_overlap (fbox a) (fbox a) = true.
Proof.
  intros L W. apply overlap_exact. exists (rpoint a 0 0).
  assert (0 < Rabs (rlen a)) by now apply Rabs_pos_lt.
  assert (0 < Rabs (rwid a)) by now apply Rabs_pos_lt.
  assert (I : interior a (rpoint a 0 0)).
  { exists 0, 0. rewrite Rabs_R0. split; [lra|]. split; [lra | reflexivity]. }
  auto.
Qed.

Lemma pairwise_lemma (bs : list rbox) i j : (i < length bs)%nat -> (j < length bs)%nat ->
  exists row v a b,
    nth_error (compute_pairwise_overlaps (map fbox bs)) i = Some row /\
    nth_error row j = Some v /\ nth_error bs i = Some a /\ nth_error bs j = Some b /\
    (v = true <-> i <> j /\ exists p, interior a p /\ interior b p).
Proof.
  intros Hi Hj.
  destruct (nth_error bs i) as [a|] eqn:A; [|apply nth_error_None in A; lia].
  destruct (nth_error bs j) as [b|] eqn:B; [|apply nth_error_None in B; lia].
  eexists. eexists. exists a, b.
  split; [|split; [|split; [reflexivity|split; [reflexivity|]]]].
  - unfold compute_pairwise_overlaps. rewrite nth_error_mapi, nth_error_map, A. reflexivity.
  - rewrite nth_error_mapi, nth_error_map, B. reflexivity.
  - cbn beta. rewrite <- overlap_exact.
    destruct (Nat.eqb_spec i j) as [E|E]; split; intros H; try tauto.
    discriminate.
Qed.
