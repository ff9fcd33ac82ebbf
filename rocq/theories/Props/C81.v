(** C81: observations in the observer's own frame in float32.  [F32 lm] is IEEE binary32;
    of the maths library [lm] sine and cosine to within 2^-23 are assumed, and that the
    cosine of 0 is 1 and its sine 0.  (With the latter the inverse of the global frame's
    matrix is the identity whichever way it is computed.) *)
From Coq Require Import List ZArith Reals Lra Lia Bool.
From Flocq Require Import Core.Raux IEEE754.BinarySingleNaN.
From Verif.Lib Require Import Base JaxIndex Scalar F32.
From Verif.Model Require Import Operations State Geometry Pose Roadgraph Observation.
From Verif.Spec Require Import StateSpec GeomSpec DynSpec MetricSpec ObsSpec F32Spec F32EpisodeSpec F32GeomSpec F32ObsSpec.
From Verif.Proofs Require Import Core P_Metrics P_OwnFrame P_Observation P_F32 P_F32Wrap P_F32Obs P_F32Topk P_Roadgraph P_Libm P_F32Int P_F32Near.
Import ListNotations.
Open Scope R_scope.

(** All coordinates at most [P], speeds at most [V].  Each object is seen where it is
    relative to the centre of the frame up to [P / 2^19] (2 mm per kilometre from the
    global origin), with its velocity up to [V / 2^20] and its heading up to 2^-24 of the
    difference of headings; nothing else changes, and entries are valid when they and the
    centre are.  Lights and the kept map points likewise. *)
Theorem C81_own_frame lm P V n L T t (s : state (S := F32 lm)) k topk fr rg o i v ci c oc :
  accurate32 lm -> trig_zero32 lm -> 1 <= P <= 2 ^ 30 -> 1 <= V <= 2 ^ 30 ->
  obs_wf n L T t s -> (k <= t + 1)%nat -> s_rg s = Some rg -> (topk <= length rg)%nat ->
  observation_from_state s k topk fr = Ok o -> nth_error o i = Some v ->
  centre32 fr s i ci -> at2 (s_sim s) ci t = Some c -> kin32 P V c oc ->
  (forall j x p g, (x < k)%nat -> at2 (s_sim s) j (t + 1 - k + x) = Some p -> kin32 P V p g ->
     exists q l, at2 (v_traj v) j x = Some q /\ shows32 (P / 2 ^ 19) (V / 2 ^ 20) q l /\ seen_as oc g l /\
       p_valid q = p_valid p && p_valid c /\
       p_z q = p_z p /\ p_ts q = p_ts p /\ p_len q = p_len p /\ p_wid q = p_wid p /\ p_hei q = p_hei p) /\
  (forall j x p g, (x < k)%nat -> at2 (s_tls s) j (t + 1 - k + x) = Some p -> at32 P (tl_x p) (tl_y p) g ->
     exists q l, at2 (v_tls v) j x = Some q /\ near32 (P / 2 ^ 19) (tl_x q) (tl_y q) l /\ seen_at oc g l /\
       tl_state q = tl_state p /\ tl_lane q = tl_lane p /\ tl_z q = tl_z p /\ tl_valid q = tl_valid p && p_valid c) /\
  exists pi rgf, at2 (s_sim s) i t = Some pi /\
    filter_topk_roadgraph_points rg (p_x pi, p_y pi) topk = Ok rgf /\ length (v_rg v) = length rgf /\
    forall a p g d, nth_error rgf a = Some p -> at32 P (rg_x p) (rg_y p) g -> at32 1 (rg_dx p) (rg_dy p) d ->
      exists q l e, nth_error (v_rg v) a = Some q /\ near32 (P / 2 ^ 19) (rg_x q) (rg_y q) l /\ seen_at oc g l /\
        near32 (/ 2 ^ 20) (rg_dx q) (rg_dy q) e /\ components (kyaw oc) d (fst e) (snd e) /\
        rg_z q = rg_z p /\ rg_type q = rg_type p /\ rg_id q = rg_id p /\ rg_valid q = rg_valid p && p_valid c.
Proof.
  intros AC TZ HP HV W Hk Hr Hkk Ho Hv Hc Ec Kc.
  destruct (obs_centre32 lm n L T t s k topk fr rg o i v ci c W Hk Hr Hkk Ho Hv Hc Ec) as (win & tlw & pi & rgf & F1 & F2 & E1 & E2 & E3).
  destruct (obs_rows32 lm P HP n L T t s W) as (N1 & N2).
  destruct (own_view32 lm P HP AC TZ V n L t k s win tlw _ rgf _ c oc v HV N1 N2 F1 F2 E3 Kc) as (A & B & C & D & _).
  split; [|split; [exact B | exists pi, rgf; auto]].
  intros j x p g Hx Ep Kp. destruct (A j x p g Hx Ep Kp) as (q & l & Q1 & Q2 & Q3 & Q4 & Q5 & Q6 & Q7 & Q8 & Q9 & _). exists q, l. auto 12.
Qed.

(** The centre of the frame sees itself at exactly 0 with heading exactly 0. *)
Theorem C81_self lm P V n L T t (s : state (S := F32 lm)) k topk fr rg o i v ci c oc :
  accurate32 lm -> trig_zero32 lm -> 1 <= P <= 2 ^ 30 -> 1 <= V <= 2 ^ 30 ->
  obs_wf n L T t s -> (1 <= k <= t + 1)%nat -> s_rg s = Some rg -> (topk <= length rg)%nat ->
  observation_from_state s k topk fr = Ok o -> nth_error o i = Some v ->
  centre32 fr s i ci -> at2 (s_sim s) ci t = Some c -> kin32 P V c oc ->
  exists q, at2 (v_traj v) ci (k - 1) = Some q /\ fin (p_x q) 0 /\ fin (p_y q) 0 /\ fin (p_yaw q) 0 /\ p_valid q = p_valid c.
Proof.
  intros AC TZ HP HV W Hk Hr Hkk Ho Hv Hc Ec Kc.
  destruct (obs_centre32 lm n L T t s k topk fr rg o i v ci c W (proj2 Hk) Hr Hkk Ho Hv Hc Ec) as (win & tlw & pi & rgf & F1 & F2 & E1 & E2 & E3).
  destruct (obs_rows32 lm P HP n L T t s W) as (N1 & N2).
  destruct (own_view32 lm P HP AC TZ V n L t k s win tlw _ rgf _ c oc v HV N1 N2 F1 F2 E3 Kc) as (_ & _ & _ & _ & E).
  apply E; [lia | exact Ec | lia].
Qed.

(** Distances between observed entries are those of the scene up to [P / 2^17]. *)
Theorem C81_distances lm P V n L T t (s : state (S := F32 lm)) k topk fr rg o i v ci c oc j1 x1 p1 g1 j2 x2 p2 g2 :
  accurate32 lm -> trig_zero32 lm -> 1 <= P <= 2 ^ 30 -> 1 <= V <= 2 ^ 30 ->
  obs_wf n L T t s -> (k <= t + 1)%nat -> s_rg s = Some rg -> (topk <= length rg)%nat ->
  observation_from_state s k topk fr = Ok o -> nth_error o i = Some v ->
  centre32 fr s i ci -> at2 (s_sim s) ci t = Some c -> kin32 P V c oc ->
  (x1 < k)%nat -> at2 (s_sim s) j1 (t + 1 - k + x1) = Some p1 -> kin32 P V p1 g1 ->
  (x2 < k)%nat -> at2 (s_sim s) j2 (t + 1 - k + x2) = Some p2 -> kin32 P V p2 g2 ->
  exists q1 c1 q2 c2, at2 (v_traj v) j1 x1 = Some q1 /\ fin (p_x q1) (fst c1) /\ fin (p_y q1) (snd c1) /\
    at2 (v_traj v) j2 x2 = Some q2 /\ fin (p_x q2) (fst c2) /\ fin (p_y q2) (snd c2) /\
    Rabs (dist c1 c2 - dist (kx g1, ky g1) (kx g2, ky g2)) <= P / 2 ^ 17.
Proof.
  intros AC TZ HP HV W Hk Hr Hkk Ho Hv Hc Ec Kc H1 G1 K1 H2 G2 K2.
  destruct (obs_centre32 lm n L T t s k topk fr rg o i v ci c W Hk Hr Hkk Ho Hv Hc Ec) as (win & tlw & pi & rgf & F1 & F2 & E1 & E2 & E3).
  destruct (obs_rows32 lm P HP n L T t s W) as (N1 & N2).
  destruct (own_view32 lm P HP AC TZ V n L t k s win tlw _ rgf _ c oc v HV N1 N2 F1 F2 E3 Kc) as (A & _).
  destruct (A j1 x1 p1 g1 H1 G1 K1) as (q1 & l1 & Q1 & S1 & _ & _ & _ & _ & _ & _ & _ & T1).
  destruct (A j2 x2 p2 g2 H2 G2 K2) as (q2 & l2 & Q2 & S2 & _ & _ & _ & _ & _ & _ & _ & T2).
  destruct (obs_distances32 lm P _ q1 q2 l1 l2 oc g1 g2 S1 S2 T1 T2) as (c1 & c2 & X1 & Y1 & X2 & Y2 & D).
  exists q1, c1, q2, c2. auto 12.
Qed.

(** The single SDC observation in the SDC's frame. *)
Theorem C81_sdc_observation lm P V n L T t (s : state (S := F32 lm)) k topk fr rg i c oc :
  accurate32 lm -> trig_zero32 lm -> 1 <= P <= 2 ^ 30 -> 1 <= V <= 2 ^ 30 ->
  obs_wf n L T t s -> (k <= t + 1)%nat -> s_rg s = Some rg -> (topk <= length rg)%nat ->
  fr = FRAME_OBJECT \/ fr = FRAME_SDC -> the_sdc (s_meta s) i -> at2 (s_sim s) i t = Some c -> kin32 P V c oc ->
  exists v, sdc_observation_from_state s k topk fr = Ok [v] /\
  (forall j x p g, (x < k)%nat -> at2 (s_sim s) j (t + 1 - k + x) = Some p -> kin32 P V p g ->
     exists q l, at2 (v_traj v) j x = Some q /\ shows32 (P / 2 ^ 19) (V / 2 ^ 20) q l /\ seen_as oc g l /\
       p_valid q = p_valid p && p_valid c) /\
  (forall j x p g, (x < k)%nat -> at2 (s_tls s) j (t + 1 - k + x) = Some p -> at32 P (tl_x p) (tl_y p) g ->
     exists q l, at2 (v_tls v) j x = Some q /\ near32 (P / 2 ^ 19) (tl_x q) (tl_y q) l /\ seen_at oc g l /\
       tl_state q = tl_state p /\ tl_valid q = tl_valid p && p_valid c) /\
  ((1 <= k)%nat -> exists q, at2 (v_traj v) i (k - 1) = Some q /\ fin (p_x q) 0 /\ fin (p_y q) 0 /\ fin (p_yaw q) 0).
Proof.
  intros AC TZ HP HV W Hk Hr Hkk Hf Hs Ec Kc.
  destruct (sdc_observation_spec n L T t s k topk fr rg W Hk Hr Hkk) as (win & tlw & isdc & psdc & rgf & R1 & R2 & F1 & F2 & Ei & Li & Ep & Ef & Eo).
  apply the_sdc_index in Hs. rewrite Ei in Hs. apply Ok_inj in Hs. subst isdc. rewrite Ep in Ec. apply Some_inj in Ec. subst psdc.
  destruct (obs_rows32 lm P HP n L T t s W) as (N1 & N2).
  assert (E3 : forall w : view (S := F32 lm), frame_view fr c c w = transform_view w (pose_of_pt c)) by (intros w; destruct Hf as [-> | ->]; reflexivity).
  destruct (own_view32 lm P HP AC TZ V n L t k s win tlw (map m_is_sdc (s_meta s)) rgf (match s_paths s with Some ps => ps | None => no_paths end) c oc _ HV N1 N2 F1 F2 (E3 _) Kc) as (A & B & _ & _ & E).
  eexists. split; [exact Eo|]. split; [|split].
  - intros j x p g Hx Gp Kp. destruct (A j x p g Hx Gp Kp) as (q & l & Q1 & Q2 & Q3 & Q4 & _). exists q, l. auto.
  - intros j x p g Hx Gp Kp. destruct (B j x p g Hx Gp Kp) as (q & l & Q1 & Q2 & Q3 & Q4 & _ & _ & Q5). exists q, l. auto.
  - intros H1. destruct (E i ltac:(lia) Ep ltac:(lia)) as (q & Q1 & Q2 & Q3 & Q4 & _). exists q. auto.
Qed.

(** Which map points are kept (the filter in the statements above): [k] different ones,
    valid ones before invalid ones, none farther than a later or a dropped valid one by
    more than [P / 2^17]. *)
Theorem C81_nearest_points lm P (rg : list (rgpt (S := F32 lm))) pos rx ry ref k out :
  1 <= P <= 2 ^ 45 -> map32 P rg pos -> at32 P rx ry ref -> (k < length rg)%nat ->
  filter_topk_roadgraph_points (S := F32 lm) rg (rx, ry) k = Ok out ->
  length out = k /\
  exists keep : list nat, length keep = k /\ NoDup keep /\
    (forall a i, nth_error keep a = Some i ->
       exists p q, nth_error rg i = Some p /\ nth_error out a = Some q /\ same_sample32 p q) /\
    (forall a b i j, (a < b)%nat -> nth_error keep a = Some i -> nth_error keep b = Some j ->
       ranks_before32 (P / 2 ^ 17) rg pos ref i j) /\
    (forall i j, In i keep -> (j < length rg)%nat -> ~ In j keep -> ranks_before32 (P / 2 ^ 17) rg pos ref i j).
Proof. exact (filter_topk32 lm P rg pos rx ry ref k out). Qed.

(** Ids and types of the kept points are those of the map converted to float32 by the
    IEEE conversion (int32 range; the cast back is exact unless it is 2^31). *)
Theorem C81_ids lm (rg : list (rgpt (S := F32 lm))) ref k out q : (k < length rg)%nat ->
  filter_topk_roadgraph_points (S := F32 lm) rg ref k = Ok out -> In q out ->
  exists p, In p rg /\ rg_x q = rg_x p /\ rg_y q = rg_y p /\ rg_z q = rg_z p /\ rg_valid q = rg_valid p /\
    ((Z.abs (rg_id p) <= 2 ^ 31)%Z -> fin (f32_ofZ (rg_id p)) (IZR (rg_id q))) /\
    ((Z.abs (rg_type p) <= 2 ^ 31)%Z -> fin (f32_ofZ (rg_type p)) (IZR (rg_type q))).
Proof. exact (filter_ids lm rg ref k out q). Qed.

(** The relation by which C40 and the statements above describe ids and types is that
    conversion. *)
Theorem C81_nearest_is_conversion z w : (Z.abs z <= 2 ^ 31)%Z -> (f32_nearest z w <-> fin (f32_ofZ z) (IZR w)).
Proof.
  intros H. pose proof (ofZ_round z H) as F. split.
  - intros N. rewrite (nearest_unique z _ _ N (float32_nearest z)). exact F.
  - intros G. assert (w = float32_int z) as -> by (apply eq_IZR; exact (fin_fun _ _ _ G F)). apply float32_nearest.
Qed.

(* ---------------- concrete cases ---------------- *)

(** Three map points, the middle one invalid; seen from (3, 4) the last is nearest and is
    the one kept. *)
Definition orgp (lm : libm) (x y : Z) (v : bool) : rgpt (S := F32 lm) :=
  mkrg (S := F32 lm) (f32_ofZ x) (f32_ofZ y) (f32_ofZ 0) (f32_ofZ 1) (f32_ofZ 0) (f32_ofZ 0) 2 5 v.
Definition omap (lm : libm) : list (rgpt (S := F32 lm)) := [orgp lm 30 40 true; orgp lm 3 4 false; orgp lm 0 0 true].
Example C81_nearest_ex lm : exists out q, filter_topk_roadgraph_points (S := F32 lm) (omap lm) (f32_ofZ 3, f32_ofZ 4) 1 = Ok out /\
  nth_error out 0 = Some q /\ fin (rg_x q) 0 /\ fin (rg_y q) 0.
Proof.
  set (pos := fun i : nat => match i with O => (30, 40) | _ => (0, 0) end : R * R).
  assert (M : map32 64 (omap lm) pos).
  { intros [|[|[|i]]] p E V; cbn [nth_error omap] in E.
    - apply Some_inj in E. subst p. unfold at32, pos; cbn [orgp rg_x rg_y fst snd].
      split; [apply (ofZ_fin 30); lia|]. split; [apply (ofZ_fin 40); lia|]. split; apply Rabs_le; lra.
    - apply Some_inj in E. subst p. discriminate V.
    - apply Some_inj in E. subst p. unfold at32, pos; cbn [orgp rg_x rg_y fst snd].
      split; [apply (ofZ_fin 0); lia|]. split; [apply (ofZ_fin 0); lia|]. split; apply Rabs_le; lra.
    - destruct i; discriminate E. }
  assert (A : at32 64 (f32_ofZ 3) (f32_ofZ 4) (3, 4)).
  { unfold at32; cbn [fst snd]. split; [apply (ofZ_fin 3); lia|]. split; [apply (ofZ_fin 4); lia|]. split; apply Rabs_le; lra. }
  destruct (filter_topk_cases (S := F32 lm) (omap lm) (f32_ofZ 3, f32_ofZ 4) 1) as (C & _). destruct C as (out & Eo & _); [cbn; lia|].
  destruct (C81_nearest_points lm 64 (omap lm) pos _ _ (3, 4) 1 out ltac:(simpl; lra) M A ltac:(cbn; lia) Eo) as (Lo & keep & Lk & _ & K1 & _ & K2).
  destruct keep as [|i [|]]; [discriminate Lk | | discriminate Lk].
  destruct (K1 0%nat i eq_refl) as (p & q & Ep & Eq & X & Y & _).
  exists out, q. split; [exact Eo|]. split; [exact Eq|]. rewrite X, Y. clear Eo M A K1 Lo.
  assert (D0 : dist (3, 4) (30, 40) = 45).
  { unfold dist; cbn [fst snd]. replace ((3 - 30) * (3 - 30) + (4 - 40) * (4 - 40)) with (45 * 45) by ring. apply sqrt_square. lra. }
  assert (D2 : dist (3, 4) (0, 0) = 5).
  { unfold dist; cbn [fst snd]. replace ((3 - 0) * (3 - 0) + (4 - 0) * (4 - 0)) with (5 * 5) by ring. apply sqrt_square. lra. }
  destruct i as [|[|[|i]]]; cbn [nth_error omap] in Ep.
  - exfalso. destruct (K2 0%nat 2%nat) as (p1 & q1 & E1 & E2 & H); [left; reflexivity | cbn; lia | intros [G|[]]; discriminate G |].
    cbn [nth_error omap] in E1, E2. apply Some_inj in E1, E2. subst p1 q1. cbn [rg_valid orgp] in H. unfold pos in H. rewrite D0, D2 in H.
    destruct H as [[_ H]|[(_ & _ & H)|(H & _)]]; [discriminate H | | discriminate H]. simpl in H. lra.
  - exfalso. destruct (K2 1%nat 2%nat) as (p1 & q1 & E1 & E2 & H); [left; reflexivity | cbn; lia | intros [G|[]]; discriminate G |].
    cbn [nth_error omap] in E1, E2. apply Some_inj in E1, E2. subst p1 q1. cbn [rg_valid orgp] in H.
    destruct H as [[H _]|[(H & _)|(_ & H & _)]]; discriminate H.
  - apply Some_inj in Ep. subst p. cbn [orgp rg_x rg_y]. split; apply (ofZ_fin 0); lia.
  - destruct i; discriminate Ep.
Qed.

Lemma ideal_trig_zero : trig_zero32 ideal_libm.
Proof.
  intros x [_ Z].
  pose proof (of_fin 1 ltac:(rewrite Rabs_R1; apply one_127)) as F1. rewrite (rnd_id 1 (rep_IZR 1 ltac:(lia))) in F1.
  pose proof (of_fin 0 ltac:(rewrite Rabs_R0; apply bpow_ge_0)) as F0. rewrite rnd_0 in F0.
  split.
  - change (fin (f32_of (cos (B2R x))) 1). rewrite Z, cos_0. exact F1.
  - change (fin (f32_of (sin (B2R x))) 0). rewrite Z, sin_0. exact F0.
Qed.

(** The SDC at (100, 50) heading 1, another car at (60, 90) heading 2 and driving along y,
    one map point. *)
Definition ocar (x y h vy : Z) : pt (S := F32 ideal_libm) :=
  mkpt (S := F32 ideal_libm) (f32_ofZ x) (f32_ofZ y) (f32_ofZ 0) (f32_ofZ 0) (f32_ofZ vy) (f32_ofZ h) true 0
    (f32_ofZ 4) (f32_ofZ 2) (f32_ofZ 1).
Definition oscn : state (S := F32 ideal_libm) :=
  mkstate (S := F32 ideal_libm) [[ocar 100 50 1 0]; [ocar 60 90 2 8]] [[ocar 100 50 1 0]; [ocar 60 90 2 8]]
    [[mktl (S := F32 ideal_libm) (f32_ofZ 7) (f32_ofZ 8) (f32_ofZ 0) 4 3 true]]
    [mkmeta 1 1 true true true false false; mkmeta 2 1 false true true false false] 0 None
    (Some [mkrg (S := F32 ideal_libm) (f32_ofZ 1) (f32_ofZ 2) (f32_ofZ 0) (f32_ofZ 1) (f32_ofZ 0) (f32_ofZ 0) 2 5 true]).

Lemma ocar32 x y h vy : (Z.abs x <= 128)%Z -> (Z.abs y <= 128)%Z -> (Z.abs h <= 4)%Z -> (Z.abs vy <= 8)%Z ->
  kin32 128 8 (ocar x y h vy) (mkkin (IZR x) (IZR y) (IZR h) 0 (IZR vy)).
Proof.
  intros X Y H V. unfold kin32; cbn [p_x p_y p_yaw p_vx p_vy ocar kx ky kyaw kvx kvy].
  split; [apply ofZ_fin; lia|]. split; [apply ofZ_fin; lia|]. split; [apply ofZ_fin; lia|]. split; [apply (ofZ_fin 0); lia|]. split; [apply ofZ_fin; lia|].
  rewrite <- !abs_IZR. repeat split; apply IZR_le; lia.
Qed.

(** Both observers' observations exist; the SDC's own view has the other car 40 sqrt 2 m
    away. *)
Example C81_ex : exists o v q1 c1 q2 c2, observation_from_state oscn 1 1 FRAME_OBJECT = Ok o /\ nth_error o 0 = Some v /\
  at2 (v_traj v) 0 0 = Some q1 /\ fin (p_x q1) (fst c1) /\ fin (p_y q1) (snd c1) /\ c1 = (0, 0) /\
  at2 (v_traj v) 1 0 = Some q2 /\ fin (p_x q2) (fst c2) /\ fin (p_y q2) (snd c2) /\
  Rabs (dist c1 c2 - 40 * sqrt 2) <= / 2 ^ 10.
Proof.
  assert (W : obs_wf 2 1 1 0 oscn).
  { split; [split; [split; [reflexivity | intros r [<-|[<-|[]]]; reflexivity]|]; split; [split; [reflexivity | intros r [<-|[<-|[]]]; reflexivity]|]; split; [reflexivity | lia]|].
    split; [split; [reflexivity | intros r [<-|[]]; reflexivity]|]. split; [reflexivity | lia]. }
  destruct (observation_spec 2 1 1 0 oscn 1 1 FRAME_OBJECT _ W ltac:(lia) eq_refl ltac:(cbn; lia)) as (o & _ & _ & _ & _ & Ho & Lo & _).
  destruct (nth_error_lt_Some o 0) as [v Hv]; [lia|].
  assert (Hc : centre32 FRAME_OBJECT oscn 0 0) by (left; auto).
  pose proof (ocar32 100 50 1 0 ltac:(lia) ltac:(lia) ltac:(lia) ltac:(lia)) as K1. pose proof (ocar32 60 90 2 8 ltac:(lia) ltac:(lia) ltac:(lia) ltac:(lia)) as K2.
  destruct (C81_self ideal_libm 128 8 2 1 1 0 oscn 1 1 FRAME_OBJECT _ o 0 v 0 _ _ ideal_accurate ideal_trig_zero ltac:(simpl; lra) ltac:(simpl; lra) W ltac:(lia) eq_refl
    ltac:(cbn; lia) Ho Hv Hc eq_refl K1) as (q0 & Q0 & X0 & Y0 & _).
  destruct (C81_distances ideal_libm 128 8 2 1 1 0 oscn 1 1 FRAME_OBJECT _ o 0 v 0 _ _ 0 0 _ _ 1 0 _ _ ideal_accurate ideal_trig_zero ltac:(simpl; lra) ltac:(simpl; lra) W ltac:(lia) eq_refl
    ltac:(cbn; lia) Ho Hv Hc eq_refl K1 ltac:(lia) eq_refl K1 ltac:(lia) eq_refl K2) as (q1 & c1 & q2 & c2 & Q1 & X1 & Y1 & Q2 & X2 & Y2 & D).
  exists o, v, q1, c1, q2, c2. split; [exact Ho|]. split; [exact Hv|]. split; [exact Q1|]. split; [exact X1|]. split; [exact Y1|]. split.
  { cbn [Nat.sub] in Q0. assert (q0 = q1) by congruence. subst q0. destruct c1. cbn [fst snd] in *. f_equal; eapply fin_fun; eauto. }
  split; [exact Q2|]. split; [exact X2|]. split; [exact Y2|].
  cbn [kx ky] in D. replace (dist (100, 50) (60, 90)) with (40 * sqrt 2) in D; [simpl in *; lra|].
  unfold dist; cbn [fst snd]. replace ((100 - 60) * (100 - 60) + (50 - 90) * (50 - 90)) with (40 * 40 * 2) by ring.
  rewrite sqrt_mult by lra. rewrite sqrt_square by lra. reflexivity.
Qed.

(** An id of 2^24 + 1 comes back as 2^24. *)
Example C81_ids_ex lm : exists p (out : list (rgpt (S := F32 lm))) q,
  let far := mkrg (S := F32 lm) (f32_ofZ 9) (f32_ofZ 9) (f32_ofZ 0) (f32_ofZ 0) (f32_ofZ 0) (f32_ofZ 0) 1 7 true in
  rg_id p = 16777217%Z /\ filter_topk_roadgraph_points (S := F32 lm) [p; far] (f32_ofZ 0, f32_ofZ 0) 1 = Ok out /\
  In q out /\ rg_id q = 16777216%Z /\ fin (f32_ofZ 16777217) 16777216.
Proof.
  exists (mkrg (S := F32 lm) (f32_ofZ 1) (f32_ofZ 1) (f32_ofZ 0) (f32_ofZ 0) (f32_ofZ 0) (f32_ofZ 0) 1 16777217 true).
  eexists. eexists. cbv zeta. split; [reflexivity|]. split; [reflexivity|]. split; [left; reflexivity|].
  split; [reflexivity|]. split; vm_compute; [reflexivity | lra].
Qed.

Print Assumptions C81_own_frame.
Print Assumptions C81_self.
Print Assumptions C81_distances.
Print Assumptions C81_sdc_observation.
Print Assumptions C81_nearest_points.
Print Assumptions C81_nearest_ex.
Print Assumptions C81_ex.
Print Assumptions C81_ids.
Print Assumptions C81_ids_ex.
Print Assumptions C81_nearest_is_conversion.
