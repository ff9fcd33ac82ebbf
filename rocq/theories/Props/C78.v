(** C78: displacements in the vehicle's own frame in float32.  [F32 lm] is IEEE
    binary32.  The maths library [lm] need not be accurate: sine and cosine of the
    same heading must make a vector of length about 1, and be odd and even. *)
From Coq Require Import List ZArith Reals Lra Lia Bool.
From Flocq Require Import IEEE754.BinarySingleNaN.
From Verif.Lib Require Import Base JaxIndex Scalar F32.
From Verif.Model Require Import Operations State Dynamics BaseEnv Geometry Dyn_State Dyn_Delta Expert.
From Verif.Spec Require Import StateSpec DynSpec GeomSpec F32Spec F32EpisodeSpec F32LocalSpec.
From Verif.Proofs Require Import Core P_F32 P_F32Wrap P_F32Local P_Libm.
Import ListNotations.
Open Scope R_scope.

(** Closed-loop expert control with DeltaLocal does not drift, although each step
    rotates the displacement into the vehicle's frame and back: in an episode of any
    length the error of the position is at most one part in 2^24 of the largest
    logged coordinate plus 40 times the displacement limit, provided each logged
    displacement leaves a little room below the limit.  The heading follows the log
    modulo whole turns. *)
Theorem C78_local_replay_does_not_drift lm (q : delta_params (S := F32 lm)) n T c (s : state (S := F32 lm)) k s' i
  (lg : nat -> pt (S := F32 lm)) (lx ly lyaw : nat -> R) mx my m M Y :
  trig32 lm -> parity32 lm -> wf_scenario n T s ->
  run_policy (DeltaLocal q) c (infer_expert_action (DeltaLocal q)) s k = Ok s' ->
  (1 <= c_init_steps c)%nat -> (c_init_steps c + k <= T)%nat -> (i < n)%nat ->
  (forall t, (c_init_steps c - 1 <= t < c_init_steps c + k)%nat ->
     at2 (s_log s) i t = Some (lg t) /\ p_valid (lg t) = true) ->
  (forall t, (c_init_steps c - 1 <= t < c_init_steps c + k)%nat ->
     fin (p_x (lg t)) (lx t) /\ fin (p_y (lg t)) (ly t) /\ fin (p_yaw (lg t)) (lyaw t) /\
     Rabs (lx t) <= M /\ Rabs (ly t) <= M /\ Rabs (lyaw t) <= Y) ->
  fin (dl_mx q) mx -> fin (dl_my q) my -> m <= mx -> m <= my -> / 2 ^ 40 <= m <= 2 ^ 60 -> M <= 2 ^ 60 ->
  Y + 4 * INR k <= 1000000 ->
  (forall t, (c_init_steps c <= t < c_init_steps c + k)%nat ->
     dist (lx t, ly t) (lx (t - 1)%nat, ly (t - 1)%nat) + (M + 72 * m) / 8388608 <= m) ->
  forall t, (c_init_steps c - 1 <= t < c_init_steps c + k)%nat ->
    exists (p : pt (S := F32 lm)) x y w (j : Z), at2 (s_sim s') i t = Some p /\ p_valid p = true /\
      fin (p_x p) x /\ fin (p_y p) y /\ fin (p_yaw p) w /\
      Rabs (x - lx t) <= (M + 40 * m) / 16777216 /\ Rabs (y - ly t) <= (M + 40 * m) / 16777216 /\
      Rabs (w - (lyaw t + IZR j * (2 * pi32))) <= (7 * (Y + 4 * INR (t + 1 - c_init_steps c)) + 16) / 16777216.
Proof.
  intros TR PA W H HI HL Hi Lg L Fx Fy Hx Hy Hm BM BY HD t Ht.
  assert (E : forall z, z / 16777216 = u32 * z) by (intros; unfold u32, Rdiv; ring).
  setoid_rewrite E.
  apply (local_replay lm TR PA q n T c s k s' i lg lx ly lyaw mx my m M Y W H HI HL Hi Lg L Fx Fy Hx Hy Hm BM BY); [|exact Ht].
  intros t' Ht'. specialize (HD t' Ht').
  change (dist (lx t', ly t') (lx (t' - 1)%nat, ly (t' - 1)%nat))
    with (sqrt ((lx t' - lx (t' - 1)%nat) * (lx t' - lx (t' - 1)%nat) + (ly t' - ly (t' - 1)%nat) * (ly t' - ly (t' - 1)%nat))) in HD.
  unfold P_F32Bicycle.len, u32. lra.
Qed.

(** The closed loop never fails, for every number type. *)
Theorem C78_local_replay_never_fails {S : Scalar} (q : delta_params) n T c s k :
  wf_scenario n T s -> c_max_num_objects c = n -> c_controlled c <> NON_SDC ->
  (1 <= c_init_steps c)%nat -> (c_init_steps c + k <= T)%nat ->
  exists s', run_policy (DeltaLocal q) c (infer_expert_action (DeltaLocal q)) s k = Ok s'.
Proof. exact (expert_local_runs q n T c s k). Qed.

(** With any policy whose displacements are at most [M] in each component, every
    frame is finite; coordinates and heading grow by at most 3/2 [M] per step, up to
    rounding (the diagonal of the square of allowed displacements is 1.41 [M]). *)
Theorem C78_local_episode_stays_finite lm (q : delta_params (S := F32 lm)) d n T c pol
  (s : state (S := F32 lm)) k s' i X V M P :
  trig32 lm -> fin (dl_dt q) d -> / 2 ^ 60 <= d ->
  wf_scenario n T s -> run_policy (DeltaLocal q) c pol s k = Ok s' ->
  (1 <= c_init_steps c)%nat -> (c_init_steps c + k <= T)%nat -> (i < n)%nat ->
  (forall s1 a, pol s1 = Ok a -> Forall (delta32 M) a) ->
  (forall t l, at2 (s_log s) i t = Some l -> (t < c_init_steps c + k)%nat -> within32 X V l) ->
  1 <= P <= 2 ^ 60 -> 0 <= M -> 1 <= V <= 2 ^ 60 -> 4 * M <= V * d ->
  X + INR k * (3 / 2 * M + P / 2 ^ 20) <= P ->
  forall t, (t < c_init_steps c + k)%nat ->
    exists p, at2 (s_sim s') i t = Some p /\ within32 (X + INR (t + 1 - c_init_steps c) * (3 / 2 * M + P / 2 ^ 20)) V p.
Proof. intros TR. exact (local_episode32 lm TR q d n T c pol s k s' i X V M P). Qed.

(* ---------------- concrete cases ---------------- *)

(** Correctly rounded sine and cosine meet the hypotheses. *)
Example C78_ex_library : trig32 ideal_libm /\ parity32 ideal_libm.
Proof.
  split; [exact ideal_trig|]. intros x c s FC FS. pose proof one_127.
  assert (C1 : fin (lm_cos ideal_libm x) (rnd (cos (B2R x)))) by (apply of_fin; pose proof (cos_abs (B2R x)); lra).
  assert (S1 : fin (lm_sin ideal_libm x) (rnd (sin (B2R x)))) by (apply of_fin; pose proof (sin_abs (B2R x)); lra).
  rewrite (fin_fun _ _ _ FC C1), (fin_fun _ _ _ FS S1).
  change (lm_cos ideal_libm (Bopp x)) with (f32_of (cos (B2R (Bopp x)))).
  change (lm_sin ideal_libm (Bopp x)) with (f32_of (sin (B2R (Bopp x)))).
  rewrite B2R_Bopp, cos_neg, sin_neg, <- rnd_opp. split; apply of_fin; rewrite ?Rabs_Ropp.
  - pose proof (cos_abs (B2R x)). lra.
  - pose proof (sin_abs (B2R x)). lra.
Qed.

(** One vehicle that drives from (0, 0) over (3, 4) to (6, 8) with heading
    15557297/2^24, about 0.927 rad; the default limits of 6 m. *)
Section Ex.
  Variable lm : libm.
  Definition yaw0 : f32 := f32_norm 15557297 (-24) false.
  Lemma yaw0_fin : fin yaw0 (15557297 / 16777216).
  Proof.
    unfold yaw0. replace (15557297 / 16777216) with (IZR 15557297 * b32 (-24)) by (simpl; lra).
    apply norm_fin; [simpl; lia | lia |]. rewrite Rabs_pos_eq by (simpl; lra).
    apply Rlt_trans with (b32 0); [simpl; lra | apply Flocq.Core.Raux.bpow_lt; lia].
  Qed.
  Definition dpt (x y : Z) : pt (S := F32 lm) :=
    mkpt (S := F32 lm) (f32_ofZ x) (f32_ofZ y) (f32_ofZ 0) (f32_ofZ 30) (f32_ofZ 40) yaw0 true 0%Z (f32_ofZ 4) (f32_ofZ 2) (f32_ofZ 1).
  Definition dscn : state (S := F32 lm) :=
    mkstate (S := F32 lm) [] [[dpt 0 0; dpt 3 4; dpt 6 8]] [] [mkmeta 1 1 true true true false false] 5 None None.
  Definition dcfg : envcfg := mkcfg 1 1 SDC false.
  Definition dq : delta_params (S := F32 lm) := delta_default (S := F32 lm).
  Definition drun (k : nat) : res (state (S := F32 lm)) :=
    run_policy (DeltaLocal dq) dcfg (infer_expert_action (DeltaLocal dq)) dscn k.
  Lemma dscn_wf : wf_scenario 1 3 dscn.
  Proof.
    split; [|repeat split; auto with arith].
    split; [reflexivity|]. intros r [<-|[]]. reflexivity.
  Qed.
  Lemma dsix : fin (flit (Scalar := F32 lm) 6 1) 6.
  Proof.
    assert (F6 : fin (f32_ofZ 6) 6) by (apply (ofZ_fin 6); simpl; lia).
    assert (E : Beqb (flit (Scalar := F32 lm) 6 1) (f32_ofZ 6) = true) by (vm_compute; reflexivity).
    assert (Ff : is_finite (flit (Scalar := F32 lm) 6 1) = true) by (vm_compute; reflexivity).
    rewrite (eqb_fin _ _ _ _ (conj Ff eq_refl) F6) in E.
    destruct (Flocq.Core.Raux.Req_bool_spec (B2R (flit (Scalar := F32 lm) 6 1)) 6) as [E'|]; [|discriminate].
    split; [exact Ff | exact E'].
  Qed.
End Ex.

Definition dx (t : nat) : R := match t with 0%nat => 0 | 1%nat => 3 | _ => 6 end.
Definition dy (t : nat) : R := match t with 0%nat => 0 | 1%nat => 4 | _ => 8 end.

(** All hypotheses of the replay theorem hold: the last position is within 2^-15 of
    (6, 8). *)
Example C78_ex_replay : exists s' p x y, drun ideal_libm 2 = Ok s' /\ at2 (s_sim s') 0 2 = Some p /\ p_valid p = true /\
  fin (p_x p) x /\ fin (p_y p) y /\ Rabs (x - 6) <= / 2 ^ 15 /\ Rabs (y - 8) <= / 2 ^ 15.
Proof.
  destruct (C78_local_replay_never_fails (S := F32 ideal_libm) (dq ideal_libm) 1 3 dcfg (dscn ideal_libm) 2 (dscn_wf _) eq_refl
    ltac:(discriminate) ltac:(simpl; lia) ltac:(simpl; lia)) as [s' E].
  assert (P60 : 100 <= 2 ^ 60) by (simpl; lra).
  destruct (C78_local_replay_does_not_drift ideal_libm (dq ideal_libm) 1 3 dcfg (dscn ideal_libm) 2 s' 0
    (fun t => match t with 0%nat => dpt ideal_libm 0 0 | 1%nat => dpt ideal_libm 3 4 | _ => dpt ideal_libm 6 8 end)
    dx dy (fun _ => 15557297 / 16777216) 6 6 6 8 1 (proj1 C78_ex_library) (proj2 C78_ex_library) (dscn_wf _) E
    ltac:(simpl; lia) ltac:(simpl; lia) ltac:(lia)) with (t := 2%nat)
    as (p & x & y & w & j & A & V & X & Y & _ & EX & EY & _); simpl c_init_steps; try lia; try lra.
  - intros [|[|[|t]]] Ht; try (split; reflexivity); lia.
  - intros t Ht. pose proof yaw0_fin as YF.
    assert (Ab : forall z, 0 <= z <= 8 -> Rabs z <= 8) by (intros z Hz; rewrite Rabs_pos_eq; lra).
    assert (Ay : Rabs (15557297 / 16777216) <= 1) by (rewrite Rabs_pos_eq; lra).
    destruct t as [|[|[|t]]]; try lia; simpl dx; simpl dy;
      (split; [apply ofZ_fin; simpl; lia|]; split; [apply ofZ_fin; simpl; lia|]; split; [exact YF|];
       split; [apply Ab; lra|]; split; [apply Ab; lra | exact Ay]).
  - exact (dsix _).
  - exact (dsix _).
  - simpl. lra.
  - intros t Ht.
    assert (D : dist (dx t, dy t) (dx (t - 1)%nat, dy (t - 1)%nat) <= 5).
    { unfold dist. destruct t as [|[|[|t]]]; try lia; simpl;
        (apply Rle_trans with (sqrt (5 * 5)); [apply sqrt_le_1_alt; lra | rewrite sqrt_square; lra]). }
    lra.
  - exists s', p, x, y. split; [exact E|]. split; [exact A|]. split; [exact V|]. split; [exact X|]. split; [exact Y|].
    simpl dx in EX. simpl dy in EY. simpl. lra.
Qed.

(* ---------------- what does not hold ---------------- *)

(** A crude library: the cosine of every heading but 0 is about 0.6, the sine about 0.8 with the
    sign of the heading. *)
Definition c06 : f32 := f32_norm 10066334 (-24) false.
Definition s08 : f32 := f32_norm 13421773 (-24) false.
Definition crude (odd : bool) : libm :=
  mklibm (fun x _ => x) (fun y _ => y)
    (fun x => if Bltb (B754_zero false) x then s08
              else if Bltb x (B754_zero false) then (if odd then Bopp s08 else s08) else x)
    (fun x => if Beqb x (B754_zero false) then f32_ofZ 1 else c06).

Lemma norm24 m : (0 <= m < 2 ^ 24)%Z -> fin (f32_norm m (-24) false) (IZR m / 16777216).
Proof.
  intros H. replace (IZR m / 16777216) with (IZR m * b32 (-24)) by (simpl; lra).
  apply norm_fin; [lia | lia |]. destruct H as [H1 H2]. apply IZR_le in H1. apply IZR_lt in H2.
  change (IZR (2 ^ 24)) with 16777216 in H2. change (b32 (-24)) with (/ 16777216).
  rewrite Rabs_pos_eq by lra. apply Rlt_trans with (b32 1); [change (b32 1) with 2; lra | apply Flocq.Core.Raux.bpow_lt; lia].
Qed.

Lemma crude_trig odd : trig32 (crude odd).
Proof.
  intros x Fx. pose proof (norm24 10066334 ltac:(lia)) as FC. pose proof (norm24 13421773 ltac:(lia)) as FS.
  assert (F1 : fin (f32_ofZ 1) 1) by (apply (ofZ_fin 1); simpl; lia).
  assert (Z : fin (B754_zero false) 0) by (split; reflexivity).
  cbn [lm_cos lm_sin crude].
  rewrite (eqb_fin _ _ _ _ (fin_B2R _ Fx) Z), (ltb_fin _ _ _ _ (fin_B2R _ Fx) Z), (ltb_fin _ _ _ _ Z (fin_B2R _ Fx)).
  destruct (Flocq.Core.Raux.Req_bool_spec (B2R x) 0) as [E|E].
  - rewrite !Flocq.Core.Raux.Rlt_bool_false by lra.
    exists 1, 0. split; [exact F1|]. split; [split; [exact Fx | exact E]|].
    rewrite Rabs_R1, Rabs_R0. split; [lra|]. split; [lra|].
    replace (1 * 1 + 0 * 0 - 1) with 0 by ring. rewrite Rabs_R0. simpl. lra.
  - assert (K : forall f v, fin f v -> v * v = 13421773 / 16777216 * (13421773 / 16777216) -> Rabs v <= 1 ->
      exists c s, fin c06 c /\ fin f s /\ Rabs c <= 1 /\ Rabs s <= 1 /\ Rabs (c * c + s * s - 1) <= / 2 ^ 20).
    { intros f v Ff Ev Bv. exists (10066334 / 16777216), v. split; [exact FC|]. split; [exact Ff|].
      split; [rewrite Rabs_pos_eq; lra|]. split; [exact Bv|]. rewrite Ev, Rabs_pos_eq by lra. simpl. lra. }
    assert (KP : exists c s, fin c06 c /\ fin s08 s /\ Rabs c <= 1 /\ Rabs s <= 1 /\ Rabs (c * c + s * s - 1) <= / 2 ^ 20).
    { apply (K _ _ FS); [reflexivity | rewrite Rabs_pos_eq; lra]. }
    destruct (Flocq.Core.Raux.Rlt_bool_spec 0 (B2R x)) as [L|L]; [exact KP|].
    rewrite Flocq.Core.Raux.Rlt_bool_true by lra. destruct odd; [|exact KP].
    apply (K _ _ (opp_fin _ _ FS)); [ring | rewrite Rabs_Ropp, Rabs_pos_eq; lra].
Qed.

Lemma crude_parity : parity32 (crude true).
Proof.
  intros x c s FC FS. cbn [lm_cos lm_sin crude] in *.
  destruct x as [g|g| |g m e H].
  - split; [exact FC|]. exact (opp_fin _ _ FS).
  - destruct g; (split; [exact FC|]).
    + change (fin (Bopp s08) s) in FS. change (fin s08 (- s)).
      rewrite <- (fin_fun _ _ _ (opp_fin _ _ (norm24 13421773 ltac:(lia))) FS), Ropp_involutive. apply norm24. lia.
    + change (fin s08 s) in FS. change (fin (Bopp s08) (- s)). exact (opp_fin _ _ FS).
  - destruct FS as [FS _]. discriminate.
  - destruct g; (split; [exact FC|]).
    + change (fin (Bopp s08) s) in FS. change (fin s08 (- s)).
      rewrite <- (fin_fun _ _ _ (opp_fin _ _ (norm24 13421773 ltac:(lia))) FS), Ropp_involutive. apply norm24. lia.
    + change (fin s08 s) in FS. change (fin (Bopp s08) (- s)). exact (opp_fin _ _ FS).
Qed.

Ltac runs32 lm k :=
  destruct (C78_local_replay_never_fails (S := F32 lm) (dq lm) 1 3 dcfg (dscn lm) k (dscn_wf _) eq_refl
    ltac:(discriminate) ltac:(simpl; lia) ltac:(simpl; lia)) as [s' E].

(** Unlike DeltaGlobal (C62), DeltaLocal does not replay the log exactly: with a
    library that meets the hypotheses the same vehicle does not end at x = 6. *)
Theorem C78_local_replay_exact_refuted : trig32 (crude true) /\ parity32 (crude true) /\
  exists s' p x, drun (crude true) 2 = Ok s' /\ at2 (s_sim s') 0 2 = Some p /\ p_valid p = true /\ fin (p_x p) x /\ x <> 6.
Proof.
  split; [apply crude_trig|]. split; [exact crude_parity|].
  runs32 (crude true) 2%nat.
  assert (Q : match drun (crude true) 2 with
              | Ok s => match at2 (s_sim s) 0 2 with
                        | Some p => p_valid p && is_finite (p_x p) && negb (Beqb (p_x p) (f32_ofZ 6))
                        | None => false end
              | _ => false end = true) by (vm_compute; reflexivity).
  unfold drun in Q. rewrite E in Q. destruct (at2 (s_sim s') 0 2) as [p|] eqn:A; [|discriminate].
  apply andb_prop in Q. destruct Q as [Q Q3]. apply andb_prop in Q. destruct Q as [Q1 Q2].
  exists s', p, (B2R (p_x p)). split; [exact E|]. split; [exact A|]. split; [exact Q1|]. split; [split; [exact Q2 | reflexivity]|].
  rewrite (eqb_fin _ _ _ _ (conj Q2 eq_refl) (ofZ_fin 6 ltac:(simpl; lia))) in Q3.
  destruct (Flocq.Core.Raux.Req_bool_spec (B2R (p_x p)) 6); [discriminate | assumption].
Qed.

(** The parity hypothesis is needed: if the sine is even, all else unchanged, the
    vehicle that should be at x = 3 after one step is at x < 0. *)
Theorem C78_without_parity_refuted : trig32 (crude false) /\
  exists s' p x, drun (crude false) 1 = Ok s' /\ at2 (s_sim s') 0 1 = Some p /\ p_valid p = true /\ fin (p_x p) x /\ x < 0.
Proof.
  split; [apply crude_trig|].
  runs32 (crude false) 1%nat.
  assert (Q : match drun (crude false) 1 with
              | Ok s => match at2 (s_sim s) 0 1 with
                        | Some p => p_valid p && is_finite (p_x p) && Bltb (p_x p) (f32_ofZ 0)
                        | None => false end
              | _ => false end = true) by (vm_compute; reflexivity).
  unfold drun in Q. rewrite E in Q. destruct (at2 (s_sim s') 0 1) as [p|] eqn:A; [|discriminate].
  apply andb_prop in Q. destruct Q as [Q Q3]. apply andb_prop in Q. destruct Q as [Q1 Q2].
  exists s', p, (B2R (p_x p)). split; [exact E|]. split; [exact A|]. split; [exact Q1|]. split; [split; [exact Q2 | reflexivity]|].
  rewrite (ltb_fin _ _ _ _ (conj Q2 eq_refl) (ofZ_fin 0 ltac:(simpl; lia))) in Q3.
  destruct (Flocq.Core.Raux.Rlt_bool_spec (B2R (p_x p)) 0); [assumption | discriminate].
Qed.

(** The hypotheses of the finiteness theorem: the same vehicle under a policy that
    always asks for 6 m forward, 6 m to the left and one radian. *)
Definition hard (lm : libm) (_ : state (S := F32 lm)) : res (list (act (S := F32 lm))) :=
  Ok [mkact (S := F32 lm) [f32_ofZ 6; f32_ofZ 6; f32_ofZ 1] true].
Example C78_ex_finite : exists s' p, run_policy (DeltaLocal (dq (crude true))) dcfg (hard (crude true)) (dscn (crude true)) 2 = Ok s' /\
  at2 (s_sim s') 0 2 = Some p /\ within32 27 300 p.
Proof.
  destruct (run_policy (DeltaLocal (dq (crude true))) dcfg (hard (crude true)) (dscn (crude true)) 2) as [s'|] eqn:E.
  2:{ assert (Q : match run_policy (DeltaLocal (dq (crude true))) dcfg (hard (crude true)) (dscn (crude true)) 2 with Ok _ => true | _ => false end = true)
        by (vm_compute; reflexivity). rewrite E in Q. discriminate. }
  assert (Fd : exists d, fin (dl_dt (dq (crude true))) d /\ 9 / 100 <= d <= 11 / 100).
  { exists (B2R (dl_dt (dq (crude true)))).
    assert (Ff : is_finite (dl_dt (dq (crude true))) = true) by (vm_compute; reflexivity).
    split; [split; [exact Ff | reflexivity]|].
    pose proof (norm24 1509950 ltac:(lia)) as L. pose proof (norm24 1845493 ltac:(lia)) as U.
    assert (Q1 : Bleb (f32_norm 1509950 (-24) false) (dl_dt (dq (crude true))) = true) by (vm_compute; reflexivity).
    assert (Q2 : Bleb (dl_dt (dq (crude true))) (f32_norm 1845493 (-24) false) = true) by (vm_compute; reflexivity).
    rewrite (leb_fin _ _ _ _ L (conj Ff eq_refl)) in Q1. rewrite (leb_fin _ _ _ _ (conj Ff eq_refl) U) in Q2.
    destruct (Flocq.Core.Raux.Rle_bool_spec (1509950 / 16777216) (B2R (dl_dt (dq (crude true))))); [|discriminate].
    destruct (Flocq.Core.Raux.Rle_bool_spec (B2R (dl_dt (dq (crude true)))) (1845493 / 16777216)); [|discriminate]. lra. }
  destruct Fd as (d & Fd & Hd).
  assert (P60 : 1000 <= 2 ^ 60) by (simpl; lra).
  destruct (C78_local_episode_stays_finite (crude true) (dq (crude true)) d 1 3 dcfg (hard (crude true)) (dscn (crude true)) 2 s' 0
    8 300 6 100 (crude_trig true) Fd) with (t := 2%nat) as (p & A & B); simpl c_init_steps; try lia; try lra; try exact E; try apply dscn_wf.
  - intros s1 a Ha. injection Ha as <-. constructor; [|constructor].
    exists (f32_ofZ 6), (f32_ofZ 6), (f32_ofZ 1), 6, 6, 1. split; [reflexivity|].
    rewrite !Rabs_pos_eq by lra. repeat (split; [first [apply ofZ_fin; simpl; lia | lra]|]). lra.
  - intros t l El Ht. assert (exists x y, l = dpt (crude true) x y /\ (0 <= x <= 8)%Z /\ (0 <= y <= 8)%Z) as (x & y & -> & Bx & By).
    { destruct t as [|[|[|t]]]; try lia; injection El as <-; [exists 0%Z, 0%Z | exists 3%Z, 4%Z | exists 6%Z, 8%Z]; (split; [reflexivity | lia]). }
    exists (IZR x), (IZR y), (15557297 / 16777216), 30, 40.
    split; [apply ofZ_fin; lia|]. split; [apply ofZ_fin; lia|]. split; [exact yaw0_fin|].
    split; [apply (ofZ_fin 30); simpl; lia|]. split; [apply (ofZ_fin 40); simpl; lia|].
    destruct Bx as [Bx1 Bx2]. destruct By as [By1 By2]. apply IZR_le in Bx1, Bx2, By1, By2.
    rewrite !Rabs_pos_eq by lra. split; [lra|]. split; [lra|]. split; [lra|].
    apply Rle_trans with (sqrt (50 * 50)); [apply sqrt_le_1_alt; lra | rewrite sqrt_square; lra].
  - change (INR 2) with (1 + 1). replace (100 / 2 ^ 20) with (100 / 1048576) by (simpl; lra). lra.
  - exists s', p. split; [reflexivity|]. split; [exact A|].
    destruct B as (x & y & w & vx & vy & F1 & F2 & F3 & F4 & F5 & B1 & B2 & B3 & B4).
    change (INR (2 + 1 - c_init_steps dcfg)) with (1 + 1) in B1, B2, B3.
    replace (100 / 2 ^ 20) with (100 / 1048576) in * by (simpl; lra).
    exists x, y, w, vx, vy. repeat (split; [assumption || lra|]). exact B4.
Qed.

Print Assumptions C78_local_replay_does_not_drift.
Print Assumptions C78_local_replay_never_fails.
Print Assumptions C78_local_episode_stays_finite.
Print Assumptions C78_local_replay_exact_refuted.
Print Assumptions C78_without_parity_refuted.
