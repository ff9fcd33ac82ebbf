(** C62: float32.  What the exact-arithmetic statements become in the number format
    the code runs in.  [F32 lm] is IEEE binary32; the maths library [lm] (sin, cos,
    atan2, pow) is arbitrary in every statement. *)
From Coq Require Import List ZArith Reals Lra Lia Bool.
From Flocq Require Import IEEE754.BinarySingleNaN.
From Verif.Lib Require Import Base JaxIndex Scalar F32.
From Verif.Model Require Import Operations State Dynamics BaseEnv Geometry Dyn_State Dyn_Delta Expert Discretizer.
From Verif.Spec Require Import StateSpec DynSpec DiscSpec F32Spec.
From Verif.Proofs Require Import Core P_F32 P_F32Wrap P_F32Delta P_F32Disc.
Import ListNotations.
Open Scope R_scope.

Lemma pow_b32 n : b32 (Z.of_nat n) = 2 ^ n.
Proof.
  induction n as [|n IH]; [reflexivity|].
  replace (Z.of_nat (Datatypes.S n)) with (1 + Z.of_nat n)%Z by lia.
  rewrite Flocq.Core.Raux.bpow_plus, IH. change (b32 1) with 2. reflexivity.
Qed.
Lemma pow100 : 2 ^ 100 = b32 100.
Proof. symmetry. exact (pow_b32 100). Qed.

(* ---------------- replaying the log with DeltaGlobal ---------------- *)

(** Closed-loop expert control does not drift: at every step of an episode of any
    length, the rounding error of the position is at most one part in 2^24 of the
    largest logged coordinate plus twice the displacement limit, provided the
    displacements leave that much room below the limit. *)
Theorem C62_replay_does_not_drift lm (q : delta_params (S := F32 lm)) n T c (s : state (S := F32 lm)) k s' i
  (lg : nat -> pt (S := F32 lm)) (lx ly : nat -> R) mx my M :
  wf_scenario n T s ->
  run_policy (DeltaGlobal q) c (infer_expert_action (DeltaGlobal q)) s k = Ok s' ->
  (1 <= c_init_steps c)%nat -> (c_init_steps c + k <= T)%nat -> (i < n)%nat ->
  (forall t, (c_init_steps c - 1 <= t < c_init_steps c + k)%nat ->
     at2 (s_log s) i t = Some (lg t) /\ p_valid (lg t) = true) ->
  (forall t, (c_init_steps c - 1 <= t < c_init_steps c + k)%nat ->
     fin (p_x (lg t)) (lx t) /\ fin (p_y (lg t)) (ly t) /\ Rabs (lx t) <= M /\ Rabs (ly t) <= M) ->
  fin (dl_mx q) mx -> fin (dl_my q) my -> 0 <= mx <= 2 ^ 100 -> 0 <= my <= 2 ^ 100 -> M <= 2 ^ 100 ->
  (forall t, (c_init_steps c <= t < c_init_steps c + k)%nat ->
     Rabs (lx t - lx (t - 1)%nat) + (M + 2 * mx) / 16777216 <= mx /\
     Rabs (ly t - ly (t - 1)%nat) + (M + 2 * my) / 16777216 <= my) ->
  forall t, (c_init_steps c - 1 <= t < c_init_steps c + k)%nat ->
    exists (p : pt (S := F32 lm)) x y, at2 (s_sim s') i t = Some p /\ p_valid p = true /\
      fin (p_x p) x /\ fin (p_y p) y /\
      Rabs (x - lx t) <= (M + 2 * mx) / 16777216 /\ Rabs (y - ly t) <= (M + 2 * my) / 16777216.
Proof.
  intros W H HI HL Hi Lg L Fx Fy Bx By BM D t Ht. rewrite pow100 in Bx, By, BM.
  assert (E : forall z, z / 16777216 = u32 * z) by (intros; unfold u32, Rdiv; ring).
  setoid_rewrite E in D. setoid_rewrite E.
  exact (replay_position lm q n T c s k s' i W H HI HL Hi lg Lg lx ly mx my M L Fx Fy Bx By BM D t Ht).
Qed.

(** It is exact where the object is further from both axes than it moves in one
    step: the simulated position is the logged one, with no error at all. *)
Theorem C62_replay_is_exact_away_from_axes lm (q : delta_params (S := F32 lm)) n T c (s : state (S := F32 lm)) k s' i
  (lg : nat -> pt (S := F32 lm)) (lx ly : nat -> R) mx my :
  wf_scenario n T s ->
  run_policy (DeltaGlobal q) c (infer_expert_action (DeltaGlobal q)) s k = Ok s' ->
  (1 <= c_init_steps c)%nat -> (c_init_steps c + k <= T)%nat -> (i < n)%nat ->
  (forall t, (c_init_steps c - 1 <= t < c_init_steps c + k)%nat ->
     at2 (s_log s) i t = Some (lg t) /\ p_valid (lg t) = true) ->
  (forall t, (c_init_steps c - 1 <= t < c_init_steps c + k)%nat ->
     fin (p_x (lg t)) (lx t) /\ fin (p_y (lg t)) (ly t) /\ Rabs (lx t) <= 2 ^ 100 /\ Rabs (ly t) <= 2 ^ 100) ->
  fin (dl_mx q) mx -> fin (dl_my q) my -> mx <= 2 ^ 100 -> my <= 2 ^ 100 ->
  (forall t, (c_init_steps c <= t < c_init_steps c + k)%nat ->
     Rabs (lx t - lx (t - 1)%nat) <= mx /\ Rabs (ly t - ly (t - 1)%nat) <= my /\
     away_from_origin (lx (t - 1)%nat) (lx t) /\ away_from_origin (ly (t - 1)%nat) (ly t)) ->
  forall t, (c_init_steps c - 1 <= t < c_init_steps c + k)%nat ->
    exists p : pt (S := F32 lm), at2 (s_sim s') i t = Some p /\ p_valid p = true /\
      fin (p_x p) (lx t) /\ fin (p_y p) (ly t).
Proof.
  intros W H HI HL Hi Lg L Fx Fy Bx By D t Ht. rewrite pow100 in *.
  exact (replay_exact lm q n T c s k s' i W H HI HL Hi lg Lg lx ly mx my L Fx Fy Bx By D t Ht).
Qed.

(** The heading follows the log modulo whole turns; the error grows only with the
    turns the heading has accumulated, at most 4 rad per step. *)
Theorem C62_replay_heading lm (q : delta_params (S := F32 lm)) n T c (s : state (S := F32 lm)) k s' i
  (lg : nat -> pt (S := F32 lm)) (lyaw : nat -> R) Y :
  wf_scenario n T s ->
  run_policy (DeltaGlobal q) c (infer_expert_action (DeltaGlobal q)) s k = Ok s' ->
  (1 <= c_init_steps c)%nat -> (c_init_steps c + k <= T)%nat -> (i < n)%nat ->
  (forall t, (c_init_steps c - 1 <= t < c_init_steps c + k)%nat ->
     at2 (s_log s) i t = Some (lg t) /\ p_valid (lg t) = true) ->
  (forall t, (c_init_steps c - 1 <= t < c_init_steps c + k)%nat ->
     fin (p_yaw (lg t)) (lyaw t) /\ Rabs (lyaw t) <= Y) ->
  Y + 4 * INR k <= 1000000 ->
  forall t, (c_init_steps c - 1 <= t < c_init_steps c + k)%nat ->
    exists (p : pt (S := F32 lm)) w (j : Z), at2 (s_sim s') i t = Some p /\ p_valid p = true /\ fin (p_yaw p) w /\
      Rabs (w - (lyaw t + IZR j * (2 * pi32))) <= (7 * (Y + 4 * INR (t + 1 - c_init_steps c)) + 16) / 16777216.
Proof.
  intros W H HI HL Hi Lg L B t Ht.
  destruct (replay_heading lm q n T c s k s' i W H HI HL Hi lg Lg lyaw Y L B t Ht) as (p & w & j & A & V & Fw & E).
  exists p, w, j. repeat (split; [assumption|]). eapply Rle_trans; [exact E|]. unfold u32, Rdiv. lra.
Qed.

(** The closed loop never fails, for every number type. *)
Theorem C62_replay_never_fails {S : Scalar} (q : delta_params) n T c s k :
  wf_scenario n T s -> c_max_num_objects c = n -> c_controlled c <> NON_SDC ->
  (1 <= c_init_steps c)%nat -> (c_init_steps c + k <= T)%nat ->
  exists s', run_policy (DeltaGlobal q) c (infer_expert_action (DeltaGlobal q)) s k = Ok s'.
Proof. exact (expert_delta_runs_any q n T c s k). Qed.

(* ---------------- wrap_yaws ---------------- *)

(** For every finite heading the result is finite, in [-pi32, pi32) with pi32 the
    float32 nearest to pi, and is the heading minus whole turns up to rounding. *)
Theorem C62_wrap_range lm x a : fin x a ->
  exists (k : Z) w, fin (wrap_yaws (S := F32 lm) x) w /\ - pi32 <= w < pi32 /\
    Rabs (w - (a - IZR k * (2 * pi32))) <= (Rabs a + 4 * pi32) / 16777216.
Proof.
  intros X. destruct (wrap_near lm x a X) as (k & w & A & B & C).
  exists k, w. split; [exact A|]. split; [exact B|]. eapply Rle_trans; [exact C|]. unfold u32, Rdiv. lra.
Qed.

(** A heading in range is not moved by a turn. *)
Theorem C62_wrap_in_range lm x a : fin x a -> - pi32 <= a < pi32 ->
  exists w, fin (wrap_yaws (S := F32 lm) x) w /\ Rabs (w - a) <= 5 * pi32 / 16777216.
Proof.
  intros X B. destruct (wrap_in_range lm x a X B) as (w & A & C). exists w. split; [exact A|].
  eapply Rle_trans; [exact C|]. unfold u32, Rdiv. lra.
Qed.

(** Wrapping twice is wrapping once, exactly. *)
Theorem C62_wrap_idempotent lm x a : fin x a ->
  exists w, fin (wrap_yaws (S := F32 lm) x) w /\
    fin (wrap_yaws (S := F32 lm) (wrap_yaws (S := F32 lm) x)) w.
Proof. exact (wrap_idem lm x a). Qed.

(** Infinite and NaN headings give NaN. *)
Theorem C62_wrap_nonfinite lm x : is_finite x = false -> wrap_yaws (S := F32 lm) x = B754_nan.
Proof. exact (wrap_nan lm x). Qed.

(** A heading in range is changed all the same: 2^-30 becomes 0. *)
Theorem C62_wrap_identity_refuted lm :
  exists x a w, fin x a /\ - pi32 <= a < pi32 /\ fin (wrap_yaws (S := F32 lm) x) w /\ w <> a.
Proof.
  exists (f32_norm 1 (-30) false), (/ 1073741824), 0.
  assert (F1 : fin (f32_norm 1 (-30) false) (/ 1073741824)).
  { replace (/ 1073741824) with (1 * b32 (-30)) by (simpl; lra). apply norm_fin; [simpl; lia | lia |].
    rewrite Rabs_pos_eq by (simpl; lra). apply Rlt_trans with (b32 0); [simpl; lra | apply Flocq.Core.Raux.bpow_lt; lia]. }
  split; [exact F1|]. split; [unfold pi32; lra|]. split; [|lra].
  destruct (wrap_range lm _ _ F1) as (w & Fw & _).
  assert (Z : fin (B754_zero false) 0) by (split; reflexivity).
  pose proof (eqb_fin _ _ _ _ Fw Z) as E.
  assert (E' : Beqb (wrap_yaws (S := F32 lm) (f32_norm 1 (-30) false)) (B754_zero false) = true) by (vm_compute; reflexivity).
  rewrite E' in E. destruct (Flocq.Core.Raux.Req_bool_spec w 0) as [->|]; [exact Fw | discriminate].
Qed.

(* ---------------- the discretiser ---------------- *)

(** Every index decodes to a vector that encodes back to it, for up to 2^20 bins
    per dimension. *)
Theorem C62_discretizer_roundtrip lm (mins maxs : list f32) (bins : list Z) k :
  length maxs = length mins -> length bins = length mins ->
  (forall j lo hi b, nth_error mins j = Some lo -> nth_error maxs j = Some hi ->
     nth_error bins j = Some b -> disc_dim lo hi b) ->
  (0 <= k < num_actions bins)%Z ->
  exists d vs, make_discretizer (S := F32 lm) mins maxs bins = Ok d /\
    make_continuous d k = Ok vs /\ discretize d vs = Ok k.
Proof.
  intros L1 L2 D Hk. apply (trip_any (S := F32 lm)); [|exact Hk]. clear k Hk.
  revert maxs bins L1 L2 D. induction mins as [|lo mins IH]; intros [|hi maxs] [|b bins] L1 L2 D; try discriminate;
    constructor.
  - apply trip32. apply (D 0%nat); reflexivity.
  - apply IH; [simpl in *; lia | simpl in *; lia |]. intros j lo' hi' b' E1 E2 E3. apply (D (Datatypes.S j)); auto.
Qed.

(* ---------------- concrete cases ---------------- *)

(** One vehicle logged at x = 13120307/2^17 (about 100.1), 101.2 and 102.3 m, three
    steps, one warm-up step, the default limits of 6 m. *)
Section Ex.
  Variable lm : libm.
  Definition fpt (x : f32) : pt (S := F32 lm) :=
    mkpt (S := F32 lm) x (f32_ofZ 50) (f32_ofZ 0) (f32_ofZ 11) (f32_ofZ 0) (f32_ofZ 1) true 0%Z (f32_ofZ 4) (f32_ofZ 2) (f32_ofZ 1).
  Definition fscn (x0 x1 x2 : f32) : state (S := F32 lm) :=
    mkstate (S := F32 lm) [] [[fpt x0; fpt x1; fpt x2]] [] [mkmeta 1 1 true true true false false] 5 None None.
  Definition fcfg : envcfg := mkcfg 1 1 SDC false.
  Definition fq : delta_params (S := F32 lm) := delta_default (S := F32 lm).
  Definition frun (x0 x1 x2 : f32) (k : nat) : res (state (S := F32 lm)) :=
    run_policy (DeltaGlobal fq) fcfg (infer_expert_action (DeltaGlobal fq)) (fscn x0 x1 x2) k.

  Lemma fscn_wf x0 x1 x2 : wf_scenario 1 3 (fscn x0 x1 x2).
  Proof.
    split; [|repeat split; auto with arith].
    split; [reflexivity|]. intros r [<-|[]]. reflexivity.
  Qed.

  (** [m]/2^17 with [m] at most 2^24. *)
  Definition e17 (m : Z) : f32 := f32_norm m (-17) false.
  Lemma e17_fin m : (Z.abs m <= 2 ^ 24)%Z -> fin (e17 m) (IZR m / 131072).
  Proof.
    intros H. replace (IZR m / 131072) with (IZR m * b32 (-17)) by (simpl; lra).
    apply norm_fin; [exact H | lia |]. rewrite Rabs_mult, <- abs_IZR, (Rabs_pos_eq (b32 (-17))) by (simpl; lra).
    apply IZR_le in H. apply Rle_lt_trans with (b32 7).
    - change (b32 7) with 128. change (b32 (-17)) with (/ 131072). change (IZR (2 ^ 24)) with 16777216 in H. lra.
    - apply Flocq.Core.Raux.bpow_lt. lia.
  Qed.

  Lemma six_fin : fin (flit (Scalar := F32 lm) 6 1) 6.
  Proof.
    assert (F6 : fin (f32_ofZ 6) 6) by (apply (ofZ_fin 6); simpl; lia).
    assert (E : Beqb (flit (Scalar := F32 lm) 6 1) (f32_ofZ 6) = true) by (vm_compute; reflexivity).
    assert (Ff : is_finite (flit (Scalar := F32 lm) 6 1) = true) by (vm_compute; reflexivity).
    rewrite (eqb_fin _ _ _ _ (conj Ff eq_refl) F6) in E.
    destruct (Flocq.Core.Raux.Req_bool_spec (B2R (flit (Scalar := F32 lm) 6 1)) 6) as [E'|]; [|discriminate].
    split; [exact Ff | exact E'].
  Qed.

  Definition lxs (t : nat) : R :=
    match t with 0%nat => 13120307 / 131072 | 1%nat => 13264486 / 131072 | _ => 13408666 / 131072 end.

  (** All hypotheses of the exactness theorem hold, so the replay of this log is
      exact over its whole length. *)
  Example C62_ex_replay : exists s', frun (e17 13120307) (e17 13264486) (e17 13408666) 2 = Ok s' /\
    exists p, at2 (s_sim s') 0 2 = Some p /\ p_valid p = true /\
      fin (p_x p) (13408666 / 131072) /\ fin (p_y p) 50.
  Proof.
    destruct (C62_replay_never_fails (S := F32 lm) fq 1 3 fcfg
      (fscn (e17 13120307) (e17 13264486) (e17 13408666)) 2 (fscn_wf _ _ _) eq_refl
      ltac:(discriminate) ltac:(simpl; lia) ltac:(simpl; lia)) as [s' E].
    exists s'. split; [exact E|].
    assert (P : 131072 <= 2 ^ 100) by (rewrite pow100; change 131072 with (b32 17); apply Flocq.Core.Raux.bpow_le; lia).
    apply (C62_replay_is_exact_away_from_axes lm fq 1 3 fcfg _ 2 s' 0
      (fun t => match t with 0%nat => fpt (e17 13120307) | 1%nat => fpt (e17 13264486) | _ => fpt (e17 13408666) end)
      lxs (fun _ => 50) 6 6 (fscn_wf _ _ _) E); simpl c_init_steps; try lia; try lra.
    - intros [|[|[|t]]] Ht; try (split; reflexivity); lia.
    - intros t Ht. assert (C : forall m, (0 <= m <= 2 ^ 24)%Z -> Rabs (IZR m / 131072) <= 2 ^ 100).
      { intros m Hm. rewrite Rabs_pos_eq.
        - destruct Hm as [_ Hm]. apply IZR_le in Hm. change (IZR (2 ^ 24)) with 16777216 in Hm. lra.
        - destruct Hm as [Hm _]. apply IZR_le in Hm. lra. }
      assert (C' : Rabs 50 <= 2 ^ 100) by (rewrite Rabs_pos_eq; lra).
      destruct t as [|[|[|t]]]; try lia;
        (split; [apply e17_fin; simpl; lia|]; split; [apply (ofZ_fin 50); simpl; lia|]; split;
         [apply C; simpl; lia | exact C']).
    - exact six_fin.
    - exact six_fin.
    - intros t Ht. unfold away_from_origin.
      destruct t as [|[|[|t]]]; try lia; simpl lxs; rewrite !Rabs_pos_eq by lra; lra.
  Qed.

  (** Away from the axes the replay is exact, but not everywhere: a vehicle logged
      at x = 1 and then at x = 2^-25 is placed at x = 0 instead, although the move is
      within the limits. *)
  Theorem C62_replay_exact_refuted : exists x1 s' p, fin x1 (/ 2 ^ 25) /\
    frun (f32_ofZ 1) x1 x1 1 = Ok s' /\ at2 (s_sim s') 0 1 = Some p /\ p_valid p = true /\ fin (p_x p) 0.
  Proof.
    exists (f32_norm 1 (-25) false).
    destruct (C62_replay_never_fails (S := F32 lm) fq 1 3 fcfg
      (fscn (f32_ofZ 1) (f32_norm 1 (-25) false) (f32_norm 1 (-25) false)) 1 (fscn_wf _ _ _) eq_refl
      ltac:(discriminate) ltac:(simpl; lia) ltac:(simpl; lia)) as [s' E].
    assert (Q : match frun (f32_ofZ 1) (f32_norm 1 (-25) false) (f32_norm 1 (-25) false) 1 with
                | Ok s => match at2 (s_sim s) 0 1 with
                          | Some p => p_valid p && is_finite (p_x p) && Beqb (p_x p) (B754_zero false)
                          | None => false end
                | _ => false end = true) by (vm_compute; reflexivity).
    unfold frun in Q. rewrite E in Q. destruct (at2 (s_sim s') 0 1) as [p|] eqn:A; [|discriminate].
    apply andb_prop in Q. destruct Q as [Q Q3]. apply andb_prop in Q. destruct Q as [Q1 Q2].
    exists s', p. split.
    { rewrite <- (pow_b32 25). replace (/ b32 (Z.of_nat 25)) with (1 * b32 (-25)) by (simpl; lra).
      apply norm_fin; [simpl; lia | lia |].
      rewrite Rabs_pos_eq by (simpl; lra). apply Rlt_trans with (b32 0); [simpl; lra | apply Flocq.Core.Raux.bpow_lt; lia]. }
    split; [exact E|]. split; [exact A|]. split; [exact Q1|]. split; [exact Q2|].
    assert (Z : fin (B754_zero false) 0) by (split; reflexivity).
    rewrite (eqb_fin _ _ _ _ (conj Q2 eq_refl) Z) in Q3.
    destruct (Flocq.Core.Raux.Req_bool_spec (B2R (p_x p)) 0) as [E'|]; [exact E' | discriminate].
  Qed.

  (** The default DeltaGlobal position range with 101 bins meets the discretiser's
      hypothesis. *)
  Example C62_ex_disc : disc_dim (f32_ofZ (-6)) (f32_ofZ 6) 101.
  Proof.
    exists (-6), 6. split; [apply (ofZ_fin (-6)); simpl; lia|]. split; [apply (ofZ_fin 6); simpl; lia|].
    split; [lra|]. split; [rewrite Rabs_left; lra|].
    split; [|simpl; lia].
    assert (1 <= b32 60) by (change 1 with (b32 0); apply Flocq.Core.Raux.bpow_le; lia).
    assert (16 <= b32 60) by (change 16 with (b32 4); apply Flocq.Core.Raux.bpow_le; lia).
    rewrite <- (pow_b32 60). change (Z.of_nat 60) with 60%Z. split; [|lra].
    apply Rle_trans with (/ 1); [apply Rinv_le_contravar; lra | lra].
  Qed.
End Ex.

(** A heading of 7 rad loses one turn. *)
Example C62_ex_wrap lm : exists w, fin (wrap_yaws (S := F32 lm) (f32_ofZ 7)) w /\ 7 / 10 <= w <= 72 / 100.
Proof.
  assert (F7 : fin (f32_ofZ 7) 7) by (apply (ofZ_fin 7); simpl; lia).
  destruct (C62_wrap_range lm _ _ F7) as (k & w & Fw & R1 & R2). exists w. split; [exact Fw|].
  rewrite (Rabs_pos_eq 7) in R2 by lra. apply Flocq.Core.Raux.Rabs_le_inv in R2. unfold pi32 in *.
  assert (k = 1)%Z as ->; [|lra].
  assert (0 < IZR k < 2) as [K1 K2] by lra. apply lt_IZR in K1, K2. lia.
Qed.

Print Assumptions C62_replay_does_not_drift.
Print Assumptions C62_replay_is_exact_away_from_axes.
Print Assumptions C62_replay_heading.
Print Assumptions C62_replay_never_fails.
Print Assumptions C62_replay_exact_refuted.
Print Assumptions C62_wrap_range.
Print Assumptions C62_wrap_in_range.
Print Assumptions C62_wrap_idempotent.
Print Assumptions C62_wrap_nonfinite.
Print Assumptions C62_wrap_identity_refuted.
Print Assumptions C62_discretizer_roundtrip.
