(** C74: episodes in float32 stay finite, and motion of the bicycle model stays
    feasible.  [F32 lm] is IEEE binary32; of the maths library [lm] only the accuracy
    named in each statement is assumed. *)
From Coq Require Import List ZArith Reals Lra Lia Bool.
From Flocq Require Import IEEE754.BinarySingleNaN.
From Verif.Lib Require Import Base JaxIndex Scalar F32.
From Verif.Model Require Import Operations State Dynamics BaseEnv Geometry Dyn_State Dyn_Delta Dyn_Bicycle Comfort.
From Verif.Spec Require Import StateSpec DynSpec F32Spec F32EpisodeSpec.
From Verif.Proofs Require Import Core P_Actions P_F32 P_F32Wrap P_F32Bicycle P_F32Episode P_F32Kim P_Libm.
Import ListNotations.
Open Scope R_scope.

(* ---------------- finiteness ---------------- *)

(** Whatever the policy asks for, infinities included and NaN excluded, in an
    episode of any length every simulated frame of every object has a finite
    position, heading and velocity.  Coordinates grow by at most [C d + A d^2] and
    the speed by at most [A d] per step, up to rounding: [d] the time step, [A] the
    acceleration limit, [C] and [P] bounds of speed and coordinates over the whole
    episode. *)
Theorem C74_bicycle_episode_stays_finite lm (q : bicycle_params (S := F32 lm)) d A St n T c pol
  (s : state (S := F32 lm)) k s' i X V C P :
  trig32 lm ->
  fin (bc_dt q) d -> fin (bc_max_accel q) A -> fin (bc_max_steering q) St ->
  0 < d <= 1 -> 0 <= A <= 2 ^ 40 -> 0 <= St <= 2 ^ 40 ->
  wf_scenario n T s -> run_policy (InvertibleBicycleModel q) c pol s k = Ok s' ->
  (1 <= c_init_steps c)%nat -> (c_init_steps c + k <= T)%nat -> (i < n)%nat ->
  (forall s1 a, pol s1 = Ok a -> Forall not_nan2 a) ->
  (forall t l, at2 (s_log s) i t = Some l -> (t < c_init_steps c + k)%nat -> bounded32 X V l) ->
  1 <= C <= 2 ^ 40 -> 1 <= P <= 2 ^ 60 ->
  V + INR k * (A * d + C / 2 ^ 19) <= C ->
  X + INR k * (C * d + A * (d * d) + P / 2 ^ 20) <= P ->
  forall t, (t < c_init_steps c + k)%nat ->
    exists p, at2 (s_sim s') i t = Some p /\
      bounded32 (X + INR (t + 1 - c_init_steps c) * (C * d + A * (d * d) + P / 2 ^ 20))
                (V + INR (t + 1 - c_init_steps c) * (A * d + C / 2 ^ 19)) p.
Proof.
  intros TR Hd HA HS D1 A1 S1. exact (bicycle_episode32 lm TR q d A St Hd HA HS D1 A1 S1 n T c pol s k s' i X V C P).
Qed.

(** From one frame to the next the speed of a controlled object changes by at most
    the acceleration limit times the time step, up to rounding, and its heading is
    in [-pi32, pi32). *)
Theorem C74_bicycle_speed_limit lm (q : bicycle_params (S := F32 lm)) d A St n T c pol
  (s : state (S := F32 lm)) k s' i X V C P t :
  trig32 lm ->
  fin (bc_dt q) d -> fin (bc_max_accel q) A -> fin (bc_max_steering q) St ->
  0 < d <= 1 -> 0 <= A <= 2 ^ 40 -> 0 <= St <= 2 ^ 40 ->
  wf_scenario n T s -> run_policy (InvertibleBicycleModel q) c pol s k = Ok s' ->
  (1 <= c_init_steps c)%nat -> (c_init_steps c + k <= T)%nat -> (i < n)%nat -> in_control c s i ->
  (forall s1 a, pol s1 = Ok a -> Forall not_nan2 a) ->
  (forall t l, at2 (s_log s) i t = Some l -> (t < c_init_steps c + k)%nat -> bounded32 X V l) ->
  1 <= C <= 2 ^ 40 -> 1 <= P <= 2 ^ 60 ->
  V + INR k * (A * d + C / 2 ^ 19) <= C ->
  X + INR k * (C * d + A * (d * d) + P / 2 ^ 20) <= P ->
  (c_init_steps c <= t < c_init_steps c + k)%nat ->
  exists p p' v v' w, at2 (s_sim s') i (t - 1) = Some p /\ at2 (s_sim s') i t = Some p' /\
    speed32 p v /\ speed32 p' v' /\ Rabs (v' - v) <= A * d + C / 2 ^ 19 /\
    fin (p_yaw p') w /\ - pi32 <= w < pi32.
Proof.
  intros TR Hd HA HS D1 A1 S1. exact (bicycle_frames32 lm TR q d A St Hd HA HS D1 A1 S1 n T c pol s k s' i X V C P t).
Qed.

(** With DeltaGlobal and displacements of at most [M] in each component, every frame
    is finite; coordinates and heading grow by at most [M] per step, up to rounding. *)
Theorem C74_delta_episode_stays_finite lm (q : delta_params (S := F32 lm)) d n T c pol
  (s : state (S := F32 lm)) k s' i X V M P :
  fin (dl_dt q) d -> 0 < d ->
  wf_scenario n T s -> run_policy (DeltaGlobal q) c pol s k = Ok s' ->
  (1 <= c_init_steps c)%nat -> (c_init_steps c + k <= T)%nat -> (i < n)%nat ->
  (forall s1 a, pol s1 = Ok a -> Forall (delta32 M) a) ->
  (forall t l, at2 (s_log s) i t = Some l -> (t < c_init_steps c + k)%nat -> within32 X V l) ->
  1 <= P <= 2 ^ 60 -> 0 <= M -> 1 <= V <= 2 ^ 60 -> 4 * M <= V * d ->
  X + INR k * (M + P / 2 ^ 20) <= P ->
  forall t, (t < c_init_steps c + k)%nat ->
    exists p, at2 (s_sim s') i t = Some p /\ within32 (X + INR (t + 1 - c_init_steps c) * (M + P / 2 ^ 20)) V p.
Proof. intros Hd D1. exact (delta_episode32 lm q d Hd D1 n T c pol s k s' i X V M P). Qed.

(* ---------------- feasibility ---------------- *)

(** After one environment step with a bicycle model within the default limits and
    any action without NaN, the default kinematic infeasibility metric, computed in
    float32, is 0 for every controlled object: rounding does not push the inferred
    action over the metric's tolerance. *)
Theorem C74_bicycle_motion_is_feasible lm (q : bicycle_params (S := F32 lm)) A St n T c s acts s' mask (t : nat) i
  (a : act (S := F32 lm)) p y0 v rs :
  accurate32 lm ->
  bc_dt q = km_dt kim_default -> fin (bc_max_accel q) A -> fin (bc_max_steering q) St ->
  0 <= A <= 6 -> 0 <= St <= 3001 / 10000 ->
  wf_state n T s -> env_step (InvertibleBicycleModel q) c s acts = Ok s' ->
  env_control_mask s c = Ok mask -> s_t s = Z.of_nat t -> (t + 1 < T)%nat ->
  nth_error mask i = Some true -> nth_error acts i = Some a -> not_nan2 a ->
  at2 (s_sim s) i t = Some p -> fin (p_yaw p) y0 -> Rabs y0 <= 4 -> speed32 p v -> v <= 1000 ->
  kim_compute kim_default s' = Ok rs ->
  exists r, nth_error rs i = Some r /\ fin (mr_value r) 0 /\ (p_valid p = true -> mr_valid r = true).
Proof. intros AC. exact (kim_step32 lm AC q A St n T c s acts s' mask t i a p y0 v rs). Qed.

(** The same after each of the [k] steps of an episode: an agent driven through the
    bicycle model is never reported as infeasible. *)
Theorem C74_episode_is_feasible lm (q : bicycle_params (S := F32 lm)) A St n T c pol (s : state (S := F32 lm)) k s' j i X V :
  accurate32 lm -> trig32 lm ->
  bc_dt q = km_dt kim_default -> fin (bc_max_accel q) A -> fin (bc_max_steering q) St ->
  0 <= A <= 6 -> 0 <= St <= 3001 / 10000 ->
  wf_scenario n T s -> run_policy (InvertibleBicycleModel q) c pol s k = Ok s' ->
  (1 <= c_init_steps c)%nat -> (c_init_steps c + k <= T)%nat -> in_control c s i -> (i < n)%nat ->
  (forall s1 a, pol s1 = Ok a -> Forall not_nan2 a) ->
  (forall t l, at2 (s_log s) i t = Some l -> (t < c_init_steps c + k)%nat ->
     bounded32 X V l /\ exists y, fin (p_yaw l) y /\ Rabs y <= 4) ->
  X <= 2 ^ 59 -> V + INR k <= 1000 -> (1 <= j <= k)%nat ->
  exists sj rs r, run_policy (InvertibleBicycleModel q) c pol s j = Ok sj /\
    kim_compute kim_default sj = Ok rs /\ nth_error rs i = Some r /\ fin (mr_value r) 0 /\
    (forall p, at2 (s_sim sj) i (c_init_steps c + j - 2) = Some p -> p_valid p = true -> mr_valid r = true).
Proof. intros AC TR. exact (kim_episode32 lm AC TR q A St n T c pol s k s' j i X V). Qed.

(* ---------------- concrete cases ---------------- *)

(** Correctly rounded sine, cosine and atan2 have the accuracy assumed. *)
Example C74_ex_library : trig32 ideal_libm /\ accurate32 ideal_libm.
Proof. exact (conj ideal_trig ideal_accurate). Qed.

Section Ex.
  Variable lm : libm.

  (** One vehicle logged at x = 100, 101, 102 with speed 11; the policy asks for an
      infinite acceleration and a steering of 1. *)
  Definition gpt (x : Z) : pt (S := F32 lm) :=
    mkpt (S := F32 lm) (f32_ofZ x) (f32_ofZ 50) (f32_ofZ 0) (f32_ofZ 11) (f32_ofZ 0) (f32_ofZ 0) true 0%Z (f32_ofZ 4) (f32_ofZ 2) (f32_ofZ 1).
  Definition gscn : state (S := F32 lm) :=
    mkstate (S := F32 lm) [] [[gpt 100; gpt 101; gpt 102]] [] [mkmeta 1 1 true true true false false] 5 None None.
  Definition gcfg : envcfg := mkcfg 1 1 SDC false.
  Definition gpol (data : list f32) (_ : state (S := F32 lm)) : res (list (act (S := F32 lm))) :=
    Ok [mkact (S := F32 lm) data true].
  Definition hard : list f32 := [B754_infinity false; f32_ofZ 1].

  Lemma gscn_wf : wf_scenario 1 3 gscn.
  Proof.
    split; [|repeat split; auto with arith].
    split; [reflexivity|]. intros r [<-|[]]. reflexivity.
  Qed.

  Lemma gpt_fin x : (Z.abs x <= 2 ^ 24)%Z -> Rabs (IZR x) <= 102 ->
    bounded32 102 11 (gpt x) /\ within32 102 11 (gpt x) /\ exists y, fin (p_yaw (gpt x)) y /\ Rabs y <= 4.
  Proof.
    intros Hx Bx.
    assert (F50 : fin (f32_ofZ 50) 50) by (apply (ofZ_fin 50); simpl; lia).
    assert (F00 : fin (f32_ofZ 0) 0) by (apply (ofZ_fin 0); simpl; lia).
    assert (F11 : fin (f32_ofZ 11) 11) by (apply (ofZ_fin 11); simpl; lia).
    assert (Sq : sqrt (11 * 11 + 0 * 0) <= 11).
    { replace (11 * 11 + 0 * 0) with (11 * 11) by ring. rewrite sqrt_square; lra. }
    assert (A50 : Rabs 50 <= 102) by (rewrite Rabs_pos_eq; lra).
    assert (A0 : Rabs 0 <= 102) by (rewrite Rabs_R0; lra).
    split; [|split].
    - exists (IZR x), 50, 0, 11, 0. split; [now apply ofZ_fin|].
      split; [exact F50|]. split; [exact F00|]. split; [exact F11|]. split; [exact F00|]. split; [exact Bx|]. split; [exact A50|].
      split; [|exact Sq]. rewrite Rabs_R0. apply pow_le. lra.
    - exists (IZR x), 50, 0, 11, 0. split; [now apply ofZ_fin|].
      split; [exact F50|]. split; [exact F00|]. split; [exact F11|]. split; [exact F00|]. split; [exact Bx|]. split; [exact A50|].
      split; [exact A0 | exact Sq].
    - exists 0. split; [exact F00 | rewrite Rabs_R0; lra].
  Qed.

  Lemma gscn_log t l : at2 (s_log gscn) 0 t = Some l -> exists x, l = gpt x /\ (100 <= x <= 102)%Z.
  Proof.
    unfold at2. simpl. destruct t as [|[|[|t]]]; simpl; intros H.
    - exists 100%Z. split; [congruence | lia].
    - exists 101%Z. split; [congruence | lia].
    - exists 102%Z. split; [congruence | lia].
    - destruct t; discriminate.
  Qed.

  Lemma gscn_bounded t l : at2 (s_log gscn) 0 t = Some l ->
    bounded32 102 11 l /\ within32 102 11 l /\ exists y, fin (p_yaw l) y /\ Rabs y <= 4.
  Proof.
    intros H. destruct (gscn_log _ _ H) as (x & -> & Hx). apply gpt_fin; [simpl; lia|].
    rewrite <- abs_IZR. apply IZR_le. lia.
  Qed.

  Lemma six32 : fin (bc_max_accel (bicycle_default (S := F32 lm))) 6.
  Proof.
    assert (F6 : fin (f32_ofZ 6) 6) by (apply (ofZ_fin 6); simpl; lia).
    assert (E : Beqb (flit (Scalar := F32 lm) 6 1) (f32_ofZ 6) = true) by (vm_compute; reflexivity).
    assert (Ff : is_finite (flit (Scalar := F32 lm) 6 1) = true) by (vm_compute; reflexivity).
    rewrite (eqb_fin _ _ _ _ (conj Ff eq_refl) F6) in E.
    destruct (Flocq.Core.Raux.Req_bool_spec (B2R (flit (Scalar := F32 lm) 6 1)) 6) as [E'|]; [|discriminate].
    split; [exact Ff | exact E'].
  Qed.

  Lemma steer32 : exists St, fin (bc_max_steering (bicycle_default (S := F32 lm))) St /\ 0 <= St <= 3001 / 10000.
  Proof.
    destruct (lit_near lm 3 10 1 ltac:(simpl; lia) ltac:(simpl; lia) ltac:(rewrite Rabs_pos_eq; simpl; lra)) as (r & Fr & Er).
    exists r. split; [exact Fr|]. pose proof tiny_small as TS. apply Flocq.Core.Raux.Rabs_le_inv in Er.
    unfold u32 in Er. simpl in TS, Er. lra.
  Qed.

  Lemma hard_ok s1 a : gpol hard s1 = Ok a -> Forall not_nan2 a.
  Proof.
    intros H. injection H as <-. constructor; [|constructor].
    exists (B754_infinity false), (f32_ofZ 1), []. repeat split.
  Qed.

  Lemma hard_runs k : (k <= 2)%nat -> exists s', run_policy (InvertibleBicycleModel bicycle_default) gcfg (gpol hard) gscn k = Ok s'.
  Proof.
    intros Hk. apply (policy_runs 1 3 _ gcfg _ _ k (fun a => (2 <= length (a_data a))%nat) gscn_wf); [reflexivity | discriminate | apply bicycle_total | | simpl; lia | simpl; lia].
    intros s1. eexists. split; [reflexivity|]. split; [reflexivity|]. repeat constructor.
  Qed.

  Lemma gctrl : in_control gcfg gscn 0.
  Proof. simpl. eexists. split; reflexivity. Qed.
End Ex.

(** The hypotheses of the finiteness theorem hold for two steps of it, with speeds
    below 16 and coordinates below 128. *)
Example C74_ex_finite : exists s' p,
  run_policy (InvertibleBicycleModel bicycle_default) gcfg (gpol ideal_libm hard) (gscn ideal_libm) 2 = Ok s' /\
  at2 (s_sim s') 0 2 = Some p /\ bounded32 128 16 p.
Proof.
  destruct (hard_runs ideal_libm 2 ltac:(lia)) as [s' E].
  destruct (steer32 ideal_libm) as (St & FS & BS).
  destruct (tenth_fin ideal_libm) as (d & Fd & Dd). apply Flocq.Core.Raux.Rabs_le_inv in Dd.
  assert (DD : d * d <= 1) by nra.
  assert (I2 : INR 2 = 2) by (simpl; lra).
  assert (C19 : 16 / 2 ^ 19 <= 1 / 100) by (simpl; lra). assert (C20 : 128 / 2 ^ 20 <= 1 / 100) by (simpl; lra).
  destruct (C74_bicycle_episode_stays_finite ideal_libm bicycle_default d 6 St 1 3 gcfg _ _ 2 s' 0 102 11 16 128
    ideal_trig Fd (six32 _) FS ltac:(lra) ltac:(simpl; lra) ltac:(simpl; lra) (gscn_wf _) E ltac:(simpl; lia) ltac:(simpl; lia)
    ltac:(lia) (hard_ok _) (fun t l H _ => proj1 (gscn_bounded _ t l H)) ltac:(simpl; lra) ltac:(simpl; lra)
    ltac:(rewrite I2; lra) ltac:(rewrite I2; lra) 2%nat ltac:(simpl; lia)) as (p & Ep & B).
  exists s', p. split; [exact E|]. split; [exact Ep|].
  change (2 + 1 - c_init_steps gcfg)%nat with 2%nat in B. rewrite I2 in B.
  eapply bounded32_mono; [| |exact B]; lra.
Qed.

(** So do those of the feasibility theorem. *)
Example C74_ex_feasible : exists sj rs r,
  run_policy (InvertibleBicycleModel bicycle_default) gcfg (gpol ideal_libm hard) (gscn ideal_libm) 2 = Ok sj /\
  kim_compute kim_default sj = Ok rs /\ nth_error rs 0 = Some r /\ fin (mr_value r) 0.
Proof.
  destruct (hard_runs ideal_libm 2 ltac:(lia)) as [s' E].
  destruct (steer32 ideal_libm) as (St & FS & BS).
  destruct (C74_episode_is_feasible ideal_libm bicycle_default 6 St 1 3 gcfg _ _ 2 s' 2 0 102 11
    ideal_accurate ideal_trig eq_refl (six32 _) FS ltac:(lra) BS (gscn_wf _) E ltac:(simpl; lia) ltac:(simpl; lia) (gctrl _) ltac:(lia)
    (hard_ok _)) as (sj & rs & r & H1 & H2 & H3 & H4 & _).
  - intros t l H _. destruct (gscn_bounded _ t l H) as (B1 & _ & B2). auto.
  - simpl. lra.
  - simpl. lra.
  - lia.
  - exists sj, rs, r. auto.
Qed.

(** NaN must be excluded: the bicycle model does not stop it.  A NaN acceleration
    puts the vehicle at a NaN position. *)
Theorem C74_nan_action_refuted lm : exists s' p,
  run_policy (InvertibleBicycleModel bicycle_default) gcfg (gpol lm [B754_nan; f32_ofZ 0]) (gscn lm) 1 = Ok s' /\
  at2 (s_sim s') 0 1 = Some p /\ p_valid p = true /\ is_nan (p_x p) = true.
Proof.
  assert (Q : match run_policy (InvertibleBicycleModel bicycle_default) gcfg (gpol lm [B754_nan; f32_ofZ 0]) (gscn lm) 1 with
              | Ok s => match at2 (s_sim s) 0 1 with Some p => p_valid p && is_nan (p_x p) | None => false end
              | _ => false end = true) by (vm_compute; reflexivity).
  destruct (run_policy _ _ _ _ _) as [s'|] eqn:E; [|discriminate].
  destruct (at2 (s_sim s') 0 1) as [p|] eqn:A; [|discriminate].
  apply andb_prop in Q. exists s', p. tauto.
Qed.

(** Displacements must be bounded: unlike the bicycle model, DeltaGlobal applies
    what it is given.  An infinite displacement puts the vehicle at infinity. *)
Theorem C74_delta_is_not_clipped_refuted lm : exists s' p,
  run_policy (DeltaGlobal delta_default) gcfg (gpol lm [B754_infinity false; f32_ofZ 0; f32_ofZ 0]) (gscn lm) 1 = Ok s' /\
  at2 (s_sim s') 0 1 = Some p /\ p_valid p = true /\ p_x p = B754_infinity false.
Proof.
  assert (Q : match run_policy (DeltaGlobal delta_default) gcfg (gpol lm [B754_infinity false; f32_ofZ 0; f32_ofZ 0]) (gscn lm) 1 with
              | Ok s => match at2 (s_sim s) 0 1 with
                        | Some p => p_valid p && match p_x p with B754_infinity false => true | _ => false end
                        | None => false end
              | _ => false end = true) by (vm_compute; reflexivity).
  destruct (run_policy _ _ _ _ _) as [s'|] eqn:E; [|discriminate].
  destruct (at2 (s_sim s') 0 1) as [p|] eqn:A; [|discriminate].
  apply andb_prop in Q. destruct Q as [Q1 Q2]. exists s', p. split; [reflexivity|]. split; [exact A|]. split; [exact Q1|].
  destruct (p_x p) as [|[|]| |]; try discriminate. reflexivity.
Qed.

Print Assumptions C74_bicycle_episode_stays_finite.
Print Assumptions C74_bicycle_speed_limit.
Print Assumptions C74_delta_episode_stays_finite.
Print Assumptions C74_bicycle_motion_is_feasible.
Print Assumptions C74_episode_is_feasible.
Print Assumptions C74_nan_action_refuted.
Print Assumptions C74_delta_is_not_clipped_refuted.
