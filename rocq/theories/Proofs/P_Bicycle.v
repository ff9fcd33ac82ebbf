(** Proofs for C16, C17, C18 and the bicycle part of C15. *)
From Coq Require Import Reals ZArith List Lia Lra Bool.
From Verif.Lib Require Import Base JaxIndex Scalar XR.
From Verif.Model Require Import Operations State Dynamics BaseEnv Geometry Dyn_State Dyn_Delta Dyn_Bicycle Comfort.
From Verif.Spec Require Import StateSpec GeomSpec DynSpec.
From Verif.Proofs Require Import Core P_Step P_Angles P_Pose P_Delta.
Import ListNotations.
Open Scope R_scope.

Definition bparams (dt ma ms : R) (nrm : bool) : bicycle_params := mkbp (Fin dt) (Fin ma) (Fin ms) nrm.

Lemma clip_form (x : xr) m : x <> NaN -> 0 <= m ->
  exists c, fclip x (fopp (Fin m)) (Fin m) = Fin c /\ Rabs c <= m /\
    (forall r, x = Fin r -> c = clamp (- m) m r).
Proof.
  intros Hx Hm. destruct x as [r| | |].
  - exists (clamp (- m) m r). rewrite fopp_Fin, fclip_Fin, clamp_clip by auto.
    split; [reflexivity|]. split; [now apply clamp_abs|]. intros r' E. injection E as <-. reflexivity.
  - exists m. split; [|split; [rewrite Rabs_pos_eq; lra|discriminate]].
    reflexivity.
  - exists (- m). split; [|split; [rewrite Rabs_Ropp, Rabs_pos_eq; lra|discriminate]].
    unfold fclip; cbn. f_equal. apply Rmin_left. lra.
  - congruence.
Qed.

Lemma vel_norm_Fin vx vy : vel_norm (S := XR) (Fin vx) (Fin vy) = Fin (sqrt (vx * vx + vy * vy)).
Proof.
  unfold vel_norm, fsq. xr. rewrite fsqrt_Fin; [reflexivity|]. nra.
Qed.

Lemma speed_nonneg k : 0 <= speed k.
Proof. apply sqrt_pos. Qed.

Lemma fsq_Fin a : fsq (S := XR) (Fin a) = Fin (a * a).
Proof. reflexivity. Qed.

Lemma fwhere_Fin (b : bool) x y :
  where_ (A := F (Scalar := XR)) b (Fin x) (Fin y) = Fin (if b then x else y).
Proof. now destruct b. Qed.

(** One bicycle step of a finite state with effective controls [acc], [st]. *)
Definition bstep (dt acc st : R) (k0 k1 : kin) : Prop :=
  kx k1 = kx k0 + kvx k0 * dt + 1 / 2 * acc * cos (kyaw k0) * (dt * dt) /\
  ky k1 = ky k0 + kvy k0 * dt + 1 / 2 * acc * sin (kyaw k0) * (dt * dt) /\
  kyaw k1 = Rwrap (kyaw k0 + st * (speed k0 * dt + 1 / 2 * acc * (dt * dt))) /\
  kvx k1 = (speed k0 + acc * dt) * cos (kyaw k1) /\
  kvy k1 = (speed k0 + acc * dt) * sin (kyaw k1).

Lemma bicycle_form dt ma ms (nrm : bool) (a : act (S := XR)) p k0 (xa xs : xr) (rest : list xr) :
  0 <= ma -> 0 <= ms -> has_kin p k0 -> a_data a = xa :: xs :: rest -> xa <> NaN -> xs <> NaN ->
  exists acc st u k, Rabs acc <= ma /\ Rabs st <= ms /\
    (forall r, xa = Fin r -> acc = if nrm then clamp (- 1) 1 r * ma else clamp (- ma) ma r) /\
    (forall r, xs = Fin r -> st = if nrm then clamp (- 1) 1 r * ms else clamp (- ms) ms r) /\
    bicycle_update (bparams dt ma ms nrm) a p = Ok u /\ upd_kin u k /\
    u_valid u = p_valid p && a_valid a /\ bstep dt acc st k0 k.
Proof.
  intros Hma Hms (K1 & K2 & K3 & K4 & K5) Ea Na Ns.
  assert (exists acc st, Rabs acc <= ma /\ Rabs st <= ms /\
    (forall r, xa = Fin r -> acc = if nrm then clamp (- 1) 1 r * ma else clamp (- ma) ma r) /\
    (forall r, xs = Fin r -> st = if nrm then clamp (- 1) 1 r * ms else clamp (- ms) ms r) /\
    let '(a0, s0) := bicycle_clip (bparams dt ma ms nrm) xa xs in
    (if nrm then fmul a0 (Fin ma) else a0) = Fin acc /\ (if nrm then fmul s0 (Fin ms) else s0) = Fin st)
    as (acc & st & B1 & B2 & C1 & C2 & E).
  { unfold bicycle_clip, bicycle_bound_accel, bicycle_bound_steering, bparams;
      cbn [bc_normalize bc_max_accel bc_max_steering].
    destruct nrm.
    - rewrite f1_Fin. destruct (clip_form xa 1 Na ltac:(lra)) as (ca & Ea' & Ba & Fa).
      destruct (clip_form xs 1 Ns ltac:(lra)) as (cs & Es' & Bs & Fs).
      exists (ca * ma), (cs * ms).
      split. { rewrite Rabs_mult, (Rabs_pos_eq ma) by auto. nra. }
      split. { rewrite Rabs_mult, (Rabs_pos_eq ms) by auto. nra. }
      split. { intros r Er. rewrite (Fa r Er). reflexivity. }
      split. { intros r Er. rewrite (Fs r Er). reflexivity. }
      rewrite Ea', Es'. split; reflexivity.
    - destruct (clip_form xa ma Na Hma) as (ca & Ea' & Ba & Fa).
      destruct (clip_form xs ms Ns Hms) as (cs & Es' & Bs & Fs).
      exists ca, cs. rewrite Ea', Es'. auto 10. }
  exists acc, st. eexists.
  set (yw := Rwrap (kyaw k0 + st * (speed k0 * dt + 1 / 2 * acc * (dt * dt)))).
  set (v := speed k0 + acc * dt).
  exists (mkkin (kx k0 + kvx k0 * dt + 1 / 2 * acc * cos (kyaw k0) * (dt * dt))
            (ky k0 + kvy k0 * dt + 1 / 2 * acc * sin (kyaw k0) * (dt * dt)) yw
            (v * cos yw) (v * sin yw)).
  repeat (split; [assumption|]).
  unfold bicycle_update. rewrite Ea.
  destruct (bicycle_clip (bparams dt ma ms nrm) xa xs) as [a0 s0]. destruct E as [E1 E2].
  cbn [bparams bc_normalize bc_max_accel bc_max_steering bc_dt].
  cbv zeta.
  change (if nrm then (a0 * Fin ma)%F else a0) with (if nrm then fmul (Scalar := XR) a0 (Fin ma) else a0).
  rewrite E1, E2, K1, K2, K3, K4, K5, vel_norm_Fin, !fsq_Fin. fold (speed k0). xr.
  rewrite !wrap_Fin. fold yw. xr. fold v.
  split; [reflexivity|]. split; [repeat split|]. split; [reflexivity|].
  unfold bstep; cbn [kx ky kyaw kvx kvy]. auto 10.
Qed.

Lemma bstep_speed dt acc st k0 k1 : bstep dt acc st k0 k1 -> speed k1 = Rabs (speed k0 + acc * dt).
Proof.
  intros (_ & _ & _ & E1 & E2). unfold speed at 1. rewrite E1, E2.
  set (v := speed k0 + acc * dt). rewrite <- sqrt_Rsqr_abs. f_equal. unfold Rsqr.
  pose proof (cs1 (kyaw k1)). transitivity (v * v * (cos (kyaw k1) * cos (kyaw k1) + sin (kyaw k1) * sin (kyaw k1))); [ring|].
  rewrite H. ring.
Qed.

(* ---------------- C16 ---------------- *)

Lemma bstep_speed_limit dt acc st ma k0 k1 : 0 <= dt -> Rabs acc <= ma -> bstep dt acc st k0 k1 ->
  Rabs (speed k1 - speed k0) <= ma * dt.
Proof.
  intros Hd Ha B. rewrite (bstep_speed _ _ _ _ _ B).
  pose proof (speed_nonneg k0) as S0.
  assert (H : Rabs (Rabs (speed k0 + acc * dt) - Rabs (speed k0)) <= Rabs (acc * dt)).
  { pose proof (Rabs_triang_inv2 (speed k0 + acc * dt) (speed k0)) as T.
    replace (speed k0 + acc * dt - speed k0) with (acc * dt) in T by ring. exact T. }
  rewrite (Rabs_pos_eq (speed k0)) in H by auto.
  rewrite Rabs_mult, (Rabs_pos_eq dt) in H by auto.
  eapply Rle_trans; [exact H|]. apply Rmult_le_compat_r; auto.
Qed.

Definition dist (k0 k1 : kin) : R :=
  sqrt ((kx k1 - kx k0) * (kx k1 - kx k0) + (ky k1 - ky k0) * (ky k1 - ky k0)).

Lemma bstep_dist dt acc st k0 k1 : bstep dt acc st k0 k1 ->
  kvx k0 = speed k0 * cos (kyaw k0) -> kvy k0 = speed k0 * sin (kyaw k0) ->
  dist k0 k1 = Rabs (speed k0 * dt + 1 / 2 * acc * (dt * dt)).
Proof.
  intros (E1 & E2 & _) A1 A2. unfold dist. rewrite <- sqrt_Rsqr_abs. f_equal. unfold Rsqr.
  rewrite E1, E2, A1, A2. pose proof (cs1 (kyaw k0)) as H.
  set (c := cos (kyaw k0)) in *. set (s := sin (kyaw k0)) in *.
  set (d := speed k0 * dt + 1 / 2 * acc * (dt * dt)).
  transitivity (d * d * (c * c + s * s)); [unfold d; ring|]. rewrite H. ring.
Qed.

(* ---------------- inverse ---------------- *)

Lemma inverse1_low dt p0 p1 k0 k1 : dt <> 0 -> has_kin p0 k0 -> has_kin p1 k1 ->
  speed k0 < 6 / 10 \/ speed k1 < 6 / 10 -> p_valid p0 = true -> p_valid p1 = true ->
  bicycle_inverse1 (S := XR) (Fin dt) true p0 p1 = (Fin ((speed k1 - speed k0) / dt), Fin 0, true).
Proof.
  intros Hd (A1 & A2 & A3 & A4 & A5) (B1 & B2 & B3 & B4 & B5) L V0 V1.
  unfold bicycle_inverse1, speed_limit. rewrite A4, A5, B4, B5, V0, V1, !vel_norm_Fin, flit_Fin.
  fold (speed k0) (speed k1). xr. rewrite fdiv_Fin by auto.
  rewrite !Rabs_pos_eq by apply speed_nonneg. cbn [andb where_].
  replace (where_ (Rltb (speed k1) (6 / 10)) _ _) with (Fin 0); [reflexivity|].
  destruct (Rltb (speed k1) (6 / 10)) eqn:E1; [reflexivity|].
  destruct (Rltb (speed k0) (6 / 10)) eqn:E0; [reflexivity|].
  apply Rltb_false in E0, E1. lra.
Qed.

Lemma inverse1_high dt p0 p1 k0 k1 : 0 < dt -> has_kin p0 k0 -> has_kin p1 k1 ->
  6 / 10 <= speed k0 -> 6 / 10 <= speed k1 -> p_valid p0 = true -> p_valid p1 = true ->
  bicycle_inverse1 (S := XR) (Fin dt) true p0 p1
  = (Fin ((speed k1 - speed k0) / dt),
     Fin (Rwrap ((if Rleb (speed k1) (6 / 10) then Rwrap (kyaw k1) else Ratan2 (kvy k1) (kvx k1))
                 - Rwrap (kyaw k0))
          / (speed k0 * dt + 1 / 2 * ((speed k1 - speed k0) / dt) * (dt * dt))), true).
Proof.
  intros Hd (A1 & A2 & A3 & A4 & A5) (B1 & B2 & B3 & B4 & B5) L0 L1 V0 V1.
  unfold bicycle_inverse1, speed_limit.
  rewrite A3, A4, A5, B3, B4, B5, V0, V1, !vel_norm_Fin, flit_Fin, fsq_Fin.
  fold (speed k0) (speed k1). xr. rewrite fdiv_Fin by lra.
  rewrite !Rabs_pos_eq by apply speed_nonneg. rewrite !wrap_Fin. cbn [andb where_].
  rewrite (proj2 (Rltb_false (speed k1) (6 / 10))) by auto.
  rewrite (proj2 (Rltb_false (speed k0) (6 / 10))) by auto. cbn [where_].
  rewrite fwhere_Fin.
  xr. rewrite wrap_Fin, fdiv_Fin; [reflexivity|].
  replace (speed k0 * dt + 1 / 2 * ((speed k1 - speed k0) / dt) * (dt * dt))
    with (dt * (speed k0 + speed k1) / 2) by (field; lra).
  assert (0 < dt * (speed k0 + speed k1)) by nra. lra.
Qed.

Lemma inverse1_invalid (dt : F (Scalar := XR)) p0 p1 e : p_valid p0 && p_valid p1 = false ->
  bicycle_inverse1 (S := XR) dt e p0 p1 = (Fin 0, Fin 0, false).
Proof. intros V. unfold bicycle_inverse1. rewrite V. cbn [where_]. rewrite f0_Fin. reflexivity. Qed.

Lemma bstep_new_yaw dt acc st k0 k1 : bstep dt acc st k0 k1 -> 0 < speed k0 + acc * dt ->
  same_angle (if Rleb (speed k1) (6 / 10) then Rwrap (kyaw k1) else Ratan2 (kvy k1) (kvx k1))
             (kyaw k0 + st * (speed k0 * dt + 1 / 2 * acc * (dt * dt))).
Proof.
  intros (_ & _ & EY & E1 & E2) Hv.
  assert (N : normalised (kyaw k1)) by (rewrite EY; apply Rwrap_range).
  assert (C : same_angle (kyaw k1) (kyaw k0 + st * (speed k0 * dt + 1 / 2 * acc * (dt * dt)))).
  { rewrite EY. apply Rwrap_cong. }
  destruct (Rleb _ _).
  - rewrite Rwrap_id by auto. exact C.
  - rewrite E1, E2. destruct N as [N1 N2]. destruct N1 as [N1|N1].
    + rewrite Ratan2_of_polar; auto. split; lra.
    + rewrite <- N1 in C |- *. apply same_angle_trans with (b := - PI); [|exact C].
      replace (cos (- PI)) with (cos PI) by (rewrite cos_neg; reflexivity).
      replace (sin (- PI)) with (sin PI) by (rewrite sin_neg, sin_PI; ring).
      rewrite Ratan2_of_polar by (auto; pose proof PI_RGT_0; lra).
      exists 1%Z. simpl. ring.
Qed.

Lemma same_angle_wrap_diff x a y : same_angle x (a + y) -> Rwrap (x - Rwrap a) = Rwrap y.
Proof.
  intros [z E]. apply Rwrap_same. destruct (Rwrap_cong a) as [w Ew]. exists (z - w)%Z.
  rewrite E, Ew, minus_IZR. ring.
Qed.

(** The values the inverse reads off a bicycle step. *)
Lemma bstep_inverse_high dt acc st p0 p1 k0 k1 : 0 < dt -> has_kin p0 k0 -> has_kin p1 k1 ->
  bstep dt acc st k0 k1 -> 6 / 10 <= speed k0 -> 6 / 10 <= speed k0 + acc * dt ->
  p_valid p0 = true -> p_valid p1 = true ->
  let d := speed k0 * dt + 1 / 2 * acc * (dt * dt) in
  0 < d /\ bicycle_inverse1 (S := XR) (Fin dt) true p0 p1 = (Fin acc, Fin (Rwrap (st * d) / d), true).
Proof.
  intros Hd A B BS L0 L1 V0 V1 d.
  pose proof (bstep_speed _ _ _ _ _ BS) as ES. rewrite Rabs_pos_eq in ES by lra.
  assert (EA : (speed k1 - speed k0) / dt = acc) by (rewrite ES; field; lra).
  assert (Hd' : 0 < d).
  { unfold d. assert (0 < dt * (speed k0 + (speed k0 + acc * dt))) by nra. lra. }
  split; auto.
  rewrite (inverse1_high dt p0 p1 k0 k1) by (auto; lra). rewrite EA. fold d.
  rewrite (same_angle_wrap_diff _ (kyaw k0) (st * d)); [reflexivity|].
  apply bstep_new_yaw; auto. lra.
Qed.

(* ---------------- C18 ---------------- *)

Definition kparams (dt ka ks : R) : kim_params := mkkim (Fin dt) (Fin ka) (Fin ks).

Lemma kim1_zero dt ka ks a s v :
  Rabs a <= ka + 1 / 1000 -> Rabs s <= ks + 1 / 1000 ->
  kim1 (S := XR) (kparams dt ka ks) (mkact (S := XR) [Fin a; Fin s] v) = mkmres (Fin 0) v.
Proof.
  intros Ha Hs. unfold kim1, kparams, kim_epsilon; cbn [a_data a_valid km_max_acc km_max_steering].
  rewrite flit_Fin. unfold fgtb. xr.
  rewrite !(proj2 (Rltb_false _ _)) by auto.
  unfold fbool; cbn [orb]. xr. f_equal. f_equal. ring.
Qed.

Lemma bstep_feasible dt acc st ma ms ka ks p0 p1 k0 k1 :
  0 < dt -> ma * dt <= 6 / 10 -> ma <= ka + 1 / 1000 -> 0 <= ms <= ks + 1 / 1000 ->
  Rabs acc <= ma -> Rabs st <= ms -> has_kin p0 k0 -> has_kin p1 k1 -> bstep dt acc st k0 k1 ->
  mr_value (kim1 (S := XR) (kparams dt ka ks)
    (let '(a, s, v) := bicycle_inverse1 (Fin dt) true p0 p1 in mkact [a; s] v)) = Fin 0.
Proof.
  intros Hd Hmd Hka Hks Ha Hs A B BS.
  assert (Hma : 0 <= ma) by (pose proof (Rabs_pos acc); lra).
  assert (AccB : Rabs ((speed k1 - speed k0) / dt) <= ma).
  { unfold Rdiv. rewrite Rabs_mult, Rabs_inv, (Rabs_pos_eq dt) by lra.
    apply Rmult_le_reg_r with dt; auto. rewrite Rmult_assoc, Rinv_l, Rmult_1_r by lra.
    apply (bstep_speed_limit dt acc st); auto; lra. }
  destruct (p_valid p0 && p_valid p1) eqn:V.
  2:{ rewrite inverse1_invalid by auto. rewrite kim1_zero; [reflexivity| |]; rewrite Rabs_R0; lra. }
  apply andb_true_iff in V as [V0 V1].
  destruct (Rlt_dec (speed k0) (6 / 10)) as [L0|L0].
  { rewrite (inverse1_low dt p0 p1 k0 k1) by (auto; lra).
    rewrite kim1_zero; [reflexivity| lra |]; rewrite Rabs_R0; lra. }
  destruct (Rlt_dec (speed k1) (6 / 10)) as [L1|L1].
  { rewrite (inverse1_low dt p0 p1 k0 k1) by (auto; lra).
    rewrite kim1_zero; [reflexivity| lra |]; rewrite Rabs_R0; lra. }
  assert (AB : - ma <= acc <= ma) by (unfold Rabs in Ha; destruct (Rcase_abs acc); lra).
  assert (Hv : 0 <= speed k0 + acc * dt) by nra.
  pose proof (bstep_speed _ _ _ _ _ BS) as ES. rewrite Rabs_pos_eq in ES by lra.
  destruct (bstep_inverse_high dt acc st p0 p1 k0 k1) as (Hd' & ->); auto; try lra.
  set (d := speed k0 * dt + 1 / 2 * acc * (dt * dt)) in *.
  rewrite kim1_zero; [reflexivity|lra|].
  unfold Rdiv. rewrite Rabs_mult, Rabs_inv, (Rabs_pos_eq d) by lra.
  apply Rle_trans with ms; [|lra].
  apply Rmult_le_reg_r with d; auto. rewrite Rmult_assoc, Rinv_l, Rmult_1_r by lra.
  eapply Rle_trans; [apply Rwrap_abs_le|]. rewrite Rabs_mult, (Rabs_pos_eq d) by lra.
  apply Rmult_le_compat_r; lra.
Qed.

(* ---------------- environment level ---------------- *)
Local Open Scope nat_scope.

(** The frame written for a controlled object by a step of the bicycle model. *)
Lemma bicycle_env_step dt ma ms (nrm : bool) n T c s acts s' mask (t : nat) i (a : act (S := XR)) p k0 (xa xs : xr) (rest : list xr) :
  (0 <= ma)%R -> (0 <= ms)%R ->
  wf_state n T s -> env_step (InvertibleBicycleModel (bparams dt ma ms nrm)) c s acts = Ok s' ->
  env_control_mask s c = Ok mask -> s_t s = Z.of_nat t -> t + 1 < T ->
  nth_error mask i = Some true -> nth_error acts i = Some a ->
  a_data a = xa :: xs :: rest -> xa <> NaN -> xs <> NaN ->
  at2 (s_sim s) i t = Some p -> has_kin p k0 ->
  exists acc st p' k, at2 (s_sim s') i (t + 1) = Some p' /\ has_kin p' k /\
    (Rabs acc <= ma /\ Rabs st <= ms /\
    (forall r, xa = Fin r -> acc = if nrm then clamp (- 1) 1 r * ma else clamp (- ma) ma r) /\
    (forall r, xs = Fin r -> st = if nrm then clamp (- 1) 1 r * ms else clamp (- ms) ms r) /\
    bstep dt acc st k0 k)%R.
Proof.
  intros Hma Hms W H Hm Et Ht Em Ea Ed Na Ns Ep K.
  destruct (step_controlled_pose _ _ _ _ _ _ _ _ _ W H Hm Et Ht) as (cur & us & Lc & Hc & HU & HP).
  destruct (bicycle_form dt ma ms nrm a p k0 xa xs rest)
    as (acc & st & u & k & B1 & B2 & C1 & C2 & EU & UK & UV & BS); auto.
  assert (Hi : i < n).
  { destruct W as (R & _). destruct R as [R _]. unfold at2 in Ep.
    destruct (nth_error (s_sim s) i) eqn:E; [|discriminate]. apply nth_error_Some_lt in E. lia. }
  assert (Eu : nth_error us i = Some u).
  { simpl in HU. eapply per_object_nth; eauto. rewrite Hc by auto. auto. }
  destruct (HP i u Em Eu) as (p' & E' & X1 & X2 & X3 & X4 & X5).
  exists acc, st, p', k. split; auto.
  destruct UK as (U1 & U2 & U3 & U4 & U5).
  split; [unfold has_kin; repeat split; congruence|]. auto 10.
Qed.

Lemma compute_inverse_Ok n T tr (t : nat) (dt : F (Scalar := XR)) e :
  rect n T tr -> t + 1 < T ->
  exists acts, compute_inverse tr (Z.of_nat t) dt e = Ok acts /\ length acts = n /\
    forall i p0 p1, i < n -> at2 tr i t = Some p0 -> at2 tr i (t + 1) = Some p1 ->
      nth_error acts i = Some (let '(a, s, v) := bicycle_inverse1 dt e p0 p1 in mkact [a; s] v).
Proof.
  intros R Ht. unfold compute_inverse.
  destruct (two_frames_Ok n T tr t R Ht) as (ps & Hp & Lp & Ap). rewrite Hp; simpl.
  eexists. split; [reflexivity|]. rewrite map_length. split; auto.
  intros i p0 p1 Hi E0 E1. rewrite nth_error_map, (Ap i p0 p1) by auto. reflexivity.
Qed.

Lemma bicycle_inverse_Ok (q : bicycle_params (S := XR)) n T tr ms (t : nat) :
  rect n T tr -> t + 1 < T ->
  exists acts, d_inverse (InvertibleBicycleModel q) tr ms (Z.of_nat t) = Ok acts /\ length acts = n /\
    forall i p0 p1, i < n -> at2 tr i t = Some p0 -> at2 tr i (t + 1) = Some p1 ->
      nth_error acts i = Some (bicycle_inverse_action q p0 p1).
Proof.
  intros R Ht. simpl. unfold bicycle_inverse.
  destruct (two_frames_Ok n T tr t R Ht) as (ps & Hp & Lp & Ap). rewrite Hp; simpl.
  eexists. split; [reflexivity|]. rewrite map_length. split; auto.
  intros i p0 p1 Hi E0 E1. rewrite nth_error_map, (Ap i p0 p1) by auto. reflexivity.
Qed.

(** Earlier frames are untouched and a present controlled object stays present. *)
Lemma step_keeps n T d c s acts s' mask (t : nat) i p :
  wf_state n T s -> env_step (S := XR) d c s acts = Ok s' -> env_control_mask s c = Ok mask ->
  s_t s = Z.of_nat t -> t + 1 < T -> nth_error mask i = Some true ->
  at2 (s_sim s) i t = Some p ->
  wf_state n T s' /\ s_t s' = Z.of_nat (t + 1) /\ i < n /\ at2 (s_sim s') i t = Some p /\
  (p_valid p = true -> forall p', at2 (s_sim s') i (t + 1) = Some p' -> p_valid p' = true).
Proof.
  intros W H Hm Et Ht Em Ep.
  destruct (step_one_frame n T d c s acts s' W H) as (W' & _ & E' & Fr); [lia|].
  assert (Hi : i < n).
  { destruct W as (R & _). destruct R as [R _]. unfold at2 in Ep.
    destruct (nth_error (s_sim s) i) eqn:E; [|discriminate]. apply nth_error_Some_lt in E. lia. }
  split; auto. split; [lia|]. split; auto. split; [rewrite Fr; auto; lia|].
  intros V p' E1.
  destruct (env_step_Ok _ _ _ _ _ _ _ W H)
    as (mask' & cur & us & nxt & Hm' & La & Lmask & Lc & Lu & Ln & Hc & Hnx & Hu & R & Hs & _).
  assert (mask' = mask) as -> by congruence.
  destruct (nth_error_lt_Some us i) as [u Eu]; [lia|].
  destruct (nth_error_lt_Some nxt i) as [pn Epn]; [lia|].
  assert (Epc : nth_error cur i = Some p).
  { rewrite Hc by auto. rewrite Et, norm_start_of_nat by lia. auto. }
  rewrite Hs in E1 by auto. replace (s_t s + 1)%Z with (Z.of_nat (t + 1)) in E1 by lia.
  rewrite norm_start_of_nat in E1 by lia. rewrite Nat.eqb_refl in E1.
  rewrite nth_error_map4, Em, Eu, Epc, Epn in E1. injection E1 as <-.
  simpl. unfold next_valid. rewrite V. simpl. now destruct (c_allow_new_objects c).
Qed.

Lemma kim_after_step dt ma ms (nrm : bool) ka ks n T c s acts s' mask (t : nat) i (a : act (S := XR)) p k0 (xa xs : xr) (rest : list xr) rs :
  (0 < dt -> 0 <= ma -> ma * dt <= 6 / 10 -> ma <= ka + 1 / 1000 -> 0 <= ms <= ks + 1 / 1000 ->
  wf_state n T s -> env_step (InvertibleBicycleModel (bparams dt ma ms nrm)) c s acts = Ok s' ->
  env_control_mask s c = Ok mask -> s_t s = Z.of_nat t -> (t + 1 < T)%nat ->
  nth_error mask i = Some true -> nth_error acts i = Some a ->
  a_data a = xa :: xs :: rest -> xa <> NaN -> xs <> NaN ->
  at2 (s_sim s) i t = Some p -> has_kin p k0 ->
  kim_compute (kparams dt ka ks) s' = Ok rs ->
  exists r, nth_error rs i = Some r /\ mr_value r = Fin 0 /\ (p_valid p = true -> mr_valid r = true))%R.
Proof.
  intros Hd Hma Hmd Hka [Hms0 Hms] W H Hm Et Ht Em Ea Ed Na Ns Ep K HK.
  destruct (bicycle_env_step dt ma ms nrm n T c s acts s' mask t i a p k0 xa xs rest)
    as (acc & st & p' & k & E' & K' & B1 & B2 & _ & _ & BS); auto.
  destruct (step_keeps n T _ c s acts s' mask t i p W H Hm Et Ht Em Ep) as (W' & Et' & Hi & E0 & V').
  unfold kim_compute, compute_kinematics_infeasibility in HK. rewrite Et' in HK.
  replace (Z.of_nat (t + 1) - 1)%Z with (Z.of_nat t) in HK by lia.
  destruct (compute_inverse_Ok n T (s_sim s') t (Fin dt) true) as (ia & HI & Li & Ai);
    [apply W'|lia|].
  change (km_dt (kparams dt ka ks)) with (Fin dt) in HK. rewrite HI in HK. simpl in HK.
  injection HK as <-. specialize (Ai i p p' Hi E0 E').
  eexists. split; [rewrite nth_error_map, Ai; reflexivity|].
  split; [apply (bstep_feasible dt acc st ma ms ka ks p p' k0 k); auto|].
  intros V. specialize (V' V p' E'). cbn [kim1].
  unfold bicycle_inverse1. rewrite V, V'. reflexivity.
Qed.

(* ---------------- C17 ---------------- *)

Lemma recover_action dt ma ms (nrm : bool) n T c s acts s' mask (t : nat) i (a : act (S := XR)) p k0 ra rs metas inv :
  (0 < dt -> 0 < ma -> 0 < ms ->
  wf_state n T s -> env_step (InvertibleBicycleModel (bparams dt ma ms nrm)) c s acts = Ok s' ->
  env_control_mask s c = Ok mask -> s_t s = Z.of_nat t -> (t + 1 < T)%nat ->
  nth_error mask i = Some true -> nth_error acts i = Some a ->
  a_data a = [Fin ra; Fin rs] ->
  at2 (s_sim s) i t = Some p -> p_valid p = true -> has_kin p k0 ->
  let acc := if nrm then ra * ma else ra in
  let st := if nrm then rs * ms else rs in
  Rabs acc <= ma -> Rabs st <= ms ->
  6 / 10 <= speed k0 -> 6 / 10 <= speed k0 + acc * dt ->
  - PI <= st * (speed k0 * dt + 1 / 2 * acc * (dt * dt)) < PI ->
  d_inverse (InvertibleBicycleModel (bparams dt ma ms nrm)) (s_sim s') metas (Z.of_nat t) = Ok inv ->
  nth_error inv i = Some (mkact (S := XR) [Fin ra; Fin rs] true))%R.
Proof.
  intros Hd Hma Hms W H Hm Et Ht Em Ea Ed Ep V K acc st Ba Bs L0 L1 HN HI.
  destruct (bicycle_env_step dt ma ms nrm n T c s acts s' mask t i a p k0 (Fin ra) (Fin rs) [])
    as (acc' & st' & p' & k & E' & K' & _ & _ & Fa & Fs & BS); auto; try discriminate; try lra.
  destruct (step_keeps n T _ c s acts s' mask t i p W H Hm Et Ht Em Ep) as (W' & Et' & Hi & E0 & V').
  specialize (V' V p' E').
  assert (Q : forall m x, (0 < m -> Rabs (x * m) <= m -> Rabs x <= 1)%R).
  { intros m x P Q. rewrite Rabs_mult, (Rabs_pos_eq m) in Q by lra.
    apply Rmult_le_reg_r with m; lra. }
  assert (I1 : forall x, (Rabs x <= 1)%R -> clamp (-1) 1 x = x).
  { intros x Hx. apply (clamp_id x 1 Hx). }
  assert (acc' = acc).
  { rewrite (Fa ra eq_refl). unfold acc in *. destruct nrm; [rewrite I1|rewrite clamp_id]; auto. apply (Q ma); auto. }
  assert (st' = st).
  { rewrite (Fs rs eq_refl). unfold st in *. destruct nrm; [rewrite I1|rewrite clamp_id]; auto. apply (Q ms); auto. }
  subst acc' st'.
  destruct (bicycle_inverse_Ok (bparams dt ma ms nrm) n T (s_sim s') metas t) as (ia & HI' & Li & Ai);
    [apply W'|lia|].
  assert (ia = inv) as -> by congruence. rewrite (Ai i p p') by auto. f_equal.
  unfold bicycle_inverse_action. cbn [bparams bc_dt].
  destruct (bstep_inverse_high dt acc st p p' k0 k) as (Hd' & ->); auto.
  set (d := (speed k0 * dt + 1 / 2 * acc * (dt * dt))%R) in *.
  rewrite Rwrap_id by (split; lra).
  replace (st * d / d)%R with st by (field; lra).
  unfold bicycle_clip, bicycle_bound_accel, bicycle_bound_steering;
    cbn [bparams bc_normalize bc_max_accel bc_max_steering].
  unfold acc, st in *. destruct nrm.
  - rewrite !fdiv_Fin by lra. xr. rewrite !clamp_clip by lra.
    replace (ra * ma / ma)%R with ra by (field; lra).
    replace (rs * ms / ms)%R with rs by (field; lra).
    rewrite !clamp_id; eauto.
  - xr. rewrite !clamp_clip by lra. rewrite !clamp_id; auto.
Qed.

(** Below the speed limit the steering is reported as zero and the acceleration
    is the change of speed. *)
Lemma recover_low dt ma ms p0 p1 k0 k1 :
  (dt <> 0 -> 0 <= ma -> 0 <= ms -> has_kin p0 k0 -> has_kin p1 k1 ->
  speed k0 < 6 / 10 \/ speed k1 < 6 / 10 -> p_valid p0 = true -> p_valid p1 = true ->
  bicycle_inverse_action (bparams dt ma ms false) p0 p1
  = mkact [Fin (clamp (- ma) ma ((speed k1 - speed k0) / dt)); Fin 0] true)%R.
Proof.
  intros Hd Hma Hms A B L V0 V1. unfold bicycle_inverse_action. cbn [bparams bc_dt bc_normalize].
  rewrite (inverse1_low dt p0 p1 k0 k1) by auto.
  unfold bicycle_clip, bicycle_bound_accel, bicycle_bound_steering;
    cbn [bparams bc_normalize bc_max_accel bc_max_steering]. xr.
  rewrite !clamp_clip, clamp_0 by auto. reflexivity.
Qed.

(* ---------------- C15, bicycle ---------------- *)

Lemma bicycle_inverse_bounds dt ma ms (nrm : bool) p0 p1 k0 k1 :
  (0 < dt -> 0 < ma -> 0 < ms -> has_kin p0 k0 -> has_kin p1 k1 ->
  exists ra rs, bicycle_inverse_action (bparams dt ma ms nrm) p0 p1
    = mkact [Fin ra; Fin rs] (p_valid p0 && p_valid p1) /\
    Rabs ra <= (if nrm then 1 else ma) /\ Rabs rs <= (if nrm then 1 else ms) /\
    (p_valid p0 && p_valid p1 = false -> ra = 0 /\ rs = 0))%R.
Proof.
  intros Hd Hma Hms A B. unfold bicycle_inverse_action. cbn [bparams bc_dt].
  assert (exists a s, bicycle_inverse1 (S := XR) (Fin dt) true p0 p1
            = (Fin a, Fin s, p_valid p0 && p_valid p1) /\
            (p_valid p0 && p_valid p1 = false -> a = 0%R /\ s = 0%R)) as (a & s & -> & Z).
  { destruct (p_valid p0 && p_valid p1) eqn:V.
    2:{ exists 0%R, 0%R. rewrite inverse1_invalid; auto. }
    apply andb_true_iff in V as [V0 V1].
    destruct (Rlt_dec (speed k0) (6 / 10)) as [L0|L0].
    { do 2 eexists. rewrite (inverse1_low dt p0 p1 k0 k1); auto; [|lra].
      split; [reflexivity|discriminate]. }
    destruct (Rlt_dec (speed k1) (6 / 10)) as [L1|L1].
    { do 2 eexists. rewrite (inverse1_low dt p0 p1 k0 k1); auto; [|lra].
      split; [reflexivity|discriminate]. }
    do 2 eexists. rewrite (inverse1_high dt p0 p1 k0 k1); auto; try lra.
    split; [reflexivity|discriminate]. }
  unfold bicycle_clip, bicycle_bound_accel, bicycle_bound_steering;
    cbn [bparams bc_normalize bc_max_accel bc_max_steering].
  destruct nrm.
  - rewrite !fdiv_Fin by lra. xr. rewrite !clamp_clip by lra.
    do 2 eexists. split; [reflexivity|]. split; [apply clamp_abs; lra|]. split; [apply clamp_abs; lra|].
    intros V. destruct (Z V) as [-> ->]. unfold Rdiv. rewrite !Rmult_0_l, !clamp_0 by lra. auto.
  - xr. rewrite !clamp_clip by lra.
    do 2 eexists. split; [reflexivity|]. split; [apply clamp_abs; lra|]. split; [apply clamp_abs; lra|].
    intros V. destruct (Z V) as [-> ->]. rewrite !clamp_0 by lra. auto.
Qed.

(* ---------------- statements used by C15-C18 ---------------- *)

Lemma spec_bicycle n T tr metas (t : nat) dt ma ms (nrm : bool) acts i p0 p1 k0 k1 :
  (0 < dt -> 0 < ma -> 0 < ms -> rect n T tr -> (t + 1 < T)%nat -> (i < n)%nat ->
  d_inverse (InvertibleBicycleModel (bparams dt ma ms nrm)) tr metas (Z.of_nat t) = Ok acts ->
  at2 tr i t = Some p0 -> at2 tr i (t + 1) = Some p1 -> has_kin p0 k0 -> has_kin p1 k1 ->
  exists a, nth_error acts i = Some a /\
    in_spec (bicycle_spec (bparams dt ma ms nrm)) (a_data a) /\
    a_valid a = p_valid p0 && p_valid p1 /\
    (a_valid a = false -> a_data a = [Fin 0; Fin 0]))%R.
Proof.
  intros Hd Hma Hms R Ht Hi HI E0 E1 K0 K1.
  destruct (bicycle_inverse_Ok (bparams dt ma ms nrm) n T tr metas t R Ht) as (ia & HI' & Li & Ai).
  assert (ia = acts) as -> by congruence.
  eexists. split; [apply (Ai i p0 p1); auto|].
  destruct (bicycle_inverse_bounds dt ma ms nrm p0 p1 k0 k1) as (ra & rs & -> & Ba & Bs & Z); auto.
  cbn [a_data a_valid]. split; [|split; [reflexivity|]].
  - assert (Q : forall m x, (Rabs x <= m -> - m <= x <= m)%R).
    { intros m x H. unfold Rabs in H. destruct (Rcase_abs x); lra. }
    apply Q in Ba, Bs.
    unfold in_spec, bicycle_spec, bicycle_bound_accel, bicycle_bound_steering, bparams;
      cbn [fst snd bc_normalize bc_max_accel bc_max_steering].
    destruct nrm; xr; split; repeat constructor; apply leb_Fin; lra.
  - intros V. destruct (Z V) as [-> ->]. reflexivity.
Qed.

Lemma bicycle_limits dt ma ms (nrm : bool) n T c s acts s' mask (t : nat) i (a : act (S := XR)) p k0 (xa xs : xr) (rest : list xr) :
  (0 <= dt -> 0 <= ma -> 0 <= ms ->
  wf_state n T s -> env_step (InvertibleBicycleModel (bparams dt ma ms nrm)) c s acts = Ok s' ->
  env_control_mask s c = Ok mask -> s_t s = Z.of_nat t -> (t + 1 < T)%nat ->
  nth_error mask i = Some true -> nth_error acts i = Some a ->
  a_data a = xa :: xs :: rest -> xa <> NaN -> xs <> NaN ->
  at2 (s_sim s) i t = Some p -> has_kin p k0 ->
  exists p' k, at2 (s_sim s') i (t + 1) = Some p' /\ has_kin p' k /\
    Rabs (speed k - speed k0) <= ma * dt /\
    normalised (kyaw k) /\
    (exists v, kvx k = v * cos (kyaw k) /\ kvy k = v * sin (kyaw k)) /\
    (kvx k0 = speed k0 * cos (kyaw k0) -> kvy k0 = speed k0 * sin (kyaw k0) ->
     exists delta, same_angle (kyaw k) (kyaw k0 + delta) /\ Rabs delta <= ms * dist k0 k))%R.
Proof.
  intros Hd Hma Hms W H Hm Et Ht Em Ea Ed Na Ns Ep K.
  destruct (bicycle_env_step dt ma ms nrm n T c s acts s' mask t i a p k0 xa xs rest)
    as (acc & st & p' & k & E' & K' & B1 & B2 & _ & _ & BS); auto.
  exists p', k. split; auto. split; auto.
  split; [eapply bstep_speed_limit; eauto|].
  pose proof BS as (_ & _ & EY & EVX & EVY).
  split; [rewrite EY; apply Rwrap_range|].
  split; [eauto|].
  intros A1 A2. eexists. split; [rewrite EY; apply Rwrap_cong|].
  rewrite (bstep_dist dt acc st k0 k) by auto. rewrite Rabs_mult.
  apply Rmult_le_compat_r; auto. apply Rabs_pos.
Qed.

(** Values of the written frame, stated without reference to the code. *)
Lemma bicycle_motion dt ma ms (nrm : bool) n T c s acts s' mask (t : nat) i (a : act (S := XR)) p k0 ra rs :
  (0 <= ma -> 0 <= ms ->
  wf_state n T s -> env_step (InvertibleBicycleModel (bparams dt ma ms nrm)) c s acts = Ok s' ->
  env_control_mask s c = Ok mask -> s_t s = Z.of_nat t -> (t + 1 < T)%nat ->
  nth_error mask i = Some true -> nth_error acts i = Some a ->
  a_data a = [Fin ra; Fin rs] ->
  at2 (s_sim s) i t = Some p -> has_kin p k0 ->
  let acc := if nrm then clamp (- 1) 1 ra * ma else clamp (- ma) ma ra in
  let st := if nrm then clamp (- 1) 1 rs * ms else clamp (- ms) ms rs in
  let d := speed k0 * dt + 1 / 2 * acc * (dt * dt) in
  exists p' k, at2 (s_sim s') i (t + 1) = Some p' /\ has_kin p' k /\
    kx k = kx k0 + kvx k0 * dt + 1 / 2 * acc * cos (kyaw k0) * (dt * dt) /\
    ky k = ky k0 + kvy k0 * dt + 1 / 2 * acc * sin (kyaw k0) * (dt * dt) /\
    normalised (kyaw k) /\ same_angle (kyaw k) (kyaw k0 + st * d) /\
    kvx k = (speed k0 + acc * dt) * cos (kyaw k) /\
    kvy k = (speed k0 + acc * dt) * sin (kyaw k))%R.
Proof.
  intros Hma Hms W H Hm Et Ht Em Ea Ed Ep K acc st d.
  destruct (bicycle_env_step dt ma ms nrm n T c s acts s' mask t i a p k0 (Fin ra) (Fin rs) [])
    as (acc' & st' & p' & k & E' & K' & B1 & B2 & F1 & F2 & BS); auto; try discriminate.
  assert (acc' = acc) as -> by (apply F1; reflexivity).
  assert (st' = st) as -> by (apply F2; reflexivity).
  exists p', k. split; auto. split; auto.
  destruct BS as (X & Y & EY & EVX & EVY). split; auto. split; auto.
  split; [rewrite EY; apply Rwrap_range|]. split; [rewrite EY; apply Rwrap_cong|]. auto.
Qed.

(** Two coasting/braking steps through standstill: the velocity of a reversing
    vehicle flips by more than max_accel * dt although the action is zero. *)
Lemma velocity_flip :
  exists (p : pt (S := XR)) k0 u k, has_kin p k0 /\ p_valid p = true /\
    bicycle_update (bparams (1 / 10) 6 (3 / 10) false) (mkact (S := XR) [Fin 0; Fin 0] true) p = Ok u /\
    upd_kin u k /\ (kvx k0 = - (6 / 10) /\ kvx k = 6 / 10 /\ Rabs (kvx k - kvx k0) > 6 * (1 / 10))%R /\
    exists p' u', bicycle_update (bparams (1 / 10) 6 (3 / 10) false) (mkact (S := XR) [Fin (-6); Fin 0] true) p' = Ok u' /\
      p_valid p' = true /\ p_vx p' = Fin 0 /\ p_vy p' = Fin 0 /\
      u_vx u' = p_vx p /\ u_vy u' = p_vy p /\ u_yaw u' = p_yaw p /\ u_x u' = p_x p /\ u_y u' = p_y p.
Proof.
  assert (N0 : normalised 0) by (unfold normalised; pose proof PI_RGT_0; lra).
  set (pt0 := mkpt (S := XR) (Fin 0) (Fin 0) (Fin 0) (Fin 0) (Fin 0) (Fin 0) true 0%Z (Fin 1) (Fin 1) (Fin 1)).
  set (kk := mkkin 0 0 0 0 0).
  assert (A : has_kin pt0 kk) by (repeat split).
  destruct (bicycle_form (1 / 10) 6 (3 / 10) false (mkact (S := XR) [Fin (-6); Fin 0] true) pt0 kk (Fin (-6)) (Fin 0) [])
    as (acc & st & u' & k' & _ & _ & F1 & F2 & EU & UK & _ & BS); auto; try discriminate; try lra.
  assert (acc = (-6)%R).
  { rewrite (F1 _ eq_refl). apply (clamp_id (-6) 6). rewrite Rabs_left; lra. }
  assert (st = 0%R) by (rewrite (F2 _ eq_refl); apply (clamp_0 (3 / 10)); lra).
  subst acc st. clear F1 F2.
  assert (S0 : speed kk = 0%R).
  { unfold speed, kk; simpl. replace (0 * 0 + 0 * 0)%R with 0%R by ring. apply sqrt_0. }
  destruct BS as (X & Y & EY & VX & VY). rewrite S0 in *.
  assert (EY' : kyaw k' = 0%R).
  { rewrite EY. cbn [kk kyaw]. rewrite Rmult_0_l, Rplus_0_r. now apply Rwrap_id. }
  rewrite EY', cos_0, sin_0 in *.
  set (p := mkpt (S := XR) (u_x u') (u_y u') (Fin 0) (u_vx u') (u_vy u') (u_yaw u') true 0%Z (Fin 1) (Fin 1) (Fin 1)).
  assert (B : has_kin p k') by exact UK.
  destruct (bicycle_form (1 / 10) 6 (3 / 10) false (mkact (S := XR) [Fin 0; Fin 0] true) p k' (Fin 0) (Fin 0) [])
    as (acc2 & st2 & u2 & k2 & _ & _ & F1 & F2 & EU2 & UK2 & _ & BS2); auto; try discriminate; try lra.
  assert (acc2 = 0%R) by (rewrite (F1 _ eq_refl); apply (clamp_0 6); lra).
  assert (st2 = 0%R) by (rewrite (F2 _ eq_refl); apply (clamp_0 (3 / 10)); lra).
  subst acc2 st2. clear F1 F2.
  assert (S1 : speed k' = (6 / 10)%R).
  { unfold speed. rewrite VX, VY.
    replace ((0 + -6 * (1 / 10)) * 1 * ((0 + -6 * (1 / 10)) * 1) + (0 + -6 * (1 / 10)) * 0 * ((0 + -6 * (1 / 10)) * 0))%R
      with ((6 / 10) * (6 / 10))%R by field.
    apply sqrt_square. lra. }
  destruct BS2 as (_ & _ & EY2 & VX2 & VY2).
  assert (EY3 : kyaw k2 = 0%R).
  { rewrite EY2, EY', Rmult_0_l, Rplus_0_r. now apply Rwrap_id. }
  rewrite S1, EY3, cos_0 in VX2.
  exists p, k', u2, k2. split; [exact B|]. split; [reflexivity|]. split; [exact EU2|]. split; [exact UK2|].
  split.
  - rewrite VX, VX2. split; [field|]. split; [field|].
    rewrite Rabs_pos_eq by lra. lra.
  - exists pt0, u'. split; [exact EU|]. repeat split.
Qed.

Lemma bicycle_clip_same (dt ma ms : R) (nrm : bool) ra rs v p :
  (0 <= ma -> 0 <= ms ->
  let ba := if nrm then 1 else ma in let bs := if nrm then 1 else ms in
  bicycle_update (bparams dt ma ms nrm) (mkact (S := XR) [Fin ra; Fin rs] v) p
  = bicycle_update (bparams dt ma ms nrm) (mkact (S := XR) [Fin (clamp (- ba) ba ra); Fin (clamp (- bs) bs rs)] v) p)%R.
Proof.
  intros Hma Hms ba bs. unfold bicycle_update; cbn [a_data].
  replace (bicycle_clip (bparams dt ma ms nrm) (Fin (clamp (- ba) ba ra)) (Fin (clamp (- bs) bs rs)))
    with (bicycle_clip (bparams dt ma ms nrm) (Fin ra) (Fin rs)); [reflexivity|].
  unfold bicycle_clip, bicycle_bound_accel, bicycle_bound_steering, bparams;
    cbn [bc_normalize bc_max_accel bc_max_steering].
  subst ba bs. destruct nrm; xr; rewrite !clamp_clip, !clamp_idem by lra; reflexivity.
Qed.

Lemma kim_default_zero n T c s acts s' mask (t : nat) i
  (a : act (S := XR)) p k0 (xa xs : xr) (rest : list xr) rs :
  wf_state n T s -> env_step (InvertibleBicycleModel bicycle_default) c s acts = Ok s' ->
  env_control_mask s c = Ok mask -> s_t s = Z.of_nat t -> (t + 1 < T)%nat ->
  nth_error mask i = Some true -> nth_error acts i = Some a ->
  a_data a = xa :: xs :: rest -> xa <> NaN -> xs <> NaN ->
  at2 (s_sim s) i t = Some p -> has_kin p k0 ->
  kim_compute kim_default s' = Ok rs ->
  exists r, nth_error rs i = Some r /\ mr_value r = Fin 0%R /\ (p_valid p = true -> mr_valid r = true).
Proof.
  change (bicycle_default (S := XR)) with (bparams (1 / 10) (6 / 1) (3 / 10) false).
  change (kim_default (S := XR)) with (kparams (1 / 10) (104 / 10) (3 / 10)).
  intros. eapply (kim_after_step (1 / 10) (6 / 1) (3 / 10) false (104 / 10) (3 / 10)); eauto; lra.
Qed.

Lemma kim_flags :
  let p0 := mkpt (S := XR) (Fin 0) (Fin 0) (Fin 0) (Fin 10) (Fin 0) (Fin 0) true 0%Z (Fin 4) (Fin 2) (Fin 1) in
  let p1 := mkpt (S := XR) (Fin 1) (Fin 0) (Fin 0) (Fin 12) (Fin 0) (Fin 0) true 0%Z (Fin 4) (Fin 2) (Fin 1) in
  exists r, kim_compute kim_default (mkstate [[p0; p1]] [[p0; p1]] [] [] 1 None None) = Ok [r] /\
    mr_value r = Fin 1%R /\ mr_valid r = true.
Proof.
  intros p0 p1.
  change (kim_default (S := XR)) with (kparams (1 / 10) (104 / 10) (3 / 10)).
  eexists. split; [reflexivity|].
  assert (A : has_kin p0 (mkkin 0 0 0 10 0)) by (repeat split).
  assert (B : has_kin p1 (mkkin 1 0 0 12 0)) by (repeat split).
  assert (S0 : speed (mkkin 0 0 0 10 0) = 10%R).
  { unfold speed; simpl. replace (10 * 10 + 0 * 0)%R with (10 * 10)%R by ring. apply sqrt_square; lra. }
  assert (S1 : speed (mkkin 1 0 0 12 0) = 12%R).
  { unfold speed; simpl. replace (12 * 12 + 0 * 0)%R with (12 * 12)%R by ring. apply sqrt_square; lra. }
  cbn [kparams km_dt fst snd].
  rewrite (inverse1_high (1 / 10) p0 p1 _ _ ltac:(lra) A B) by (rewrite ?S0, ?S1; auto; lra).
  rewrite S0, S1.
  unfold kim1, kim_epsilon, kparams; cbn [a_data a_valid km_max_acc km_max_steering].
  rewrite flit_Fin. unfold fgtb. xr.
  rewrite (proj2 (Rltb_true _ (Rabs ((12 - 10) / (1 / 10)))))
    by (rewrite Rabs_pos_eq; lra).
  cbn [orb fbool mr_value mr_valid]. split; [|reflexivity]. unfold fbool. xr. f_equal. ring.
Qed.
