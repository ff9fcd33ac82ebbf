(** Episodes in float32 stay finite. *)
From Coq Require Import List ZArith Reals Lra Lia Bool.
From Flocq Require Import Core.Raux IEEE754.BinarySingleNaN.
From Verif.Lib Require Import Base JaxIndex Scalar F32.
From Verif.Model Require Import Operations State Dynamics BaseEnv Geometry Dyn_State Dyn_Delta Dyn_Bicycle.
From Verif.Spec Require Import StateSpec DynSpec F32Spec F32EpisodeSpec.
From Verif.Proofs Require Import Core Episode P_Step P_Actions P_Expert P_F32 P_F32Wrap P_F32Delta P_F32Bicycle.
Import ListNotations.

Section Any.
  Context {S : Scalar}.
  Local Open Scope nat_scope.

  (** Induction over the frames of one object, for dynamics that treat each object
      on its own. *)
  Lemma policy_induct (f : act -> pt -> res upd) inv n T c pol s k s' (ok : act -> Prop) i (P : nat -> pt -> Prop) :
    wf_scenario n T s -> run_policy (mkdyn (per_object f) inv) c pol s k = Ok s' ->
    1 <= c_init_steps c -> c_init_steps c + k <= T -> i < n ->
    (forall s1 a, pol s1 = Ok a -> Forall ok a) ->
    (forall j t l, at2 (s_log s) i t = Some l -> t < c_init_steps c + k -> j <= k -> P j l) ->
    (forall j p l a u b inj, j < k -> P j p -> P (j + 1) l -> ok a -> f a p = Ok u ->
       P (j + 1) (next_pt inj false u p l b)) ->
    forall t, t < c_init_steps c + k ->
      exists p, at2 (s_sim s') i t = Some p /\ P (t + 1 - c_init_steps c) p.
  Proof.
    intros W H HI HL Hi HA P0 P1.
    assert (First : forall t, t < c_init_steps c -> exists p, at2 (s_sim s') i t = Some p /\ P 0 p).
    { intros t Ht. destruct (run_policy_episode _ _ _ _ _ _ H) as (acts & La & HE).
      destruct (episode_basic _ _ _ _ _ _ _ W HE ltac:(lia)) as (_ & _ & _ & _ & F & _).
      destruct W as (R & _). destruct (rect_at2 n T (s_log s) i t R Hi) as [l El]; [lia|].
      exists l. split; [rewrite F by lia; exact El|]. apply (P0 0 t l El); lia. }
    assert (Q : forall j, j <= k -> exists p, at2 (s_sim s') i (c_init_steps c + j - 1) = Some p /\ P j p).
    { induction j as [|j IH]; intros Hj.
      - rewrite Nat.add_0_r. apply First. lia.
      - destruct IH as (p & Ep & Pp); [lia|].
        destruct (policy_frames n T _ _ _ _ _ _ W H HI HL j ltac:(lia))
          as (s1 & a & cur & us & K1 & K2 & K3 & K4 & K5 & K6 & K7 & K8 & K9 & K10).
        destruct (K10 i Hi) as (J1 & J2 & u & p' & nxt & ctrl & Eu & Ep' & En & Ec & Ef).
        assert (p' = p) as ->.
        { rewrite Ep' in J1. rewrite <- J2 in J1 by lia. congruence. }
        replace (c_init_steps c + Datatypes.S j - 1) with (c_init_steps c + j) by lia.
        eexists. split; [exact Ef|]. replace (Datatypes.S j) with (j + 1) by lia.
        destruct (nth_error_lt_Some a i) as [ai Eai]; [rewrite K6; exact Hi|].
        destruct (per_object_Ok _ _ _ _ K9) as (_ & _ & PO).
        destruct (PO i _ _ Eai Ep') as (u' & EU & En').
        assert (u' = u) as -> by congruence.
        apply (P1 j p nxt ai u ctrl); [lia | exact Pp | | | exact EU].
        + apply (P0 (j + 1) (c_init_steps c + j) nxt En); lia.
        + pose proof (HA _ _ K5) as FA. rewrite Forall_forall in FA. apply FA. eapply nth_error_In; eauto. }
    intros t Ht. destruct (Nat.lt_ge_cases t (c_init_steps c)) as [L|L].
    - replace (t + 1 - c_init_steps c) with 0 by lia. now apply First.
    - destruct (Q (t + 1 - c_init_steps c)) as (p & E & Pp); [lia|].
      replace (c_init_steps c + (t + 1 - c_init_steps c) - 1) with t in E by lia. eauto.
  Qed.

  Lemma policy_runs n T d c pol s k (ok : act -> Prop) :
    wf_scenario n T s -> c_max_num_objects c = n -> c_controlled c <> NON_SDC -> dyn_total d ok ->
    (forall s1, exists a, pol s1 = Ok a /\ length a = n /\ Forall ok a) ->
    1 <= c_init_steps c -> c_init_steps c + k <= T ->
    exists s', run_policy d c pol s k = Ok s'.
  Proof.
    intros W HM HC D HP HI. induction k as [|k IH]; intros HL.
    - destruct W as (R & Lm & Hn & HT).
      destruct (env_reset_total n T c s) as [s' H]; auto; [lia|].
      exists s'. now apply run_policy_0.
    - destruct IH as [s1 H1]; [lia|].
      destruct (run_policy_episode _ _ _ _ _ _ H1) as (acts & La & HE).
      destruct (episode_basic _ _ _ _ _ _ _ W HE ltac:(lia)) as (W1 & SC & _ & Et & _).
      destruct (HP s1) as (a & Ea & Lac & Fa).
      destruct (env_step_total n T d c s1 a ok W1 HC D Lac Fa) as [s' Hs].
      exists s'. apply run_policy_snoc. eauto.
  Qed.
End Any.

Open Scope R_scope.

Lemma bounded32_mono {lm} X V X' V' (p : pt (S := F32 lm)) : X <= X' -> V <= V' -> bounded32 X V p -> bounded32 X' V' p.
Proof.
  intros HX HV (x & y & w & vx & vy & H). exists x, y, w, vx, vy.
  destruct H as (? & ? & ? & ? & ? & ? & ? & ? & ?). repeat (split; [assumption || lra|]). lra.
Qed.

Lemma pi32_pow : pi32 <= 2 ^ 100.
Proof. pose proof pi32_val. simpl. lra. Qed.

Section Bicycle.
  Variable lm : libm.
  Hypothesis TR : trig32 lm.
  Notation S32 := (F32 lm).
  Variables (q : bicycle_params (S := S32)) (d A St : R).
  Hypothesis Hd : fin (bc_dt q) d.
  Hypothesis HA : fin (bc_max_accel q) A.
  Hypothesis HS : fin (bc_max_steering q) St.
  Hypothesis D1 : 0 < d <= 1.
  Hypothesis A1 : 0 <= A <= 2 ^ 40.
  Hypothesis S1 : 0 <= St <= 2 ^ 40.

  Lemma bicycle_episode32 n T c pol (s : state (S := S32)) k s' i X V C P :
    wf_scenario n T s -> run_policy (InvertibleBicycleModel q) c pol s k = Ok s' ->
    (1 <= c_init_steps c)%nat -> (c_init_steps c + k <= T)%nat -> (i < n)%nat ->
    (forall s1 a, pol s1 = Ok a -> Forall not_nan2 a) ->
    (forall t l, at2 (s_log s) i t = Some l -> (t < c_init_steps c + k)%nat -> bounded32 X V l) ->
    1 <= C <= 2 ^ 40 -> 1 <= P <= 2 ^ 60 ->
    V + INR k * (A * d + C / 2 ^ 19) <= C ->
    X + INR k * (C * d + A * (d * d) + P / 2 ^ 20) <= P ->
    forall t, (t < c_init_steps c + k)%nat ->
      exists p, at2 (s_sim s') i t = Some p /\
        bounded32 (X + INR (t + 1 - c_init_steps c) * (C * d + A * (d * d) + P / 2 ^ 20))
                  (V + INR (t + 1 - c_init_steps c) * (A * d + C / 2 ^ 19)) p.
  Proof.
    intros W H HI HL Hi HP HB HC HPP HV HX.
    set (gv := A * d + C / 2 ^ 19) in *. set (gx := C * d + A * (d * d) + P / 2 ^ 20) in *.
    assert (AD : 0 <= A * d) by (apply Rmult_le_pos; lra).
    assert (CD : 0 <= C * d) by (apply Rmult_le_pos; lra).
    assert (AD2 : 0 <= A * (d * d)) by (apply Rmult_le_pos; [lra | nra]).
    assert (C19 : 0 <= C / 2 ^ 19) by (apply Rle_mult_inv_pos; [lra | apply pow_lt; lra]).
    assert (P20 : 0 <= P / 2 ^ 20) by (apply Rle_mult_inv_pos; [lra | apply pow_lt; lra]).
    assert (GV : 0 <= gv) by (unfold gv; lra). assert (GX : 0 <= gx) by (unfold gx; lra).
    apply (policy_induct (bicycle_update q) (bicycle_inverse q) n T c pol s k s' not_nan2 i
             (fun j p => bounded32 (X + INR j * gx) (V + INR j * gv) p) W H HI HL Hi HP).
    - intros j t l El Ht Hj. pose proof (pos_INR j).
      assert (0 <= INR j * gx) by (apply Rmult_le_pos; lra). assert (0 <= INR j * gv) by (apply Rmult_le_pos; lra).
      apply (bounded32_mono X V); [lra | lra | eauto].
    - intros j p l a u b inj Hj Bp Bl Ok Eu. rewrite plus_INR in *. change (INR 1) with 1 in *.
      assert (Jk : INR j + 1 <= INR k).
      { change 1 with (INR 1). rewrite <- plus_INR. apply le_INR. lia. }
      assert (Jx : (INR j + 1) * gx <= INR k * gx) by (apply Rmult_le_compat_r; lra).
      assert (Jv : (INR j + 1) * gv <= INR k * gv) by (apply Rmult_le_compat_r; lra).
      destruct (bicycle_step32 lm TR q d A St Hd HA HS D1 (proj1 A1) S1 a p (X + INR j * gx) (V + INR j * gv) C P Ok Bp HC
                  (proj2 A1)) as (u' & x & y & w & vx & vy & vx0 & vy0 & EU & Fx & Fy & Fw & Fvx & Fvy & Bx & By & Bw & F0x & F0y & Ev);
        [unfold gv in *; lra | exact HPP | unfold gx in *; lra |].
      assert (u' = u) as -> by congruence.
      destruct b; [|destruct Bl as (xl & yl & wl & vxl & vyl & L); exists xl, yl, wl, vxl, vyl; exact L].
      exists x, y, w, vx, vy. cbn [next_pt p_x p_y p_yaw p_vx p_vy]. fold gx in Bx, By. fold gv in Ev.
      split; [exact Fx|]. split; [exact Fy|]. split; [exact Fw|]. split; [exact Fvx|]. split; [exact Fvy|].
      split; [lra|]. split; [lra|]. split.
      + pose proof pi32_pow. pose proof pi32_val. apply Rabs_le. lra.
      + fold (len vx vy). destruct Bp as (? & ? & ? & vx1 & vy1 & _ & _ & _ & G1 & G2 & _ & _ & _ & BV).
        rewrite (fin_fun _ _ _ F0x G1), (fin_fun _ _ _ F0y G2) in Ev. fold (len vx1 vy1) in BV.
        apply Rabs_le_inv in Ev. lra.
  Qed.

  (** From one frame to the next. *)
  Lemma bicycle_frames32 n T c pol (s : state (S := S32)) k s' i X V C P t :
    wf_scenario n T s -> run_policy (InvertibleBicycleModel q) c pol s k = Ok s' ->
    (1 <= c_init_steps c)%nat -> (c_init_steps c + k <= T)%nat -> (i < n)%nat -> in_control c s i ->
    (forall s1 a, pol s1 = Ok a -> Forall not_nan2 a) ->
    (forall t l, at2 (s_log s) i t = Some l -> (t < c_init_steps c + k)%nat -> bounded32 X V l) ->
    1 <= C <= 2 ^ 40 -> 1 <= P <= 2 ^ 60 ->
    V + INR k * (A * d + C / 2 ^ 19) <= C ->
    X + INR k * (C * d + A * (d * d) + P / 2 ^ 20) <= P ->
    (c_init_steps c <= t < c_init_steps c + k)%nat ->
    exists p p' v v' w, at2 (s_sim s') i (t - 1) = Some p /\ at2 (s_sim s') i t = Some p' /\
      speed32 p v /\ speed32 p' v' /\ Rabs (v' - v) <= A * d + C / 2 ^ 19 /\
      fin (p_yaw p') w /\ - pi32 <= w < pi32.
  Proof.
    intros W H HI HL Hi HC0 HP HB HC HPP HV HX Ht.
    destruct (bicycle_episode32 n T c pol s k s' i X V C P W H HI HL Hi HP HB HC HPP HV HX (t - 1)%nat ltac:(lia))
      as (p & Ep & Bp).
    replace (t - 1 + 1 - c_init_steps c)%nat with (t - c_init_steps c)%nat in Bp by lia.
    destruct (policy_frames n T _ _ _ _ _ _ W H HI HL (t - c_init_steps c) ltac:(lia))
      as (s1 & a & cur & us & K1 & K2 & K3 & K4 & K5 & K6 & K7 & K8 & K9 & K10).
    destruct (K10 i Hi) as (J1 & J2 & u & p0 & nxt & ctrl & Eu & Ep0 & En & Ec & Ef).
    replace (c_init_steps c + (t - c_init_steps c))%nat with t in * by lia.
    assert (p0 = p) as ->. { rewrite Ep0 in J1. rewrite <- J2 in J1 by lia. congruence. }
    assert (ctrl = true) as -> by now apply Ec.
    destruct (nth_error_lt_Some a i) as [ai Eai]; [rewrite K6; exact Hi|].
    destruct (per_object_Ok _ _ _ _ K9) as (_ & _ & PO).
    destruct (PO i _ _ Eai Ep0) as (u' & EU & En'). assert (u' = u) as -> by congruence.
    assert (Nai : not_nan2 ai).
    { pose proof (HP _ _ K5) as FA. rewrite Forall_forall in FA. apply FA. eapply nth_error_In; eauto. }
    set (gv := A * d + C / 2 ^ 19) in *. set (gx := C * d + A * (d * d) + P / 2 ^ 20) in *.
    assert (AD : 0 <= A * d) by (apply Rmult_le_pos; lra).
    assert (CD : 0 <= C * d) by (apply Rmult_le_pos; lra).
    assert (AD2 : 0 <= A * (d * d)) by (apply Rmult_le_pos; [lra | nra]).
    assert (C19 : 0 <= C / 2 ^ 19) by (apply Rle_mult_inv_pos; [lra | apply pow_lt; lra]).
    assert (P20 : 0 <= P / 2 ^ 20) by (apply Rle_mult_inv_pos; [lra | apply pow_lt; lra]).
    assert (GV : 0 <= gv) by (unfold gv; lra). assert (GX : 0 <= gx) by (unfold gx; lra).
    assert (Jk : INR (t - c_init_steps c) + 1 <= INR k).
    { change 1 with (INR 1). rewrite <- plus_INR. apply le_INR. lia. }
    assert (Jx := Rmult_le_compat_r _ _ _ GX Jk). assert (Jv := Rmult_le_compat_r _ _ _ GV Jk).
    destruct (bicycle_step32 lm TR q d A St Hd HA HS D1 (proj1 A1) S1 ai p _ _ C P Nai Bp HC
                (proj2 A1)) as (u' & x & y & w & vx & vy & vx0 & vy0 & EU' & Fx & Fy & Fw & Fvx & Fvy & Bx & By & Bw & F0x & F0y & Ev);
        [unfold gv in *; lra | exact HPP | unfold gx in *; lra |].
    assert (u' = u) as -> by congruence.
    exists p. eexists. exists (len vx0 vy0), (len vx vy), w.
    split; [exact Ep|]. split; [exact Ef|]. cbn [next_pt p_vx p_vy p_yaw].
    split; [exists vx0, vy0; auto|]. split; [exists vx, vy; auto|]. split; [exact Ev|]. split; [exact Fw | exact Bw].
  Qed.
End Bicycle.

Section Delta.
  Variable lm : libm.
  Notation S32 := (F32 lm).
  Variables (q : delta_params (S := S32)) (d : R).
  Hypothesis Hd : fin (dl_dt q) d.
  Hypothesis D1 : 0 < d.

  Lemma delta_episode32 n T c pol (s : state (S := S32)) k s' i X V M P :
    wf_scenario n T s -> run_policy (DeltaGlobal q) c pol s k = Ok s' ->
    (1 <= c_init_steps c)%nat -> (c_init_steps c + k <= T)%nat -> (i < n)%nat ->
    (forall s1 a, pol s1 = Ok a -> Forall (delta32 M) a) ->
    (forall t l, at2 (s_log s) i t = Some l -> (t < c_init_steps c + k)%nat -> within32 X V l) ->
    1 <= P <= 2 ^ 60 -> 0 <= M -> 1 <= V <= 2 ^ 60 -> 4 * M <= V * d ->
    X + INR k * (M + P / 2 ^ 20) <= P ->
    forall t, (t < c_init_steps c + k)%nat ->
      exists p, at2 (s_sim s') i t = Some p /\ within32 (X + INR (t + 1 - c_init_steps c) * (M + P / 2 ^ 20)) V p.
  Proof.
    intros W H HI HL Hi HP HB HPP HM HV HMV HX.
    set (g := M + P / 2 ^ 20) in *.
    assert (P20 : 0 <= P / 2 ^ 20) by (apply Rle_mult_inv_pos; [lra | apply pow_lt; lra]).
    assert (G : 0 <= g) by (unfold g; lra).
    assert (U : u32 = / 16777216) by reflexivity. pose proof tiny_small as TS.
    assert (T1 : tiny <= / 2 ^ 30) by (simpl in *; lra).
    assert (K60 : forall r, Rabs r <= 2 ^ 60 -> Rabs r <= b32 127).
    { intros r Hr. apply cap127. eapply Rle_trans; [exact Hr|]. apply Rle_pow; [lra | lia]. }
    assert (Sum : forall (a b : f32) ra rb Y, fin a ra -> fin b rb -> Rabs ra <= Y -> Rabs rb <= M -> Y + M <= P ->
              exists r, fin (fadd (Scalar := S32) a b) r /\ Rabs r <= Y + g).
    { intros a b ra rb Y Fa Fb Ba Bb HY. pose proof (abs_add _ _ _ _ Ba Bb) as S.
      exists (rnd (ra + rb)). split; [apply add_fin; auto; apply K60; lra|].
      assert (S' : Rabs (ra + rb) <= P) by lra. pose proof (rnd_cap _ _ S') as R.
      replace (rnd (ra + rb)) with ((ra + rb) + (rnd (ra + rb) - (ra + rb))) by ring.
      pose proof (abs_add _ _ _ _ S R) as Z. unfold g. replace (P / 2 ^ 20) with (P / 1048576) by (simpl; lra).
      rewrite U in Z. simpl in T1. lra. }
    assert (Quo : forall (a : f32) ra, fin a ra -> Rabs ra <= M ->
              exists r, fin (fdiv (Scalar := S32) a (dl_dt q)) r /\ Rabs r <= V / 2).
    { intros a ra Fa Ba. assert (B : Rabs (ra / d) <= V / 4).
      { unfold Rdiv. rewrite Rabs_mult, (Rabs_pos_eq (/ d)) by (left; now apply Rinv_0_lt_compat).
        apply Rmult_le_reg_r with d; [exact D1|]. rewrite Rmult_assoc, Rinv_l, Rmult_1_r by lra. lra. }
      exists (rnd (ra / d)). split; [apply div_fin; auto; [lra | apply K60; lra]|].
      pose proof (rnd_cap _ _ B) as R. replace (rnd (ra / d)) with (ra / d + (rnd (ra / d) - ra / d)) by ring.
      pose proof (abs_add _ _ _ _ B R) as Z. rewrite U in Z. simpl in T1. lra. }
    apply (policy_induct (delta_global_update q) (delta_global_inverse q) n T c pol s k s' (delta32 M) i
             (fun j p => within32 (X + INR j * g) V p) W H HI HL Hi HP).
    - intros j t l El Ht Hj. pose proof (pos_INR j). assert (0 <= INR j * g) by (apply Rmult_le_pos; lra).
      destruct (HB _ _ El Ht) as (x & y & w & vx & vy & F1 & F2 & F3 & F4 & F5 & B1 & B2 & B3 & B4).
      exists x, y, w, vx, vy. repeat (split; [assumption || lra|]). exact B4.
    - intros j p l a u b inj Hj (x & y & w & vx & vy & F1 & F2 & F3 & F4 & F5 & B1 & B2 & B3 & B4) Bl
        (dx & dy & dw & rx & ry & rw & Ed & Fx & Fy & Fw & Bx & By & Bw) Eu.
      destruct b; [|destruct Bl as (xl & yl & wl & vxl & vyl & L); exists xl, yl, wl, vxl, vyl; exact L].
      unfold delta_global_update in Eu. rewrite Ed in Eu.
      assert (u = mkupd (S := S32) (fadd (Scalar := S32) (p_x p) dx) (fadd (Scalar := S32) (p_y p) dy) (fadd (Scalar := S32) (p_yaw p) dw)
              (fdiv (Scalar := S32) dx (dl_dt q)) (fdiv (Scalar := S32) dy (dl_dt q)) (p_valid p && a_valid a)) as -> by congruence.
      rewrite plus_INR. change (INR 1) with 1.
      assert (Jk : INR j + 1 <= INR k).
      { change 1 with (INR 1). rewrite <- plus_INR. apply le_INR. lia. }
      assert (Jx : (INR j + 1) * g <= INR k * g) by (apply Rmult_le_compat_r; lra).
      assert (Room : X + INR j * g + M <= P) by (unfold g in *; lra).
      destruct (Sum _ _ _ _ _ F1 Fx B1 Bx Room) as (x' & G1 & C1).
      destruct (Sum _ _ _ _ _ F2 Fy B2 By Room) as (y' & G2 & C2).
      destruct (Sum _ _ _ _ _ F3 Fw B3 Bw Room) as (w' & G3 & C3).
      destruct (Quo _ _ Fx Bx) as (vx' & G4 & C4). destruct (Quo _ _ Fy By) as (vy' & G5 & C5).
      exists x', y', w', vx', vy'. cbn [next_pt p_x p_y p_yaw p_vx p_vy u_x u_y u_yaw u_vx u_vy].
      split; [exact G1|]. split; [exact G2|]. split; [exact G3|]. split; [exact G4|]. split; [exact G5|].
      split; [lra|]. split; [lra|]. split; [lra|].
      pose proof (len_triangle 0 0 vx' vy') as Tr. rewrite !Rminus_0_r in Tr.
      assert (Z0 : len 0 0 = 0) by (unfold len; replace (0 * 0 + 0 * 0) with 0 by ring; apply sqrt_0).
      rewrite Z0 in Tr. apply Rabs_le_inv in Tr. fold (len vx' vy'). lra.
  Qed.
End Delta.
