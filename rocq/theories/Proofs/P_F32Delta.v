(** Closed-loop expert control under DeltaGlobal, frame by frame for every number
    type, and its rounding errors in float32. *)
From Coq Require Import List ZArith Reals Lra Lia Bool.
From Verif.Lib Require Import Base JaxIndex Scalar.
From Verif.Model Require Import Operations State Dynamics BaseEnv Geometry Dyn_State Dyn_Delta Expert.
From Verif.Spec Require Import StateSpec DynSpec.
From Verif.Proofs Require Import Core Episode P_Step P_Actions P_Expert P_Delta.
Import ListNotations.
Local Open Scope nat_scope.

Section Any.
  Context {S : Scalar}.

  Lemma delta_inverse_frames q n T tr ms (t : nat) :
    rect n T tr -> t + 1 < T ->
    exists acts, d_inverse (DeltaGlobal q) tr ms (Z.of_nat t) = Ok acts /\ length acts = n /\
      forall i p0 p1, i < n -> at2 tr i t = Some p0 -> at2 tr i (t + 1) = Some p1 ->
        nth_error acts i = Some (delta_global_inverse1 q p0 p1).
  Proof.
    intros R Ht. simpl. unfold delta_global_inverse.
    destruct (two_frames_Ok n T tr t R Ht) as (ps & Hp & Lp & Ap). rewrite Hp; simpl.
    eexists. split; [reflexivity|]. rewrite map_length. split; auto.
    intros i p0 p1 Hi E0 E1. rewrite nth_error_map, (Ap i p0 p1) by auto. reflexivity.
  Qed.

  (** One closed-loop step of an object present before and in the next log frame:
      it has the logged pose if it is not controlled, else it is displaced by the
      clipped difference. *)
  Definition displaced (q : delta_params) (p l p' : pt) : Prop :=
    p_x p' = fadd (p_x p) (fclip (fsub (p_x l) (p_x p)) (fopp (dl_mx q)) (dl_mx q)) /\
    p_y p' = fadd (p_y p) (fclip (fsub (p_y l) (p_y p)) (fopp (dl_my q)) (dl_my q)) /\
    p_yaw p' = fadd (p_yaw p) (wrap_yaws (fsub (p_yaw l) (p_yaw p))).

  Lemma expert_delta_frame q n T c s k s' i t p l :
    wf_scenario n T s ->
    run_policy (DeltaGlobal q) c (infer_expert_action (DeltaGlobal q)) s k = Ok s' ->
    1 <= c_init_steps c -> c_init_steps c + k <= T -> i < n ->
    c_init_steps c <= t < c_init_steps c + k ->
    at2 (s_sim s') i (t - 1) = Some p -> p_valid p = true ->
    at2 (s_log s) i t = Some l -> p_valid l = true ->
    exists p', at2 (s_sim s') i t = Some p' /\ p_valid p' = true /\
      (p_x p' = p_x l /\ p_y p' = p_y l /\ p_yaw p' = p_yaw l \/ displaced q p l p').
  Proof.
    intros W H HI HL Hi Ht Ep Vp El Vl.
    destruct (policy_frames n T _ _ _ _ _ _ W H HI HL (t - c_init_steps c) ltac:(lia))
      as (s1 & a & cur & us & K1 & K2 & K3 & K4 & K5 & K6 & K7 & K8 & K9 & K10).
    destruct (K10 i Hi) as (J1 & J2 & u & p' & nxt & ctrl & Eu & Ep' & En & Ec & Ef).
    replace (c_init_steps c + (t - c_init_steps c)) with t in * by lia.
    assert (EPP : p' = p).
    { rewrite Ep' in J1. rewrite <- J2 in J1 by lia. congruence. }
    subst p'. assert (nxt = l) as -> by congruence.
    destruct (expert_frames n T (DeltaGlobal q) s1 (t - 1) K2) as (comb & Ei & Rc & Fc); [lia|lia|].
    rewrite Ei in K5. replace (t - 1 + 1) with t in Fc by lia.
    destruct (delta_inverse_frames q n 2 comb (s_meta s1) 0 Rc ltac:(lia)) as (acts & Ea & Lac & Aac).
    change (Z.of_nat 0) with 0%Z in Ea. assert (acts = a) as -> by congruence.
    destruct (Fc i Hi) as [F0 F1].
    assert (E0 : at2 comb i 0 = Some p) by (rewrite F0, <- J2; [exact Ep|lia]).
    assert (E1 : at2 comb i 1 = Some l) by (rewrite F1; destruct K3 as (-> & _); exact El).
    specialize (Aac i p l Hi E0 E1).
    destruct (per_object_Ok _ _ _ _ K9) as (_ & _ & PO).
    destruct (PO i _ _ Aac Ep') as (u' & EU & En').
    assert (u' = u) as -> by congruence.
    unfold delta_global_inverse1 in EU. rewrite Vp, Vl in EU.
    cbn [andb where_ delta_clip delta_global_update a_data a_valid] in EU.
    injection EU as <-. eexists. split; [exact Ef|]. split.
    { unfold next_pt, next_valid; cbn [p_valid]. rewrite Vp, Vl.
      destruct ctrl; simpl; destruct (c_allow_new_objects c); simpl; rewrite ?Vp; reflexivity. }
    unfold next_pt, displaced; cbn [p_x p_y p_yaw u_x u_y u_yaw].
    destruct ctrl; [right | left]; auto.
  Qed.

  Lemma expert_delta_first q n T c s k s' i t l :
    wf_scenario n T s ->
    run_policy (DeltaGlobal q) c (infer_expert_action (DeltaGlobal q)) s k = Ok s' ->
    1 <= c_init_steps c -> c_init_steps c + k <= T -> i < n -> t < c_init_steps c ->
    at2 (s_log s) i t = Some l -> at2 (s_sim s') i t = Some l.
  Proof.
    intros W H HI HL Hi Ht El.
    destruct (run_policy_episode _ _ _ _ _ _ H) as (acts & La & HE).
    destruct (episode_basic _ _ _ _ _ _ _ W HE ltac:(lia)) as (_ & _ & _ & _ & F & _).
    rewrite F by lia. exact El.
  Qed.

  Lemma expert_delta_runs_any q n T c s k :
    wf_scenario n T s -> c_max_num_objects c = n -> c_controlled c <> NON_SDC ->
    1 <= c_init_steps c -> c_init_steps c + k <= T ->
    exists s', run_policy (DeltaGlobal q) c (infer_expert_action (DeltaGlobal q)) s k = Ok s'.
  Proof.
    intros W HM HC HI. induction k as [|k IH]; intros HL.
    - destruct W as (R & Lm & Hn & HT).
      destruct (env_reset_total n T c s) as [s' H]; auto; [lia|].
      exists s'. now apply run_policy_0.
    - destruct IH as [s1 H1]; [lia|].
      destruct (run_policy_episode _ _ _ _ _ _ H1) as (acts & La & HE).
      destruct (episode_basic _ _ _ _ _ _ _ W HE ltac:(lia)) as (W1 & SC & _ & Et & _).
      destruct (expert_frames n T (DeltaGlobal q) s1 (c_init_steps c + k - 1) W1) as (comb & Ei & Rc & Fc); [lia|lia|].
      destruct (delta_inverse_frames q n 2 comb (s_meta s1) 0 Rc ltac:(lia)) as (a & Ea & Lac & Aac).
      assert (Ea' : infer_expert_action (DeltaGlobal q) s1 = Ok a) by (rewrite Ei; exact Ea).
      destruct (env_step_total n T (DeltaGlobal q) c s1 a _ W1 HC (delta_global_total _)) as [s' Hs]; auto.
      + apply Forall_forall. intros x Hx. apply In_nth_error in Hx as [i Hi].
        assert (Li : i < n) by (rewrite <- Lac; eapply nth_error_Some_lt; eauto).
        destruct (rect_at2 n 2 comb i 0 Rc Li) as [p Ep]; [lia|].
        destruct (rect_at2 n 2 comb i 1 Rc Li) as [p' Ep']; [lia|].
        rewrite (Aac i p p' Li Ep Ep') in Hi. injection Hi as <-. reflexivity.
      + exists s'. apply run_policy_snoc. eauto.
  Qed.
End Any.

(* ---------------- float32 ---------------- *)
From Flocq Require Import Core.Raux IEEE754.BinarySingleNaN.
From Verif.Lib Require Import F32.
From Verif.Spec Require Import F32Spec.
From Verif.Proofs Require Import P_F32 P_F32Wrap.
Open Scope R_scope.

(** The clip does nothing to a value within the limits. *)
Lemma clip32_fin lm (x m : f32) r mr :
  fin x r -> fin m mr -> Rabs r <= mr -> fin (fclip (S := F32 lm) x (Bopp m) m) r.
Proof.
  intros X M H. apply Rabs_le_inv in H. unfold fclip. simpl.
  pose proof (min_fin _ _ _ _ (max_fin _ _ _ _ X (opp_fin _ _ M)) M) as R.
  rewrite Rmax_left, Rmin_left in R by lra. exact R.
Qed.

Lemma bpow_double e : 2 * b32 e = b32 (e + 1).
Proof. rewrite bpow_plus. change (b32 1) with 2. ring. Qed.

(** One coordinate of one step. *)
Lemma step_coord lm (x l m : f32) a b mr :
  fin x a -> fin l b -> fin m mr -> Rabs (b - a) <= mr -> mr <= b32 100 -> Rabs b <= b32 100 ->
  exists r, fin (fadd (Scalar := F32 lm) x (fclip (fsub (Scalar := F32 lm) l x) (Bopp m) m)) r /\
    Rabs (r - b) <= u32 * (Rabs b + 2 * mr) /\
    (rep (b - a) -> r = b).
Proof.
  intros X L M D B1 B2.
  assert (P : forall e, (e < 127)%Z -> b32 e < b32 127) by (intros; now apply bpow_lt).
  assert (S1 : fin (Bminus mode_NE l x) (rnd (b - a))).
  { apply sub_fin; auto. pose proof (P 100%Z ltac:(lia)). lra. }
  assert (Bd : Rabs (rnd (b - a)) <= mr) by (apply rnd_abs; [eapply fin_rep; eauto | exact D]).
  pose proof (clip32_fin lm _ _ _ _ S1 M Bd) as C.
  assert (Rx := fin_rep _ _ X). assert (Rl := fin_rep _ _ L).
  assert (Ed := sub_err b a Rl Rx).
  assert (U : 0 < u32 < 1 / 1000) by (unfold u32; lra).
  assert (Hm : 0 <= mr) by (pose proof (Rabs_pos (b - a)); lra).
  assert (Es : Rabs (a + rnd (b - a)) <= Rabs b + u32 * mr).
  { replace (a + rnd (b - a)) with (b + (rnd (b - a) - (b - a))) by ring.
    eapply Rle_trans; [apply Rabs_triang|]. apply Rplus_le_compat_l.
    eapply Rle_trans; [exact Ed|]. apply Rmult_le_compat_l; lra. }
  assert (S2 : fin (Bplus mode_NE x (fclip (S := F32 lm) (Bminus mode_NE l x) (Bopp m) m)) (rnd (a + rnd (b - a)))).
  { apply add_fin; auto. eapply Rle_trans; [exact Es|].
    assert (u32 * mr <= 1 * mr) by (apply Rmult_le_compat_r; lra).
    pose proof (bpow_double 100). pose proof (P 101%Z ltac:(lia)). simpl Z.add in *. lra. }
  exists (rnd (a + rnd (b - a))). split; [exact S2|]. split.
  - assert (Ea := add_err a (rnd (b - a)) Rx (rnd_rep _)).
    replace (rnd (a + rnd (b - a)) - b)
      with ((rnd (a + rnd (b - a)) - (a + rnd (b - a))) + (rnd (b - a) - (b - a))) by ring.
    eapply Rle_trans; [apply Rabs_triang|].
    assert (u32 * Rabs (a + rnd (b - a)) <= u32 * (Rabs b + u32 * mr)) by (apply Rmult_le_compat_l; lra).
    assert (u32 * Rabs (b - a) <= u32 * mr) by (apply Rmult_le_compat_l; lra).
    assert (u32 * (u32 * mr) <= u32 * mr).
    { apply Rmult_le_compat_l; [lra|]. replace mr with (1 * mr) at 2 by ring. apply Rmult_le_compat_r; lra. }
    lra.
  - intros G. rewrite (rnd_id (b - a)) by exact G. replace (a + (b - a)) with b by ring. apply rnd_id, Rl.
Qed.

(** Induction over the frames of a closed-loop replay of one object. *)
Section Replay.
  Variable lm : libm.
  Notation S32 := (F32 lm).
  Variables (q : delta_params (S := S32)) (n T : nat) (c : envcfg) (s : state (S := S32)) (k : nat)
    (s' : state (S := S32)) (i : nat).
  Hypothesis W : wf_scenario n T s.
  Hypothesis H : run_policy (DeltaGlobal q) c (infer_expert_action (DeltaGlobal q)) s k = Ok s'.
  Hypothesis HI : (1 <= c_init_steps c)%nat.
  Hypothesis HL : (c_init_steps c + k <= T)%nat.
  Hypothesis Hi : (i < n)%nat.
  Variable lg : nat -> pt (S := S32).
  Hypothesis Lg : forall t, (c_init_steps c - 1 <= t < c_init_steps c + k)%nat ->
    at2 (s_log s) i t = Some (lg t) /\ p_valid (lg t) = true.

  Lemma replay_ind (P : nat -> f32 -> f32 -> f32 -> Prop) :
    (forall t, (c_init_steps c - 1 <= t < c_init_steps c + k)%nat ->
       P t (p_x (lg t)) (p_y (lg t)) (p_yaw (lg t))) ->
    (forall t (p p' : pt (S := S32)), (c_init_steps c <= t < c_init_steps c + k)%nat ->
       P (t - 1)%nat (p_x p) (p_y p) (p_yaw p) -> displaced q p (lg t) p' ->
       P t (p_x p') (p_y p') (p_yaw p')) ->
    forall t, (c_init_steps c - 1 <= t < c_init_steps c + k)%nat ->
      exists p : pt (S := S32), at2 (s_sim s') i t = Some p /\ p_valid p = true /\ P t (p_x p) (p_y p) (p_yaw p).
  Proof.
    intros P0 P1.
    assert (Q : forall j, (j <= k)%nat -> exists p : pt (S := S32), at2 (s_sim s') i (c_init_steps c + j - 1) = Some p /\
      p_valid p = true /\ P (c_init_steps c + j - 1)%nat (p_x p) (p_y p) (p_yaw p)).
    2:{ intros t Ht. destruct (Q (t + 1 - c_init_steps c)%nat) as (p & E); [lia|].
        replace (c_init_steps c + (t + 1 - c_init_steps c) - 1)%nat with t in E by lia. eauto. }
    induction j as [|j IH]; intros Hj.
    - rewrite Nat.add_0_r. destruct (Lg (c_init_steps c - 1)%nat) as [El Vl]; [lia|].
      exists (lg (c_init_steps c - 1)%nat). split; [|split; [exact Vl | apply P0; lia]].
      eapply expert_delta_first; eauto. lia.
    - destruct IH as (p & Ep & Vp & Pp); [lia|].
      replace (c_init_steps c + Datatypes.S j - 1)%nat with (c_init_steps c + j)%nat by lia.
      destruct (Lg (c_init_steps c + j)%nat) as [El Vl]; [lia|].
      destruct (expert_delta_frame q n T c s k s' i (c_init_steps c + j) p (lg (c_init_steps c + j)%nat))
        as (p' & E' & V' & D); auto; [lia|].
      exists p'. split; [exact E'|]. split; [exact V'|]. destruct D as [(-> & -> & ->)|D].
      + apply P0. lia.
      + apply (P1 _ p p'); auto. lia.
  Qed.

  Variables lx ly lyaw : nat -> R.
  Variables mx my M : R.

  Lemma replay_position :
    (forall t, (c_init_steps c - 1 <= t < c_init_steps c + k)%nat ->
       fin (p_x (lg t)) (lx t) /\ fin (p_y (lg t)) (ly t) /\ Rabs (lx t) <= M /\ Rabs (ly t) <= M) ->
    fin (dl_mx q) mx -> fin (dl_my q) my -> 0 <= mx <= b32 100 -> 0 <= my <= b32 100 -> M <= b32 100 ->
    (forall t, (c_init_steps c <= t < c_init_steps c + k)%nat ->
       Rabs (lx t - lx (t - 1)%nat) + u32 * (M + 2 * mx) <= mx /\
       Rabs (ly t - ly (t - 1)%nat) + u32 * (M + 2 * my) <= my) ->
    forall t, (c_init_steps c - 1 <= t < c_init_steps c + k)%nat ->
      exists (p : pt (S := S32)) x y, at2 (s_sim s') i t = Some p /\ p_valid p = true /\
        fin (p_x p) x /\ fin (p_y p) y /\
        Rabs (x - lx t) <= u32 * (M + 2 * mx) /\ Rabs (y - ly t) <= u32 * (M + 2 * my).
  Proof.
    intros L Fx Fy Bx By BM D t Ht.
    assert (U : 0 < u32) by (unfold u32; lra).
    assert (M0 : 0 <= M).
    { destruct (L t Ht) as (_ & _ & A & _). pose proof (Rabs_pos (lx t)). lra. }
    destruct (replay_ind (fun t a b _ => exists x y, fin a x /\ fin b y /\
       Rabs (x - lx t) <= u32 * (M + 2 * mx) /\ Rabs (y - ly t) <= u32 * (M + 2 * my))) with (t := t)
      as (p & Ep & Vp & x & y & E); [| | exact Ht | exists p, x, y; auto].
    - intros t' Ht'. destruct (L t' Ht') as (A & B & _). exists (lx t'), (ly t').
      split; [exact A|]. split; [exact B|].
      unfold Rminus. rewrite !Rplus_opp_r, Rabs_R0. split; apply Rmult_le_pos; lra.
    - intros t' p p' Ht' (x & y & Hx & Hy & Ex & Ey) (Dx & Dy & _).
      destruct (L t') as (Lx & Ly & Mx & My); [lia|]. destruct (D t' Ht') as [D1 D2].
      destruct (step_coord lm _ _ _ _ _ _ Hx Lx Fx) as (x' & Rx & Bx' & _); [|lra|lra|].
      { replace (lx t' - x) with ((lx t' - lx (t' - 1)%nat) - (x - lx (t' - 1)%nat)) by ring.
        eapply Rle_trans; [apply Rabs_triang|]. rewrite Rabs_Ropp. lra. }
      destruct (step_coord lm _ _ _ _ _ _ Hy Ly Fy) as (y' & Ry & By' & _); [|lra|lra|].
      { replace (ly t' - y) with ((ly t' - ly (t' - 1)%nat) - (y - ly (t' - 1)%nat)) by ring.
        eapply Rle_trans; [apply Rabs_triang|]. rewrite Rabs_Ropp. lra. }
      exists x', y'. rewrite Dx, Dy. split; [exact Rx|]. split; [exact Ry|].
      split; (eapply Rle_trans; [eassumption|]; apply Rmult_le_compat_l; lra).
  Qed.

  Lemma rep_away a b : rep a -> rep b -> away_from_origin a b -> rep (b - a).
  Proof.
    intros Ra Rb [A B]. unfold Rabs in A, B.
    destruct (Rle_lt_dec 0 a); destruct (Rle_lt_dec 0 b).
    - apply rep_sterbenz; auto. repeat destruct (Rcase_abs _); lra.
    - repeat destruct (Rcase_abs _); lra.
    - repeat destruct (Rcase_abs _); lra.
    - replace (b - a) with (- a - - b) by ring. apply rep_sterbenz; auto using rep_opp.
      repeat destruct (Rcase_abs _); lra.
  Qed.

  Lemma replay_exact :
    (forall t, (c_init_steps c - 1 <= t < c_init_steps c + k)%nat ->
       fin (p_x (lg t)) (lx t) /\ fin (p_y (lg t)) (ly t) /\ Rabs (lx t) <= b32 100 /\ Rabs (ly t) <= b32 100) ->
    fin (dl_mx q) mx -> fin (dl_my q) my -> mx <= b32 100 -> my <= b32 100 ->
    (forall t, (c_init_steps c <= t < c_init_steps c + k)%nat ->
       Rabs (lx t - lx (t - 1)%nat) <= mx /\ Rabs (ly t - ly (t - 1)%nat) <= my /\
       away_from_origin (lx (t - 1)%nat) (lx t) /\ away_from_origin (ly (t - 1)%nat) (ly t)) ->
    forall t, (c_init_steps c - 1 <= t < c_init_steps c + k)%nat ->
      exists p : pt (S := S32), at2 (s_sim s') i t = Some p /\ p_valid p = true /\
        fin (p_x p) (lx t) /\ fin (p_y p) (ly t).
  Proof.
    intros L Fx Fy Bx By D t Ht.
    apply (replay_ind (fun t a b _ => fin a (lx t) /\ fin b (ly t))); [| | exact Ht].
    - intros t' Ht'. destruct (L t' Ht') as (A & B & _). auto.
    - intros t' p p' Ht' (Hx & Hy) (Dx & Dy & _).
      destruct (L t') as (Lx & Ly & Mx & My); [lia|]. destruct (D t' Ht') as (D1 & D2 & D3 & D4).
      destruct (step_coord lm _ _ _ _ _ _ Hx Lx Fx) as (x' & Rx & _ & Ex); [lra|lra|lra|].
      destruct (step_coord lm _ _ _ _ _ _ Hy Ly Fy) as (y' & Ry & _ & Ey); [lra|lra|lra|].
      rewrite Dx, Dy. rewrite Ex in Rx by (apply rep_away; eauto using fin_rep).
      rewrite Ey in Ry by (apply rep_away; eauto using fin_rep). auto.
  Qed.

  (** One step of the heading. *)
  Lemma step_yaw (x l : f32) a b A Y :
    fin x a -> fin l b -> Rabs a <= A -> Rabs b <= Y -> A <= 1000000 -> Y <= 1000000 ->
    exists w (j : Z), fin (fadd (Scalar := S32) x (wrap_yaws (S := S32) (fsub (Scalar := S32) l x))) w /\
      Rabs (w - (b + IZR j * (2 * pi32))) <= u32 * (4 * A + 3 * Y + 16) /\ Rabs w <= A + 4.
  Proof.
    intros X L HA HY BA BY. pose proof pi32_val as P.
    assert (U : u32 = / 16777216) by reflexivity.
    pose proof (Rabs_pos a) as A0. pose proof (Rabs_pos b) as B0.
    assert (HA' := HA). assert (HY' := HY). apply Rabs_le_inv in HA', HY'.
    assert (D0 : Rabs (b - a) <= A + Y) by (apply Rabs_le; lra).
    assert (S1 : fin (Bminus mode_NE l x) (rnd (b - a))).
    { apply sub_fin; auto. apply Rle_trans with (b32 21); [|apply bpow_le; lia].
      change (b32 21) with 2097152. lra. }
    assert (E1 := sub_err b a (fin_rep _ _ L) (fin_rep _ _ X)).
    assert (E1' : Rabs (rnd (b - a) - (b - a)) <= u32 * (A + Y)).
    { eapply Rle_trans; [exact E1|]. apply Rmult_le_compat_l; lra. }
    destruct (wrap_near lm _ _ S1) as (k0 & w & Ww & Rw & Ew).
    assert (D1 : Rabs (rnd (b - a)) <= 2 * (A + Y)).
    { replace (rnd (b - a)) with ((rnd (b - a) - (b - a)) + (b - a)) by ring.
      eapply Rle_trans; [apply Rabs_triang|]. rewrite U in E1'. lra. }
    assert (Ew' : Rabs (w - (rnd (b - a) - IZR k0 * (2 * pi32))) <= u32 * (2 * (A + Y) + 4 * pi32)).
    { eapply Rle_trans; [exact Ew|]. apply Rmult_le_compat_l; lra. }
    assert (D2 : Rabs (a + w) <= A + pi32) by (apply Rabs_le; lra).
    assert (E2 := add_err a w (fin_rep _ _ X) (fin_rep _ _ Ww)).
    assert (E2' : Rabs (rnd (a + w) - (a + w)) <= u32 * (A + pi32)).
    { eapply Rle_trans; [exact E2|]. apply Rmult_le_compat_l; lra. }
    exists (rnd (a + w)), (- k0)%Z. split.
    { apply (add_fin _ _ _ _ X Ww). apply Rle_trans with (b32 21); [|apply bpow_le; lia].
      change (b32 21) with 2097152. lra. }
    split.
    - rewrite opp_IZR.
      replace (rnd (a + w) - (b + - IZR k0 * (2 * pi32)))
        with ((rnd (a + w) - (a + w)) + ((w - (rnd (b - a) - IZR k0 * (2 * pi32))) + (rnd (b - a) - (b - a)))) by ring.
      eapply Rle_trans; [apply Rabs_triang|].
      pose proof (Rabs_triang (w - (rnd (b - a) - IZR k0 * (2 * pi32))) (rnd (b - a) - (b - a))).
      assert (u32 * (5 * pi32) <= u32 * 16) by (apply Rmult_le_compat_l; unfold pi32; lra). lra.
    - replace (rnd (a + w)) with ((rnd (a + w) - (a + w)) + (a + w)) by ring.
      eapply Rle_trans; [apply Rabs_triang|]. rewrite U in E2'. unfold pi32 in *. lra.
  Qed.

  Lemma replay_heading Y :
    (forall t, (c_init_steps c - 1 <= t < c_init_steps c + k)%nat ->
       fin (p_yaw (lg t)) (lyaw t) /\ Rabs (lyaw t) <= Y) ->
    Y + 4 * INR k <= 1000000 ->
    forall t, (c_init_steps c - 1 <= t < c_init_steps c + k)%nat ->
      exists (p : pt (S := S32)) w (j : Z), at2 (s_sim s') i t = Some p /\ p_valid p = true /\ fin (p_yaw p) w /\
        Rabs (w - (lyaw t + IZR j * (2 * pi32))) <= u32 * (7 * (Y + 4 * INR (t + 1 - c_init_steps c)) + 16).
  Proof.
    intros L B t Ht. assert (U : 0 < u32) by (unfold u32; lra).
    assert (Y0 : 0 <= Y). { destruct (L t Ht) as (_ & A). pose proof (Rabs_pos (lyaw t)). lra. }
    destruct (replay_ind (fun t _ _ a => exists w (j : Z), fin a w /\
        Rabs w <= Y + 4 * INR (t + 1 - c_init_steps c) /\
        Rabs (w - (lyaw t + IZR j * (2 * pi32))) <= u32 * (7 * (Y + 4 * INR (t + 1 - c_init_steps c)) + 16))) with (t := t)
      as (p & Ep & Vp & w & j & E1 & E2 & E3); [| | exact Ht | exists p, w, j; auto].
    - intros t' Ht'. destruct (L t' Ht') as (A & C). exists (lyaw t'), 0%Z.
      pose proof (pos_INR (t' + 1 - c_init_steps c)). split; [exact A|]. split; [lra|].
      replace (lyaw t' - (lyaw t' + 0 * (2 * pi32))) with 0 by ring. rewrite Rabs_R0.
      apply Rmult_le_pos; lra.
    - intros t' p p' Ht' (w & j & Fw & Bw & _) (_ & _ & Dw).
      destruct (L t') as (Lw & Bl); [lia|].
      set (d := (t' - c_init_steps c)%nat).
      replace (t' - 1 + 1 - c_init_steps c)%nat with d in Bw by (unfold d; lia).
      replace (t' + 1 - c_init_steps c)%nat with (Datatypes.S d) by (unfold d; lia).
      rewrite S_INR. pose proof (pos_INR d).
      assert (INR d <= INR k) by (apply le_INR; unfold d; lia).
      destruct (step_yaw (p_yaw p) (p_yaw (lg t')) w (lyaw t') (Y + 4 * INR d) Y Fw Lw Bw Bl)
        as (w' & j' & F' & E' & B'); [lra|lra|].
      exists w', j'. rewrite Dw. split; [exact F'|]. split; [lra|].
      eapply Rle_trans; [exact E'|]. apply Rmult_le_compat_l; lra.
  Qed.
End Replay.
