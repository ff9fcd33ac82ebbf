(** Agents with a constant speed in float32: straight on, and along the logged route. *)
From Coq Require Import List ZArith Reals Lra Lia Bool.
From Flocq Require Import Core.Raux IEEE754.BinarySingleNaN.
From Verif.Lib Require Import Base JaxIndex Scalar F32.
From Verif.Model Require Import Operations State Dynamics BaseEnv Dyn_State Geometry Discretizer Comfort Metrics Actor Waypoint.
From Verif.Spec Require Import StateSpec GeomSpec DynSpec AgentSpec PlanSpec ClosedSpec F32Spec F32EpisodeSpec F32DriveSpec.
From Verif.Proofs Require Import Core P_Step Episode P_Metrics P_Expert P_Agents P_Plan P_Waypoint P_Drive P_Closed P_F32 P_F32Wrap P_F32Delta P_F32Bicycle P_F32Kim P_F32Special P_F32Overlap P_F32Idm P_F32Route.
Import ListNotations.
Open Scope R_scope.

(** * Straight on *)
Lemma const_frames {S : Scalar} {P X K} n T c none ctrl speed (p : P) (x : X) (key : option K) s s' k i :
  wf_scenario n T s ->
  run_policy (S := S) StateDynamics c (actor_policy (constant_speed_actor none StateDynamics ctrl speed) p x key) s k = Ok s' ->
  (1 <= c_init_steps c)%nat -> (c_init_steps c + k <= T)%nat -> (i < n)%nat -> in_control c s i ->
  (forall t, (t < c_init_steps c)%nat -> at2 (s_sim s') i t = at2 (s_log s) i t) /\
  forall j, (j < k)%nat -> exists q q' b,
    at2 (s_sim s') i (c_init_steps c - 1 + j) = Some q /\ at2 (s_sim s') i (c_init_steps c - 1 + Datatypes.S j) = Some q' /\
    let f := constant_speed_next speed b q in
    p_x q' = p_x f /\ p_y q' = p_y f /\ p_yaw q' = p_yaw f /\ p_vx q' = p_vx f /\ p_vy q' = p_vy f /\
    (p_valid q = true -> p_valid q' = true).
Proof.
  intros W H HI HL Hi IC. split.
  { intros t Ht. destruct (run_policy_episode _ _ _ _ _ _ H) as (acts & Lacts & HE).
    destruct (episode_basic _ _ _ _ _ _ _ W HE ltac:(lia)) as (_ & _ & _ & _ & F & _). apply F; lia. }
  intros j Hj.
  destruct (policy_frames n T _ _ _ _ _ _ W H HI HL j Hj) as (s1 & a & cur & us & R1 & W1 & SC & Et & Ha & La & Lc & Lu & Hu & Fr).
  destruct (Fr i Hi) as (Ecur & Past & u & q & nxt & ctl & Eu & Eq & En & Ic & Enew).
  assert (ctl = true) as -> by now apply Ic.
  assert (Est : at2 (s_sim s1) i (c_init_steps c + j - 1) = Some q) by congruence.
  destruct (constant_speed_actions n T StateDynamics none ctrl speed p x key s1 a
              (c_init_steps c + j - 1) W1 Et ltac:(lia) Ha i q Hi Est) as (b & Eai).
  destruct (per_object_Ok _ _ _ _ Hu) as (_ & _ & PO).
  destruct (PO i _ _ Eai Eq) as (u' & Eu' & Eun).
  assert (u' = u) as -> by congruence.
  unfold state_update in Eu'. cbn [a_data a_valid] in Eu'.
  assert (u = mkupd (p_x (constant_speed_next speed b q)) (p_y (constant_speed_next speed b q)) (p_yaw (constant_speed_next speed b q))
                    (p_vx (constant_speed_next speed b q)) (p_vy (constant_speed_next speed b q)) (p_valid (constant_speed_next speed b q))) as -> by congruence.
  exists q. eexists. exists b. split; [|split].
  - rewrite Past by lia. rewrite <- Est. f_equal. lia.
  - rewrite <- Enew. f_equal. lia.
  - cbv zeta. unfold next_pt. cbn [p_x p_y p_yaw p_vx p_vy p_valid u_x u_y u_yaw u_vx u_vy].
    repeat (split; [reflexivity|]). intros ->. destruct (c_allow_new_objects c); reflexivity.
Qed.

Section Straight.
  Variable lm : libm.
  Notation S32 := (F32 lm).
  Variables P C : R.
  Hypothesis PC : 1 <= C <= P /\ P <= 2 ^ 60.

  Lemma advance32 (x u : f32) a v : fin x a -> fin u v -> Rabs a <= P -> Rabs v <= C ->
    exists r, fin (fadd (Scalar := S32) x (fmul (Scalar := S32) u (time_interval (S := S32)))) r /\ Rabs (r - (a + v / 10)) <= P / 2 ^ 22.
  Proof.
    intros Fa Fv Ba Bv. pose proof tiny_small as TS. assert (U : u32 = / 16777216) by reflexivity.
    destruct (tenth_fin lm) as (d & Fd & Ed).
    assert (At : ap (time_interval (S := S32)) (1 / 10) (/ 100000000) (1 / 10)).
    { exists d. split; [exact Fd|]. split; [exact Ed | rewrite Rabs_pos_eq; lra]. }
    pose proof (ap_mul _ _ _ _ _ _ _ _ (ap_exact _ _ _ Fv Bv) At ltac:(lra)) as Am.
    destruct (ap_add _ _ _ _ _ _ _ _ (ap_exact _ _ _ Fa Ba) Am ltac:(rewrite U; lra)) as (r & Fr & Er & _).
    exists r. split; [exact Fr|]. replace (a + v / 10) with (a + v * (1 / 10)) by field.
    refine (Rle_trans _ _ _ Er _). rewrite U. lra.
  Qed.

  Definition kept32 (speed : option f32) (p0 : pt (S := S32)) : f32 * f32 :=
    match speed with None => (p_vx p0, p_vy p0)
    | Some v => (fmul (Scalar := S32) v (fcos (Scalar := S32) (p_yaw p0)), fmul (Scalar := S32) v (fsin (Scalar := S32) (p_yaw p0))) end.

  Lemma straight32 (sim : traj (S := S32)) a0 k i speed p0 x0 y0 ux uy X :
    (forall j, (j < k)%nat -> exists q q' b, at2 sim i (a0 + j) = Some q /\ at2 sim i (a0 + Datatypes.S j) = Some q' /\
       let f := constant_speed_next speed b q in
       p_x q' = p_x f /\ p_y q' = p_y f /\ p_yaw q' = p_yaw f /\ p_vx q' = p_vx f /\ p_vy q' = p_vy f /\ (p_valid q = true -> p_valid q' = true)) ->
    at2 sim i a0 = Some p0 -> p_valid p0 = true -> fin (p_x p0) x0 -> fin (p_y p0) y0 -> Rabs x0 <= X -> Rabs y0 <= X ->
    fin (fst (kept32 speed p0)) ux -> fin (snd (kept32 speed p0)) uy -> Rabs ux <= C -> Rabs uy <= C ->
    X + INR k * (C / 10 + P / 2 ^ 22) <= P ->
    forall j, (j <= k)%nat -> exists q x y, at2 sim i (a0 + j) = Some q /\ p_valid q = true /\ p_yaw q = p_yaw p0 /\
      (speed = None \/ (1 <= j)%nat -> p_vx q = fst (kept32 speed p0) /\ p_vy q = snd (kept32 speed p0)) /\
      fin (p_x q) x /\ fin (p_y q) y /\
      Rabs (x - (x0 + INR j * (ux / 10))) <= INR j * (P / 2 ^ 22) /\ Rabs (y - (y0 + INR j * (uy / 10))) <= INR j * (P / 2 ^ 22).
  Proof.
    intros Fr H0 V0 Fx Fy Bx By Fu Fv Bu Bv HX. induction j as [|j IH]; intros Hj.
    - exists p0, x0, y0. rewrite Nat.add_0_r. cbn [INR]. rewrite !Rmult_0_l, !Rplus_0_r, !Rminus_eq_0, Rabs_R0.
      split; [exact H0|]. split; [exact V0|]. split; [reflexivity|]. split; [|split; [exact Fx|]; split; [exact Fy|]; split; lra].
      intros [->|L]; [split; reflexivity | lia].
    - destruct IH as (q & x & y & Eq & V & Ey & Hv & Gx & Gy & Ex & Ez); [lia|].
      destruct (Fr j ltac:(lia)) as (q1 & q' & b & E1 & E2 & U1 & U2 & U3 & U4 & U5 & U6).
      assert (q1 = q) by congruence. subst q1.
      assert (Kv : p_vx (constant_speed_next speed b q) = fst (kept32 speed p0) /\ p_vy (constant_speed_next speed b q) = snd (kept32 speed p0)).
      { unfold constant_speed_next. cbn [p_vx p_vy]. destruct speed as [v|]; [|exact (Hv (or_introl eq_refl))].
        rewrite Ey. split; reflexivity. }
      destruct Kv as [K1 K2].
      assert (Jk : INR (Datatypes.S j) <= INR k) by (apply le_INR; lia). rewrite S_INR in *. pose proof (pos_INR j) as J0.
      assert (G : (INR j + 1) * (C / 10 + P / 2 ^ 22) <= INR k * (C / 10 + P / 2 ^ 22)) by (apply Rmult_le_compat_r; lra).
      assert (BB : forall z z0 u, Rabs z0 <= X -> Rabs u <= C -> Rabs (z - (z0 + INR j * (u / 10))) <= INR j * (P / 2 ^ 22) -> Rabs z <= P).
      { intros z z0 u A B D. assert (Q : Rabs (INR j * (u / 10)) <= INR j * (C / 10)).
        { rewrite Rabs_mult, (Rabs_pos_eq (INR j)) by lra. apply Rmult_le_compat_l; [lra|].
          apply Rabs_le_inv in B. apply Rabs_le. lra. }
        apply Rabs_le_inv in A, D, Q. apply Rabs_le. lra. }
      destruct (advance32 _ _ x ux Gx Fu (BB _ _ _ Bx Bu Ex) Bu) as (x' & Fx' & Ex').
      destruct (advance32 _ _ y uy Gy Fv (BB _ _ _ By Bv Ez) Bv) as (y' & Fy' & Ey').
      exists q', x', y'. split; [exact E2|]. split; [exact (U6 V)|]. split; [rewrite U3; exact Ey|].
      split; [intros _; rewrite U4, U5; split; assumption|].
      split; [rewrite U1; rewrite <- K1 in Fx'; exact Fx'|]. split; [rewrite U2; rewrite <- K2 in Fy'; exact Fy'|].
      split.
      + apply Rabs_le_inv in Ex, Ex'. apply Rabs_le. lra.
      + apply Rabs_le_inv in Ez, Ey'. apply Rabs_le. lra.
  Qed.
End Straight.

(** * Along the logged route *)
Section Follow.
  Variable lm : libm.
  Hypothesis AC : accurate32 lm.
  Notation S32 := (F32 lm).
  Variables P C : R.
  Hypothesis P1 : 1 <= P <= 2 ^ 14.
  Hypothesis C1 : 1 <= C <= P.
  Let P45 : 1 <= P <= 2 ^ 45. Proof. lra. Qed.

  Lemma dist_triangle a b c : dist a c <= dist a b + dist b c.
  Proof.
    destruct a as [ax ay], b as [bx b_], c as [cx cy]. rewrite !dist_len.
    pose proof (len_add (ax - bx) (ay - b_) (bx - cx) (b_ - cy)) as L.
    replace (ax - bx + (bx - cx)) with (ax - cx) in L by ring. replace (ay - b_ + (b_ - cy)) with (ay - cy) in L by ring. exact L.
  Qed.
  Lemma dist_sym a b : dist a b = dist b a.
  Proof. unfold dist. f_equal. ring. Qed.

  (** One step before the end of the route. *)
  Lemma follow32 (log : list (pt (S := S32))) (cur : pt (S := S32)) (ns : f32) x0 y0 h0 v r k0 w0 c0 d0 :
    route32 P log -> p_valid cur = true -> fin (p_x cur) x0 -> fin (p_y cur) y0 -> fin (p_yaw cur) h0 ->
    fin (obj_speed cur) v -> fin ns r ->
    Rabs x0 <= P -> Rabs y0 <= P -> Rabs h0 <= 4 -> 0 <= r <= C -> 0 <= v <= C ->
    nth_error log k0 = Some w0 -> p_valid w0 = true -> fin (p_x w0) c0 -> fin (p_y w0) d0 ->
    let px := x0 + (r + v) / 20 * cos h0 in let py := y0 + (r + v) / 20 * sin h0 in
    dist (px, py) (c0, d0) <= 4 ->
    (forall kl wl cl dl, nth_error log kl = Some wl -> p_valid wl = true -> fin (p_x wl) cl -> fin (p_y wl) dl ->
       (forall j w', nth_error log j = Some w' -> p_valid w' = true -> (j <= kl)%nat) -> 5 <= dist (px, py) (cl, dl)) ->
    exists q k w c d h x y t qvx qvy, next_by_projection (S := S32) true default_time_delta log cur ns true = Ok q /\
      nth_error log k = Some w /\ p_valid w = true /\ fin (p_x w) c /\ fin (p_y w) d /\ fin (p_yaw w) h /\ Rabs h <= 4 /\
      p_valid q = true /\ p_yaw q = p_yaw w /\ fin (p_x q) x /\ fin (p_y q) y /\
      dist (x, y) (c + t * cos h, d + t * sin h) <= P / 2 ^ 17 /\
      Rabs (t - (cos h * (px - c) + sin h * (py - d))) <= P / 2 ^ 20 /\
      fin (p_vx q) qvx /\ fin (p_vy q) qvy /\ len (qvx - r * cos h0) (qvy - r * sin h0) <= 8 * C / 16777216.
  Proof.
    intros HR Vc Fx Fy Fh Fs Fr Bx By Bh Br Bv H0 V0 Fc0 Fd0 px py Near Far. pose proof tiny_small as TS.
    assert (U : u32 = / 16777216) by reflexivity.
    pose proof (travel32 lm P P45 C C1 ns (obj_speed cur) r v Fr Fs Br Bv) as At.
    destruct (trig_ap lm AC _ _ Fh Bh) as [Ac As].
    set (tr := fmul (Scalar := S32) (fdiv (Scalar := S32) (fadd (Scalar := S32) ns (obj_speed cur)) (f2 (S := S32))) (default_time_delta (S := S32))) in *.
    set (tt := (r + v) / 2 * (1 / 10)) in *.
    assert (Btt : 0 <= tt <= C / 10) by (unfold tt; lra).
    set (e := P / 16777216) in *. assert (E0 : 0 < e <= / 1024) by (unfold e; lra).
    assert (EP : P = 16777216 * e) by (unfold e; lra).
    assert (Mc : ap (fmul (Scalar := S32) tr (fcos (Scalar := S32) (p_yaw cur))) (tt * cos h0) (5 * e) (P / 10)).
    { eapply ap_weaken; [apply (ap_mul _ _ _ _ _ _ _ _ At Ac)| |]; rewrite ?U; lra. }
    assert (Ms : ap (fmul (Scalar := S32) tr (fsin (Scalar := S32) (p_yaw cur))) (tt * sin h0) (5 * e) (P / 10)).
    { eapply ap_weaken; [apply (ap_mul _ _ _ _ _ _ _ _ At As)| |]; rewrite ?U; lra. }
    destruct (ap_add _ _ _ _ _ _ _ _ (ap_exact _ _ _ Fx Bx) Mc ltac:(lra)) as (a & Fa & Ea & Ma).
    destruct (ap_add _ _ _ _ _ _ _ _ (ap_exact _ _ _ Fy By) Ms ltac:(lra)) as (b & Fb & Eb & Mb).
    assert (Ttt : tt = (r + v) / 20) by (unfold tt; field).
    assert (Ea' : Rabs (a - px) <= 8 * e) by (unfold px; rewrite <- Ttt; refine (Rle_trans _ _ _ Ea _); rewrite ?U; lra).
    assert (Eb' : Rabs (b - py) <= 8 * e) by (unfold py; rewrite <- Ttt; refine (Rle_trans _ _ _ Eb _); rewrite ?U; lra).
    assert (Ba : Rabs a <= 2 * P).
    { unfold px in Ea'. rewrite <- Ttt in Ea'. apply Rabs_le_inv in Ea', Ma; apply Rabs_le; lra. }
    assert (Bb : Rabs b <= 2 * P).
    { unfold py in Eb'. rewrite <- Ttt in Eb'. apply Rabs_le_inv in Eb', Mb; apply Rabs_le; lra. }
    assert (Dab : dist (a, b) (px, py) <= 12 * e).
    { rewrite dist_len. eapply Rle_trans; [apply len_le; eassumption|]. lra. }
    destruct (project_any32 lm AC P P45 false log _ _ a b k0 w0 HR Fa Fb Ba Bb H0 V0)
      as (k & w & c & d & h & x & y & qx & qy & reached & HP & Hk & Vw & Fc & Fd & Fhw & Bhw & Bc & Bd & HL & HN & HE).
    fold e in HN, HE. specialize (HN k0 w0 c0 d0 H0 V0 Fc0 Fd0).
    pose proof (dist_triangle (a, b) (px, py) (c0, d0)) as T1.
    assert (reached = false) as ->.
    { destruct reached; [exfalso|reflexivity]. destruct (HE eq_refl) as [G|(kl & wl & cl & dl & Hl & Vl & Max & Fcl & Fdl & G)]; [lra|].
      pose proof (Far kl wl cl dl Hl Vl Fcl Fdl Max) as F5.
      pose proof (dist_triangle (px, py) (a, b) (cl, dl)) as T2. pose proof (dist_triangle (a, b) (c, d) (cl, dl)) as T3.
      rewrite (dist_sym (px, py) (a, b)) in T2. lra. }
    destruct (HL (or_intror eq_refl)) as (Fqx & Fqy & L1 & _).
    set (t := cos h * (a - c) + sin h * (b - d)) in *.
    assert (Et : Rabs (t - (cos h * (px - c) + sin h * (py - d))) <= P / 2 ^ 20).
    { replace (t - _) with (cos h * (a - px) + sin h * (b - py)) by (unfold t; ring).
      eapply Rle_trans; [apply along_le|]. rewrite <- dist_len. lra. }
    assert (Ar : ap ns r 0 C) by (apply ap_exact; [exact Fr | rewrite Rabs_pos_eq; lra]).
    assert (Wc : ap (fmul (Scalar := S32) ns (fcos (Scalar := S32) (p_yaw cur))) (r * cos h0) (4 * C / 16777216) C).
    { eapply ap_weaken; [apply (ap_mul _ _ _ _ _ _ _ _ Ar Ac)| |]; rewrite ?U; lra. }
    assert (Ws : ap (fmul (Scalar := S32) ns (fsin (Scalar := S32) (p_yaw cur))) (r * sin h0) (4 * C / 16777216) C).
    { eapply ap_weaken; [apply (ap_mul _ _ _ _ _ _ _ _ Ar As)| |]; rewrite ?U; lra. }
    destruct Wc as (ux & Fux & Eux & _). destruct Ws as (uy & Fuy & Euy & _).
    pose proof (len_le _ _ _ Eux Euy) as L3.
    unfold next_by_projection. cbv zeta. cbn [negb].
    match type of HP with ?l = _ =>
      match goal with |- context [project_point false ?z log] => change (project_point false z log) with l end end.
    rewrite HP. cbn [bind]. rewrite Vc. cbn [fst snd andb negb].
    exists (mkpt (S := S32) qx qy (p_z cur) (fmul (Scalar := S32) ns (fcos (Scalar := S32) (p_yaw cur))) (fmul (Scalar := S32) ns (fsin (Scalar := S32) (p_yaw cur)))
              (p_yaw w) true (p_ts cur) (p_len cur) (p_wid cur) (p_hei cur)), k, w, c, d, h, x, y, t, ux, uy.
    cbn [p_x p_y p_vx p_vy p_yaw p_valid]. split; [reflexivity|]. repeat (split; [first [assumption | reflexivity]|]). lra.
  Qed.
End Follow.

(** Episodes on a road with one heading. *)
Section Lane.
  Variable lm : libm.
  Hypothesis AC : accurate32 lm.
  Notation S32 := (F32 lm).
  Variables (n T : nat) (spd : f32) (slog sim : traj (S := S32)) (a0 k i : nat)
    (log : list (pt (S := S32))) (p0 : pt (S := S32)) (s X P C L x0 y0 h vx0 vy0 : R).
  Hypothesis St : steered (constant_speed_policy (S := S32) spd) n T slog sim a0 k i.
  Hypothesis Hi : (i < n)%nat.
  Hypothesis Hlog : nth_error slog i = Some log.
  Hypothesis HR : route32 X log.
  Hypothesis H1 : at2 sim i a0 = Some p0.
  Hypothesis V0 : p_valid p0 = true.
  Hypothesis F0 : fin (p_x p0) x0 /\ fin (p_y p0) y0 /\ fin (p_yaw p0) h /\ fin (p_vx p0) vx0 /\ fin (p_vy p0) vy0.
  Hypothesis B0 : Rabs x0 <= X /\ Rabs y0 <= X /\ Rabs h <= 4.
  Hypothesis HL : lane32 log h x0 y0 L.
  Hypothesis Fs : fin spd s.
  Hypothesis Bs : 20 * (P / 2 ^ 16) <= s /\ s + C / 2 ^ 20 <= C /\ len vx0 vy0 + C / 2 ^ 20 <= C.
  Hypothesis P1 : 1 <= P <= 2 ^ 14.
  Hypothesis C1 : 1 <= C <= P.
  Hypothesis HX : X + L + 2 <= P.
  Hypothesis Hk : INR k * (C / 10 + P / 2 ^ 16) <= L.

  Definition gone (j : nat) : R := match j with 0%nat => 0 | Datatypes.S m => (len vx0 vy0 + s) / 20 + INR m * (s / 10) end.

  Lemma ahead_aside x y c d : dist (x, y) (c, d) * dist (x, y) (c, d) =
    (ahead h x0 y0 x y - ahead h x0 y0 c d) * (ahead h x0 y0 x y - ahead h x0 y0 c d) +
    (aside h x0 y0 x y - aside h x0 y0 c d) * (aside h x0 y0 x y - aside h x0 y0 c d).
  Proof.
    unfold dist. cbn [fst snd]. rewrite sqrt_sqrt.
    - unfold ahead, aside. pose proof (sin2_cos2 h) as S2. unfold Rsqr in S2.
      transitivity (((x - c) * (x - c) + (y - d) * (y - d)) * (sin h * sin h + cos h * cos h)); [rewrite S2; ring | ring].
    - pose proof (Rle_0_sqr (x - c)). pose proof (Rle_0_sqr (y - d)). unfold Rsqr in *. lra.
  Qed.

  Lemma aside_near x y c d e : dist (x, y) (c, d) <= e -> Rabs (aside h x0 y0 x y - aside h x0 y0 c d) <= e /\ Rabs (ahead h x0 y0 x y - ahead h x0 y0 c d) <= e.
  Proof.
    intros D. pose proof (ahead_aside x y c d) as E. assert (D0 : 0 <= dist (x, y) (c, d)) by (unfold dist; apply sqrt_pos).
    set (A := ahead h x0 y0 x y - ahead h x0 y0 c d) in *. set (B := aside h x0 y0 x y - aside h x0 y0 c d) in *.
    pose proof (Rle_0_sqr A). pose proof (Rle_0_sqr B). unfold Rsqr in *.
    split; (eapply Rle_trans; [|exact D]); rewrite <- (Rabs_pos_eq (dist (x, y) (c, d)) D0); apply Rsqr_le_abs_0; unfold Rsqr; lra.
  Qed.

  Lemma dist_by x y c d m : 0 <= m -> (ahead h x0 y0 x y - ahead h x0 y0 c d) * (ahead h x0 y0 x y - ahead h x0 y0 c d) +
    (aside h x0 y0 x y - aside h x0 y0 c d) * (aside h x0 y0 x y - aside h x0 y0 c d) <= m * m -> dist (x, y) (c, d) <= m.
  Proof.
    intros M E. rewrite <- ahead_aside in E. apply Rsqr_incr_0_var; [exact E | exact M].
  Qed.

  Definition on_lane (j : nat) (q : pt (S := S32)) (x y vx vy : R) : Prop :=
    at2 sim i (a0 + j) = Some q /\ p_valid q = true /\ fin (p_x q) x /\ fin (p_y q) y /\ fin (p_yaw q) h /\
    fin (p_vx q) vx /\ fin (p_vy q) vy /\
    Rabs (ahead h x0 y0 x y - gone j) <= INR j * (P / 2 ^ 16) /\ Rabs (aside h x0 y0 x y) <= 1 + P / 2 ^ 17 /\
    (j = 0%nat /\ vx = vx0 /\ vy = vy0 \/ (1 <= j)%nat /\ len (vx - s * cos h) (vy - s * sin h) <= 8 * C / 16777216).

  Lemma len_near vx vy r e : 0 <= r -> len (vx - r * cos h) (vy - r * sin h) <= e -> Rabs (len vx vy - r) <= e.
  Proof.
    intros R0 E.
    pose proof (len_add (r * cos h) (r * sin h) (vx - r * cos h) (vy - r * sin h)) as L1. rewrite len_polar, (Rabs_pos_eq r) in L1 by lra.
    replace (r * cos h + (vx - r * cos h)) with vx in L1 by ring. replace (r * sin h + (vy - r * sin h)) with vy in L1 by ring.
    pose proof (len_add vx vy (- (vx - r * cos h)) (- (vy - r * sin h))) as L2.
    replace (vx + - (vx - r * cos h)) with (r * cos h) in L2 by ring. replace (vy + - (vy - r * sin h)) with (r * sin h) in L2 by ring.
    rewrite len_polar, (Rabs_pos_eq r) in L2 by lra.
    assert (N : len (- (vx - r * cos h)) (- (vy - r * sin h)) = len (vx - r * cos h) (vy - r * sin h)) by (unfold len; f_equal; ring).
    rewrite N in L2. apply Rabs_le. lra.
  Qed.

  Lemma lane_step j q x y vx vy : (j < k)%nat -> on_lane j q x y vx vy -> exists q' x' y' vx' vy', on_lane (Datatypes.S j) q' x' y' vx' vy'.
  Proof.
    intros Hj (Eq & V & Fx & Fy & Fh & Fvx & Fvy & Ba & Bo & Hv).
    destruct B0 as (Bx0 & By0 & Bh). destruct Bs as (Bs1 & Bs2 & Bs3). destruct HL as (HL1 & HL2 & HL3).
    assert (Jk : INR (Datatypes.S j) <= INR k) by (apply le_INR; lia). unfold on_lane. rewrite S_INR in *. pose proof (pos_INR j) as J0.
    assert (G2 : (INR j + 1) * (C / 10 + P / 2 ^ 16) <= INR k * (C / 10 + P / 2 ^ 16)) by (apply Rmult_le_compat_r; lra).
    assert (U : u32 = / 16777216) by reflexivity.
    pose proof (len_pos vx0 vy0) as LP0. pose proof (len_pos vx vy) as LP.
    (* the present speed *)
    assert (Sp : exists v1, 0 <= v1 /\ v1 + C / 2 ^ 20 <= C /\ Rabs (len vx vy - v1) <= 8 * C / 16777216 /\ gone (Datatypes.S j) = gone j + (v1 + s) / 20).
    { destruct Hv as [(-> & -> & ->)|(J1 & D)].
      - exists (len vx0 vy0). split; [lra|]. split; [lra|]. split; [rewrite Rminus_eq_0, Rabs_R0; lra|]. cbn [gone INR]. lra.
      - exists s. split; [lra|]. split; [lra|]. split; [apply len_near; [lra | exact D]|].
        destruct j as [|j]; [lia|]. cbn [gone]. rewrite S_INR. lra. }
    destruct Sp as (v1 & V1 & V2 & V3 & Eg). apply Rabs_le_inv in V3.
    destruct (vel_norm_fin lm _ _ vx vy C Fvx Fvy ltac:(lra) ltac:(lra)) as (v & Fv & Pv & Ev).
    rewrite U in Ev. apply Rabs_le_inv in Ev.
    assert (Fo : fin (obj_speed q) v) by (unfold obj_speed; rewrite V; exact Fv).
    assert (Bg : 0 <= gone j <= INR j * (C / 10) /\ INR j * (P / 2 ^ 16) <= gone j).
    { clear - J0 LP0 Bs1 Bs2 Bs3 P1 C1. destruct j as [|m]; [cbn [gone INR]; lra|]. cbn [gone]. rewrite S_INR in *. pose proof (pos_INR m) as M0.
      assert (A1 : 0 <= INR m * (s / 10) <= INR m * (C / 10)) by (split; [apply Rmult_le_pos; lra | apply Rmult_le_compat_l; lra]).
      assert (A2 : INR m * (P / 2 ^ 16) <= INR m * (s / 10)) by (apply Rmult_le_compat_l; lra). lra. }
    apply Rabs_le_inv in Ba.
    set (m := (s + v) / 20).
    assert (Bm : 0 <= m <= C / 10 /\ Rabs (m - (v1 + s) / 20) <= C / 2 ^ 21).
    { unfold m. split; [lra|]. apply Rabs_le. lra. }
    destruct Bm as [Bm Em]. apply Rabs_le_inv in Em.
    set (A := ahead h x0 y0 x y) in *. set (B := aside h x0 y0 x y) in *.
    assert (RA : 0 <= A + m <= L) by lra.
    (* coordinates *)
    assert (Cxy : Rabs (x - x0) <= Rabs A + Rabs B /\ Rabs (y - y0) <= Rabs A + Rabs B).
    { assert (E1 : x - x0 = cos h * A - sin h * B).
      { unfold A, B, ahead, aside. pose proof (sin2_cos2 h) as S2. unfold Rsqr in S2.
        transitivity ((x - x0) * (sin h * sin h + cos h * cos h)); [rewrite S2; ring | ring]. }
      assert (E2 : y - y0 = sin h * A + cos h * B).
      { unfold A, B, ahead, aside. pose proof (sin2_cos2 h) as S2. unfold Rsqr in S2.
        transitivity ((y - y0) * (sin h * sin h + cos h * cos h)); [rewrite S2; ring | ring]. }
      assert (Cb : Rabs (cos h) <= 1) by (apply Rabs_le; apply COS_bound).
      assert (Sb : Rabs (sin h) <= 1) by (apply Rabs_le; apply SIN_bound).
      assert (Q : forall u z, Rabs u <= 1 -> Rabs (u * z) <= Rabs z).
      { intros u z Hu. rewrite Rabs_mult. pose proof (Rabs_pos z). apply (Rmult_le_compat_r (Rabs z)) in Hu; lra. }
      rewrite E1, E2. split.
      - unfold Rminus. eapply Rle_trans; [apply Rabs_triang|]. rewrite Rabs_Ropp. pose proof (Q _ A Cb). pose proof (Q _ B Sb). lra.
      - eapply Rle_trans; [apply Rabs_triang|]. pose proof (Q _ A Sb). pose proof (Q _ B Cb). lra. }
    assert (Ab : Rabs A <= L) by (apply Rabs_le; lra).
    destruct Cxy as [Cx Cy].
    assert (Bx : Rabs x <= P) by (replace x with (x0 + (x - x0)) by ring; eapply Rle_trans; [apply Rabs_triang|]; lra).
    assert (By : Rabs y <= P) by (replace y with (y0 + (y - y0)) by ring; eapply Rle_trans; [apply Rabs_triang|]; lra).
    assert (HR' : route32 P log).
    { intros kk w Hkk Hvv. destruct (HR kk w Hkk Hvv) as (x1 & y1 & h1 & G1 & G3 & G4 & G5 & G6 & G7).
      pose proof (Rabs_pos A). exists x1, y1, h1. repeat (split; [assumption|]). lra. }
    (* the step *)
    destruct (St j Hj) as (s1 & ups & cur & q2 & u & q' & W1 & El & Hu & Hcur & Lc & Hall & Eq2 & Eu & Eq' & _ & _ & _ & U1 & U2 & U3 & U4 & U5 & U6).
    assert (q2 = q) by (rewrite (Hall i Hi) in Eq2; congruence). subst q2.
    unfold constant_speed_policy in Hu. pose proof Hu as Hu'. unfold waypoint_update in Hu'.
    apply bind_Ok in Hu' as (sv & Hsv & _).
    assert (Hl1 : nth_error (s_log s1) i = Some log) by (rewrite El; exact Hlog).
    assert (Esv : nth_error sv i = Some (spd, true)).
    { unfold constant_update_speed in Hsv. apply Ok_inj in Hsv. subst sv. rewrite nth_error_map, Hl1. reflexivity. }
    destruct (waypoint_nth _ _ _ _ _ _ Hu Hsv Hcur i log q _ _ Hl1 Eq2 Esv) as (f & Hf & Ef).
    set (px := x + m * cos h). set (py := y + m * sin h).
    assert (Hcs : cos h * cos h + sin h * sin h = 1) by (pose proof (sin2_cos2 h) as S2; unfold Rsqr in S2; lra).
    assert (Ap : ahead h x0 y0 px py = A + m).
    { unfold A, px, py, ahead. transitivity (cos h * (x - x0) + sin h * (y - y0) + m * (cos h * cos h + sin h * sin h)); [ring | rewrite Hcs; ring]. }
    assert (Bp : aside h x0 y0 px py = B) by (unfold B, px, py, aside; ring).
    destruct (HL2 (A + m) RA) as (k0 & w0 & c0 & d0 & K0 & Vw0 & Fc0 & Fd0 & N3).
    destruct (HL1 k0 w0 c0 d0 K0 Vw0 Fc0 Fd0) as [_ N1].
    assert (Near : dist (px, py) (c0, d0) <= 4).
    { apply dist_by; [lra|]. rewrite Ap, Bp. apply Rabs_le_inv in N3, N1, Bo.
      set (z1 := A + m - ahead h x0 y0 c0 d0). set (z2 := B - aside h x0 y0 c0 d0).
      assert (Z1 : -3 <= z1 <= 3) by (unfold z1; lra). assert (Z2 : - (5 / 2) <= z2 <= 5 / 2) by (unfold z2; lra).
      assert (0 <= (3 - z1) * (3 + z1)) by (apply Rmult_le_pos; lra).
      assert (0 <= (5 / 2 - z2) * (5 / 2 + z2)) by (apply Rmult_le_pos; lra). lra. }
    assert (Far : forall kl wl cl dl, nth_error log kl = Some wl -> p_valid wl = true -> fin (p_x wl) cl -> fin (p_y wl) dl ->
       (forall j w', nth_error log j = Some w' -> p_valid w' = true -> (j <= kl)%nat) -> 5 <= dist (px, py) (cl, dl)).
    { intros kl wl cl dl A1 A2 A3 A4 A5. pose proof (HL3 kl wl cl dl A1 A2 A3 A4 A5) as A6.
      destruct (aside_near px py cl dl _ (Rle_refl _)) as [_ A7]. rewrite Ap in A7. apply Rabs_le_inv in A7. lra. }
    destruct (follow32 lm AC P C P1 C1 log q spd x y h v s k0 w0 c0 d0 HR' V Fx Fy Fh Fo Fs Bx By Bh ltac:(lra) ltac:(lra) K0 Vw0 Fc0 Fd0 Near Far)
      as (f2 & k2 & w2 & c2 & d2 & h2 & x2 & y2 & t2 & ux & uy & Hf2 & Hk2 & Vw2 & Fc2 & Fd2 & Fh2 & Bh2 & Vf & Ey2 & Fx2 & Fy2 & L1 & Et2 & Fux & Fuy & LV).
    rewrite Hf2 in Hf. apply Ok_inj in Hf. subst f2.
    assert (Eu' : u = mkupd (p_x f) (p_y f) (p_yaw f) (p_vx f) (p_vy f) (p_valid f)) by congruence. subst u.
    cbn [u_x u_y u_yaw u_vx u_vy] in U1, U2, U3, U4, U5.
    destruct (HL1 k2 w2 c2 d2 Hk2 Vw2 Fc2 Fd2) as [Fh2' N2]. pose proof (fin_fun _ _ _ Fh2 Fh2') as Eh. subst h2.
    destruct (aside_near _ _ _ _ _ L1) as [Q1 Q2].
    assert (Qa : aside h x0 y0 (c2 + t2 * cos h) (d2 + t2 * sin h) = aside h x0 y0 c2 d2) by (unfold aside; ring).
    assert (Qb : ahead h x0 y0 (c2 + t2 * cos h) (d2 + t2 * sin h) = ahead h x0 y0 c2 d2 + t2).
    { unfold ahead. transitivity (cos h * (c2 - x0) + sin h * (d2 - y0) + t2 * (cos h * cos h + sin h * sin h)); [ring | rewrite Hcs; ring]. }
    assert (Qc : cos h * (x + (s + v) / 20 * cos h - c2) + sin h * (y + (s + v) / 20 * sin h - d2) = A + m - ahead h x0 y0 c2 d2).
    { rewrite <- Ap. unfold px, py, ahead, m. ring. }
    rewrite Qc in Et2. rewrite Qa in Q1. rewrite Qb in Q2. apply Rabs_le_inv in Et2, Q1, Q2, N2.
    exists q', x2, y2, ux, uy. rewrite U1, U2, U3, U4, U5, Ey2, Eg.
    split; [exact Eq'|]. split; [exact (U6 V)|]. split; [exact Fx2|]. split; [exact Fy2|]. split; [exact Fh2'|].
    split; [exact Fux|]. split; [exact Fuy|]. split; [apply Rabs_le; lra|]. split; [apply Rabs_le; lra|].
    right. split; [lia | exact LV].
  Qed.

  Lemma lane_episode : forall j, (j <= k)%nat -> exists q x y vx vy, on_lane j q x y vx vy.
  Proof.
    induction j as [|j IH]; intros Hj.
    - destruct F0 as (Fx & Fy & Fh & Fvx & Fvy). exists p0, x0, y0, vx0, vy0. unfold on_lane. rewrite Nat.add_0_r.
      cbn [INR gone]. unfold ahead, aside. rewrite !Rminus_eq_0, !Rmult_0_r, Rplus_0_r, !Rminus_0_r, Rabs_R0, Rmult_0_l.
      repeat (split; [assumption|]). split; [lra|]. split; [lra|]. left. auto.
    - destruct IH as (q & x & y & vx & vy & On); [lia|]. apply (lane_step j q x y vx vy); [lia | exact On].
  Qed.
End Lane.
