(** C77: in float32, agents move as their speed says.  [F32 lm] is IEEE binary32; of
    the maths library [lm] sine, cosine and arctangent are assumed accurate
    ([accurate32]) and powers sane ([pow32]). *)
From Coq Require Import List ZArith Reals Lra Lia Bool.
From Flocq Require Import Core.Raux IEEE754.BinarySingleNaN.
From Verif.Lib Require Import Base JaxIndex Scalar F32.
From Verif.Model Require Import Operations State Dynamics BaseEnv Dyn_State Geometry Discretizer Comfort Metrics Actor Waypoint PlanningEnv.
From Verif.Spec Require Import StateSpec GeomSpec DynSpec AgentSpec PlanSpec ClosedSpec F32Spec F32EpisodeSpec F32GeomSpec F32DriveSpec.
From Verif.Proofs Require Import Core P_Metrics P_Actions P_Agents P_Waypoint P_Plan P_PlanRun P_Drive P_Closed P_F32 P_F32Wrap P_F32Bicycle P_F32Kim P_F32Overlap P_F32Idm P_F32Route P_F32Drive P_F32Const P_Libm.
From Verif.Props Require Import C76.
Import ListNotations.
Open Scope R_scope.

(** Every step of an object driven by the IDM agent, in the base environment: the
    asked speed is not negative and at most one acceleration step above the present
    one, and the object moves by the mean of the two. *)
Theorem C77_idm_moves lm {PP XX KK} n T c (none : XX) ctrl (p : idm_params (S := F32 lm)) (pp : PP) (x : XX) (key : option KK)
    s s' k i log p0 v0 s0 th a b delta X P C vx0 vy0 :
  accurate32 lm -> pow32 lm -> wf_scenario n T s ->
  run_policy StateDynamics c (actor_policy (idm_actor none ctrl p) pp x key) s k = Ok s' ->
  (1 <= c_init_steps c)%nat -> (c_init_steps c + k <= T)%nat ->
  (i < n)%nat -> in_control c s i -> nth_error (s_log s) i = Some log -> route32 X log ->
  at2 (s_log s) i (c_init_steps c - 1) = Some p0 -> p_valid p0 = true -> fin (p_vx p0) vx0 -> fin (p_vy p0) vy0 ->
  idm_invalidate_on_end p = false -> idm32 p v0 s0 th a b delta ->
  X + INR k * (C / 10 + P / 2 ^ 15) <= P <= 2 ^ 45 -> 1 <= C <= P ->
  Rmax (sqrt (vx0 * vx0 + vy0 * vy0)) (v0 + a / 10) + INR k * (C / 2 ^ 18) <= C ->
  forall j, (j < k)%nat -> exists q q' x y h vx vy x' y' h' vx' vy' r,
    at2 (s_sim s') i (c_init_steps c - 1 + j) = Some q /\ at2 (s_sim s') i (c_init_steps c - 1 + S j) = Some q' /\
    fin (p_x q) x /\ fin (p_y q) y /\ fin (p_yaw q) h /\ fin (p_vx q) vx /\ fin (p_vy q) vy /\
    fin (p_x q') x' /\ fin (p_y q') y' /\ fin (p_yaw q') h' /\ fin (p_vx q') vx' /\ fin (p_vy q') vy' /\
    moves32 (C / 2 ^ 20) (P / 2 ^ 16) a x y h vx vy x' y' h' vx' vy' r.
Proof.
  intros AC PW W Run HI HL Hi Hc Hlog HR H0 V0 Fx Fy Hinv HP HPb HC1 HCb j Hj.
  pose proof (base_steered n T c none ctrl (idm_policy p) pp x key s s' k i W Run HI HL Hi Hc) as St.
  assert (L0 : nth_error log (c_init_steps c - 1) = Some p0) by (unfold at2 in H0; now rewrite Hlog in H0).
  assert (S0 : at2 (s_sim s') i (c_init_steps c - 1) = Some p0) by (rewrite (sim_start n T _ _ _ _ _ _ W Run HI HL i Hi); exact H0).
  destruct (idm_episode32 lm AC PW n T p _ _ _ k i log p0 v0 s0 th a b delta X P C vx0 vy0
    St Hi Hlog HR L0 S0 V0 (conj Fx Fy) Hinv HP HPb HC1 HCb j ltac:(lia)) as (q & x1 & y1 & h1 & vx & vy & On).
  destruct (idm_step32 lm AC PW n T p _ _ _ k i log v0 s0 th a b delta X P C vx0 vy0
    St Hi Hlog HR Hinv HP HPb HC1 HCb j q x1 y1 h1 vx vy Hj On) as (q' & x' & y' & h' & vx' & vy' & r & On' & M).
  destruct On as (A1 & _ & A2 & A3 & A4 & A5 & A6 & _). destruct On' as (B1 & _ & B2 & B3 & B4 & B5 & B6 & _).
  exists q, q', x1, y1, h1, vx, vy, x', y', h', vx', vy', r. repeat (split; [assumption|]). exact M.
Qed.

(** The same for a sim agent in the planning environment (C76_ex_sim_agent is a case). *)
Theorem C77_idm_sim_agent_moves lm {PP XX KK} split n T (e : penv (S := F32 lm) PP XX KK) (none : XX) ctrl (p : idm_params (S := F32 lm))
    s rng acts ps' i log p0 v0 s0 th a b delta X P C vx0 vy0 :
  accurate32 lm -> pow32 lm -> length (pe_params e) = length (pe_agents e) -> wf_scenario n T s ->
  run_planning split e s rng acts = Ok ps' ->
  (1 <= c_init_steps (pe_cfg e))%nat -> (c_init_steps (pe_cfg e) + length acts <= T)%nat ->
  (i < n)%nat -> drives_object e s i (idm_actor none ctrl p) -> nth_error (s_log s) i = Some log -> route32 X log ->
  at2 (s_log s) i (c_init_steps (pe_cfg e) - 1) = Some p0 -> p_valid p0 = true -> fin (p_vx p0) vx0 -> fin (p_vy p0) vy0 ->
  idm_invalidate_on_end p = false -> idm32 p v0 s0 th a b delta ->
  X + INR (length acts) * (C / 10 + P / 2 ^ 15) <= P <= 2 ^ 45 -> 1 <= C <= P ->
  Rmax (sqrt (vx0 * vx0 + vy0 * vy0)) (v0 + a / 10) + INR (length acts) * (C / 2 ^ 18) <= C ->
  forall j, (j < length acts)%nat -> exists q q' x y h vx vy x' y' h' vx' vy' r,
    at2 (s_sim (ps_state ps')) i (c_init_steps (pe_cfg e) - 1 + j) = Some q /\
    at2 (s_sim (ps_state ps')) i (c_init_steps (pe_cfg e) - 1 + S j) = Some q' /\
    fin (p_x q) x /\ fin (p_y q) y /\ fin (p_yaw q) h /\ fin (p_vx q) vx /\ fin (p_vy q) vy /\
    fin (p_x q') x' /\ fin (p_y q') y' /\ fin (p_yaw q') h' /\ fin (p_vx q') vx' /\ fin (p_vy q') vy' /\
    moves32 (C / 2 ^ 20) (P / 2 ^ 16) a x y h vx vy x' y' h' vx' vy' r.
Proof.
  intros AC PW Lp W Run HI HL Hi Hd Hlog HR H0 V0 Fx Fy Hinv HP HPb HC1 HCb j Hj.
  pose proof (planning_steered split n T e s rng acts ps' i none ctrl (idm_policy p) Lp W HI HL Run Hi Hd) as St.
  destruct (planning_basic split n T e s rng acts ps' Lp W HI HL Run) as (_ & _ & _ & Wu).
  assert (L0 : nth_error log (c_init_steps (pe_cfg e) - 1) = Some p0) by (unfold at2 in H0; now rewrite Hlog in H0).
  assert (S0 : at2 (s_sim (ps_state ps')) i (c_init_steps (pe_cfg e) - 1) = Some p0) by (rewrite Wu by lia; exact H0).
  destruct (idm_episode32 lm AC PW n T p _ _ _ (length acts) i log p0 v0 s0 th a b delta X P C vx0 vy0
    St Hi Hlog HR L0 S0 V0 (conj Fx Fy) Hinv HP HPb HC1 HCb j ltac:(lia)) as (q & x1 & y1 & h1 & vx & vy & On).
  destruct (idm_step32 lm AC PW n T p _ _ _ (length acts) i log v0 s0 th a b delta X P C vx0 vy0
    St Hi Hlog HR Hinv HP HPb HC1 HCb j q x1 y1 h1 vx vy Hj On) as (q' & x' & y' & h' & vx' & vy' & r & On' & M).
  destruct On as (A1 & _ & A2 & A3 & A4 & A5 & A6 & _). destruct On' as (B1 & _ & B2 & B3 & B4 & B5 & B6 & _).
  exists q, q', x1, y1, h1, vx, vy, x', y', h', vx', vy', r. repeat (split; [assumption|]). exact M.
Qed.

(** The constant-speed policy on a road with one heading: before the end of the road
    the object is valid and has that heading, its way along the road is what the
    speeds give up to [P / 2^16] per step, it is at most a metre (and [P / 2^17])
    to the side, and its velocity is the given speed along the heading. *)
Theorem C77_constant_speed_route lm {PP XX KK} n T c (none : XX) ctrl (spd : f32) (pp : PP) (x : XX) (key : option KK)
    s s' k i log p0 r X P C L x0 y0 h vx0 vy0 :
  accurate32 lm -> wf_scenario n T s ->
  run_policy (S := F32 lm) StateDynamics c (actor_policy (sim_agent none ctrl (constant_speed_policy (S := F32 lm) spd)) pp x key) s k = Ok s' ->
  (1 <= c_init_steps c)%nat -> (c_init_steps c + k <= T)%nat ->
  (i < n)%nat -> in_control c s i -> nth_error (s_log s) i = Some log -> route32 X log ->
  at2 (s_log s) i (c_init_steps c - 1) = Some p0 -> p_valid p0 = true ->
  fin (p_x p0) x0 -> fin (p_y p0) y0 -> fin (p_yaw p0) h -> fin (p_vx p0) vx0 -> fin (p_vy p0) vy0 ->
  lane32 log h x0 y0 L -> fin spd r -> 20 * (P / 2 ^ 16) <= r -> r + C / 2 ^ 20 <= C -> sqrt (vx0 * vx0 + vy0 * vy0) + C / 2 ^ 20 <= C ->
  1 <= C <= P -> P <= 2 ^ 14 -> X + L + 2 <= P -> INR k * (C / 10 + P / 2 ^ 16) <= L ->
  forall j, (1 <= j <= k)%nat -> exists q x y vx vy,
    at2 (s_sim s') i (c_init_steps c - 1 + j) = Some q /\ p_valid q = true /\
    fin (p_x q) x /\ fin (p_y q) y /\ fin (p_yaw q) h /\ fin (p_vx q) vx /\ fin (p_vy q) vy /\
    Rabs (ahead h x0 y0 x y - ((sqrt (vx0 * vx0 + vy0 * vy0) + r) / 20 + (INR j - 1) * (r / 10))) <= INR j * (P / 2 ^ 16) /\
    Rabs (aside h x0 y0 x y) <= 1 + P / 2 ^ 17 /\ dist (vx, vy) (r * cos h, r * sin h) <= C / 2 ^ 20.
Proof.
  intros AC W Run HI HL Hi Hc Hlog HR H0 V0 Fx Fy Fh Fvx Fvy HLn Fr R1 R2 R3 HC HP HX Hk j Hj.
  pose proof (base_steered n T c none ctrl (constant_speed_policy (S := F32 lm) spd) pp x key s s' k i W Run HI HL Hi Hc) as St.
  assert (L0 : nth_error log (c_init_steps c - 1) = Some p0) by (unfold at2 in H0; now rewrite Hlog in H0).
  assert (S0 : at2 (s_sim s') i (c_init_steps c - 1) = Some p0) by (rewrite (sim_start n T _ _ _ _ _ _ W Run HI HL i Hi); exact H0).
  destruct (HR _ _ L0 V0) as (x1 & y1 & h1 & G1 & G2 & G3 & B1 & B2 & B3).
  rewrite (fin_fun _ _ _ G1 Fx) in B1. rewrite (fin_fun _ _ _ G2 Fy) in B2. rewrite (fin_fun _ _ _ G3 Fh) in B3.
  destruct (lane_episode lm AC n T spd _ _ _ k i log p0 r X P C L x0 y0 h vx0 vy0 St Hi Hlog HR S0 V0
    (conj Fx (conj Fy (conj Fh (conj Fvx Fvy)))) (conj B1 (conj B2 B3)) HLn Fr (conj R1 (conj R2 R3)) ltac:(lra) HC HX Hk j ltac:(lia))
    as (q & qx & qy & vx & vy & A1 & A2 & A3 & A4 & A5 & A6 & A7 & A8 & A9 & A10).
  exists q, qx, qy, vx, vy. repeat (split; [assumption|]). split; [|split; [exact A9|]].
  - destruct j as [|m]; [lia|]. cbn [gone] in A8. replace (INR (S m) - 1) with (INR m) by (rewrite S_INR; ring). exact A8.
  - destruct A10 as [(E & _)|(_ & D)]; [lia|]. rewrite dist_len. lra.
Qed.

(** The constant-speed actor without a given speed keeps the velocity of its first
    frame, exactly, and its position is what that velocity gives, up to [P / 2^22] per
    step. *)
Theorem C77_keeps_velocity lm {PP XX KK} n T c (none : XX) ctrl (pp : PP) (x : XX) (key : option KK) s s' k i p0 X P C x0 y0 vx0 vy0 :
  wf_scenario n T s ->
  run_policy (S := F32 lm) StateDynamics c (actor_policy (constant_speed_actor (S := F32 lm) none StateDynamics ctrl None) pp x key) s k = Ok s' ->
  (1 <= c_init_steps c)%nat -> (c_init_steps c + k <= T)%nat -> (i < n)%nat -> in_control c s i ->
  at2 (s_log s) i (c_init_steps c - 1) = Some p0 -> p_valid p0 = true ->
  fin (p_x p0) x0 -> fin (p_y p0) y0 -> fin (p_vx p0) vx0 -> fin (p_vy p0) vy0 ->
  Rabs x0 <= X -> Rabs y0 <= X -> Rabs vx0 <= C -> Rabs vy0 <= C ->
  1 <= C <= P -> P <= 2 ^ 60 -> X + INR k * (C / 10 + P / 2 ^ 22) <= P ->
  forall j, (j <= k)%nat -> exists q x y,
    at2 (s_sim s') i (c_init_steps c - 1 + j) = Some q /\ p_valid q = true /\
    p_yaw q = p_yaw p0 /\ p_vx q = p_vx p0 /\ p_vy q = p_vy p0 /\ fin (p_x q) x /\ fin (p_y q) y /\
    Rabs (x - (x0 + INR j * (vx0 / 10))) <= INR j * (P / 2 ^ 22) /\ Rabs (y - (y0 + INR j * (vy0 / 10))) <= INR j * (P / 2 ^ 22).
Proof.
  intros W Run HI HL Hi Hc H0 V0 Fx Fy Fvx Fvy B1 B2 B3 B4 HC HP HX j Hj.
  destruct (const_frames n T c none ctrl None pp x key s s' k i W Run HI HL Hi Hc) as [Wu Fr].
  assert (S0 : at2 (s_sim s') i (c_init_steps c - 1) = Some p0) by (rewrite Wu by lia; exact H0).
  destruct (straight32 lm P C (conj HC HP) (s_sim s') (c_init_steps c - 1) k i None p0 x0 y0 vx0 vy0 X Fr S0 V0 Fx Fy B1 B2 Fvx Fvy B3 B4 HX j Hj)
    as (q & qx & qy & A1 & A2 & A3 & A4 & A5 & A6 & A7 & A8).
  destruct (A4 (or_introl eq_refl)) as [E1 E2]. exists q, qx, qy. repeat (split; [assumption|]). exact A8.
Qed.

(** With a given speed: the same with that speed along the heading. *)
Theorem C77_given_speed lm {PP XX KK} n T c (none : XX) ctrl (spd : f32) (pp : PP) (x : XX) (key : option KK) s s' k i p0 r X P C x0 y0 h :
  accurate32 lm -> wf_scenario n T s ->
  run_policy (S := F32 lm) StateDynamics c (actor_policy (constant_speed_actor (S := F32 lm) none StateDynamics ctrl (Some spd)) pp x key) s k = Ok s' ->
  (1 <= c_init_steps c)%nat -> (c_init_steps c + k <= T)%nat -> (i < n)%nat -> in_control c s i ->
  at2 (s_log s) i (c_init_steps c - 1) = Some p0 -> p_valid p0 = true ->
  fin (p_x p0) x0 -> fin (p_y p0) y0 -> fin (p_yaw p0) h -> Rabs h <= 4 -> fin spd r ->
  Rabs x0 <= X -> Rabs y0 <= X -> Rabs r + C / 2 ^ 20 <= C ->
  1 <= C <= P -> P <= 2 ^ 60 -> X + INR k * (C / 10 + P / 2 ^ 22) <= P ->
  exists ux uy, dist (ux, uy) (r * cos h, r * sin h) <= C / 2 ^ 20 /\
  forall j, (1 <= j <= k)%nat -> exists q x y,
    at2 (s_sim s') i (c_init_steps c - 1 + j) = Some q /\ p_valid q = true /\
    p_yaw q = p_yaw p0 /\ fin (p_vx q) ux /\ fin (p_vy q) uy /\ fin (p_x q) x /\ fin (p_y q) y /\
    Rabs (x - (x0 + INR j * (ux / 10))) <= INR j * (P / 2 ^ 22) /\ Rabs (y - (y0 + INR j * (uy / 10))) <= INR j * (P / 2 ^ 22).
Proof.
  intros AC W Run HI HL Hi Hc H0 V0 Fx Fy Fh Bh Fr B1 B2 B3 HC HP HX.
  destruct (const_frames n T c none ctrl (Some spd) pp x key s s' k i W Run HI HL Hi Hc) as [Wu Fr'].
  assert (S0 : at2 (s_sim s') i (c_init_steps c - 1) = Some p0) by (rewrite Wu by lia; exact H0).
  assert (U : Verif.Proofs.P_F32.u32 = / 16777216) by reflexivity. pose proof tiny_small as TS.
  destruct (trig_ap lm AC _ _ Fh Bh) as [Ac As].
  assert (Ar : ap spd r 0 C) by (apply ap_exact; [exact Fr | lra]).
  assert (Wc : ap (fmul (Scalar := F32 lm) spd (fcos (Scalar := F32 lm) (p_yaw p0))) (r * cos h) (4 * C / 16777216) C).
  { eapply ap_weaken; [apply (ap_mul _ _ _ _ _ _ _ _ Ar Ac)| |]; rewrite ?U; lra. }
  assert (Ws : ap (fmul (Scalar := F32 lm) spd (fsin (Scalar := F32 lm) (p_yaw p0))) (r * sin h) (4 * C / 16777216) C).
  { eapply ap_weaken; [apply (ap_mul _ _ _ _ _ _ _ _ Ar As)| |]; rewrite ?U; lra. }
  destruct Wc as (ux & Fux & Eux & _). destruct Ws as (uy & Fuy & Euy & _).
  assert (Q : forall t, Rabs t <= 1 -> Rabs (r * t) <= Rabs r).
  { intros t Ht. rewrite Rabs_mult. pose proof (Rabs_pos r). apply (Rmult_le_compat_l (Rabs r)) in Ht; lra. }
  pose proof (Q (cos h) ltac:(apply Rabs_le; apply COS_bound)) as Qc. pose proof (Q (sin h) ltac:(apply Rabs_le; apply SIN_bound)) as Qs.
  exists ux, uy. split.
  { rewrite dist_len. eapply Rle_trans; [apply len_le; eassumption|]. lra. }
  intros j Hj.
  assert (Bu : Rabs ux <= C) by (replace ux with (r * cos h + (ux - r * cos h)) by ring; eapply Rle_trans; [apply Rabs_triang|]; lra).
  assert (Bv : Rabs uy <= C) by (replace uy with (r * sin h + (uy - r * sin h)) by ring; eapply Rle_trans; [apply Rabs_triang|]; lra).
  destruct (straight32 lm P C (conj HC HP) (s_sim s') (c_init_steps c - 1) k i (Some spd) p0 x0 y0 ux uy X Fr' S0 V0 Fx Fy B1 B2 Fux Fuy Bu Bv HX j ltac:(lia))
    as (q & qx & qy & A1 & A2 & A3 & A4 & A5 & A6 & A7 & A8).
  destruct (A4 (or_intror (proj1 Hj))) as [E1 E2]. exists q, qx, qy. rewrite E1, E2. repeat (split; [assumption|]). exact A8.
Qed.

(** Without the tolerance these are false: 33554 km from the origin an object with a
    speed of 5 m/s does not move in float32, however long the episode is. *)
Definition far_pt lm : pt (S := F32 lm) :=
  mkpt (S := F32 lm) (f32_ofZ 33554432) (f32_ofZ 0) (f32_ofZ 0) (f32_ofZ 5) (f32_ofZ 0) (f32_ofZ 0) true 0%Z (f32_ofZ 4) (f32_ofZ 2) (f32_ofZ 1).
Definition far_scn lm k : state (S := F32 lm) :=
  mkstate (S := F32 lm) [] [repeat (far_pt lm) (S k)] [] [mkmeta 1 1 true true true false false] 0 None None.
Definition far_cfg : envcfg := mkcfg 1 1 SDC false.

Lemma far_wf lm k : wf_scenario 1 (S k) (far_scn lm k).
Proof.
  split; [|repeat split; auto with arith]. split; [reflexivity|]. intros r [<-|[]]. apply repeat_length.
Qed.

Theorem C77_moves_without_tolerance_refuted lm k : exists s',
  run_policy StateDynamics far_cfg (actor_policy (P := unit) (K := unit) (constant_speed_actor (S := F32 lm) tt StateDynamics (fun _ => [true]) None) tt tt None)
    (far_scn lm k) k = Ok s' /\
  forall j, (j <= k)%nat -> exists q, at2 (s_sim s') 0 j = Some q /\ p_x q = p_x (far_pt lm) /\ fin (p_vx q) 5.
Proof.
  assert (IC : in_control far_cfg (far_scn lm k) 0) by (simpl; eexists; split; reflexivity).
  destruct (constant_speed_runs 1 (S k) far_cfg tt (fun _ => [true]) None tt tt (@None unit) (far_scn lm k) k
    (far_wf lm k) eq_refl ltac:(discriminate) ltac:(intros; reflexivity) (le_n 1) ltac:(simpl; lia)) as [s' Run].
  exists s'. split; [exact Run|].
  destruct (const_frames 1 (S k) far_cfg tt (fun _ => [true]) None tt tt (@None unit) (far_scn lm k) s' k 0
    (far_wf lm k) Run (le_n 1) ltac:(simpl; lia) ltac:(lia) IC) as [Wu Fr].
  assert (G : forall j, (j <= k)%nat -> exists q, at2 (s_sim s') 0 j = Some q /\ p_x q = p_x (far_pt lm) /\ p_vx q = p_vx (far_pt lm)).
  { induction j as [|j IH]; intros Hj.
    - exists (far_pt lm). rewrite Wu by (simpl; lia). split; [reflexivity|]. split; reflexivity.
    - destruct IH as (q & Eq & Ex & Ev); [lia|].
      destruct (Fr j ltac:(lia)) as (q1 & q' & b & E1 & E2 & U1 & U2 & U3 & U4 & _).
      change (at2 (s_sim s') 0 j = Some q1) in E1. change (at2 (s_sim s') 0 (S j) = Some q') in E2.
      assert (q1 = q) by congruence. subst q1. exists q'. split; [exact E2|].
      unfold constant_speed_next in U1, U4. cbn [p_x p_vx] in U1, U4. rewrite Ex, Ev in U1. rewrite Ev in U4.
      split; [rewrite U1; apply B2SF_inj; vm_compute; reflexivity | exact U4]. }
  intros j Hj. destruct (G j Hj) as (q & Eq & Ex & Ev). exists q. split; [exact Eq|]. split; [exact Ex|]. rewrite Ev.
  apply (ofZ_fin 5). simpl; lia.
Qed.

(* ---------------- cases that meet the hypotheses ---------------- *)

(** The IDM agent of C76's scenario, next to an object whose position and velocity are
    NaN: in its first step it moves at least half a metre and at most 1.2 m. *)
Example C77_ex_idm : exists s' q x,
  run_policy StateDynamics jcfg (actor_policy (P := unit) (K := unit) (idm_actor tt (fun _ => [true; false]) default_idm) tt tt None)
    (jscn ideal_libm) 5 = Ok s' /\
  at2 (s_sim s') 0 1 = Some q /\ fin (p_x q) x /\ 1005 / 10 <= x <= 1012 / 10.
Proof.
  destruct (C76_idm_runs ideal_libm 2 6 jcfg tt (fun _ => [true; false]) default_idm tt tt (@None unit) (jscn ideal_libm) 5
    (jscn_wf _) eq_refl ltac:(discriminate) ltac:(simpl; lia) ltac:(simpl; lia) (or_introl eq_refl)) as [s' Run].
  assert (Sq : sqrt (11 * 11 + 0 * 0) = 11).
  { replace (11 * 11 + 0 * 0) with (11 * 11) by ring. rewrite sqrt_square; lra. }
  assert (M : Rmax (sqrt (11 * 11 + 0 * 0)) (30 + 2 / 10) <= 30 + 2 / 10) by (apply Rmax_lub; lra).
  assert (I5 : INR 5 = 5) by (simpl; lra).
  assert (F11 : fin (f32_ofZ 11) 11) by (apply (ofZ_fin 11); simpl; lia).
  assert (F00 : fin (f32_ofZ 0) 0) by (apply (ofZ_fin 0); simpl; lia).
  assert (F50 : fin (f32_ofZ 50) 50) by (apply (ofZ_fin 50); simpl; lia).
  assert (F100 : fin (f32_ofZ 100) 100) by (apply (ofZ_fin 100); simpl; lia).
  destruct (C77_idm_moves ideal_libm 2 6 jcfg tt (fun _ => [true; false]) default_idm tt tt (@None unit) (jscn ideal_libm) s' 5 0
    _ (jpt ideal_libm 100) 30 2 2 2 4 4 150 256 31 11 0 ideal_accurate ideal_pow (jscn_wf _) Run ltac:(simpl; lia) ltac:(simpl; lia)
    ltac:(lia) (jctrl _) eq_refl (jroute _) eq_refl eq_refl F11 F00 eq_refl (C76_ex_default _)
    ltac:(rewrite I5; lra) ltac:(lra) ltac:(rewrite I5; lra) 0%nat ltac:(lia))
    as (q & q' & x & y & h & vx & vy & x' & y' & h' & vx' & vy' & r & E0 & E1 & A1 & A2 & A3 & A4 & A5 & B1 & B2 & B3 & B4 & B5 & M1 & M2 & M3 & _).
  destruct (C76_idm_episode ideal_libm 2 6 jcfg tt (fun _ => [true; false]) default_idm tt tt (@None unit) (jscn ideal_libm) s' 5 0
    _ (jpt ideal_libm 100) 30 2 2 2 4 4 150 256 31 11 0 ideal_accurate ideal_pow (jscn_wf _) Run ltac:(simpl; lia) ltac:(simpl; lia)
    ltac:(lia) (jctrl _) eq_refl (jroute _) eq_refl eq_refl F11 F00 eq_refl (C76_ex_default _)
    ltac:(rewrite I5; lra) ltac:(lra) ltac:(rewrite I5; lra) 1%nat ltac:(lia)) as (q2 & wx & wy & Eq2 & _ & On & _).
  change (at2 (s_sim s') 0 0 = Some q) in E0. change (at2 (s_sim s') 0 1 = Some q') in E1. change (at2 (s_sim s') 0 1 = Some q2) in Eq2.
  assert (q2 = q') by congruence. subst q2.
  assert (S0 : at2 (s_sim s') 0 0 = Some (jpt ideal_libm 100)).
  { refine (eq_trans (sim_start 2 6 _ _ _ _ _ _ (jscn_wf _) Run ltac:(simpl; lia) ltac:(simpl; lia) 0%nat ltac:(lia)) _). reflexivity. }
  assert (q = jpt ideal_libm 100) by congruence. subst q.
  assert (Ex : x = 100) by exact (fin_fun _ _ _ A1 F100). assert (Eh : h = 0) by exact (fin_fun _ _ _ A3 F00).
  assert (Ev : vx = 11) by exact (fin_fun _ _ _ A4 F11). assert (Ew : vy = 0) by exact (fin_fun _ _ _ A5 F00). subst x h vx vy.
  destruct On as (k & w & wx0 & wy0 & h0 & _ & _ & _ & Hk & _ & _ & _ & _ & _ & _ & Ey & _).
  assert (Eh' : h' = 0).
  { apply nth_error_In, in_map_iff in Hk as (z & <- & _). rewrite Ey in B3. exact (fin_fun _ _ _ B3 F00). }
  subst h'. rewrite Rminus_0_r, cos_0, sin_0, Sq in *. apply Rabs_le_inv in M3.
  exists s', q', x'. split; [exact Run|]. split; [exact E1|]. split; [exact B1|]. lra.
Qed.

(** A road with waypoints every 5 m and an object following it at 10 m/s. *)
Definition road_xs : list Z := [100; 105; 110; 115; 120; 125; 130; 135; 140; 145; 150]%Z.
Definition road_scn lm : state (S := F32 lm) :=
  mkstate (S := F32 lm) [] [map (jpt lm) road_xs] [] [mkmeta 1 1 true true true false false] 0 None None.

Lemma road_wf lm : wf_scenario 1 11 (road_scn lm).
Proof.
  split; [|repeat split; auto with arith]. split; [reflexivity|]. intros r [<-|[]]. reflexivity.
Qed.

Lemma road_at lm k w : nth_error (map (jpt lm) road_xs) k = Some w -> exists x, nth_error road_xs k = Some x /\ w = jpt lm x /\ (100 <= x <= 150)%Z.
Proof.
  intros H. rewrite nth_error_map in H. destruct (nth_error road_xs k) as [x|] eqn:E; [|discriminate].
  cbn [option_map] in H. exists x. split; [reflexivity|]. split; [congruence|].
  apply nth_error_In in E. simpl in E. lia.
Qed.

Lemma road_route lm : route32 150 (map (jpt lm) road_xs).
Proof.
  intros k w Hk _. destruct (road_at lm k w Hk) as (x & _ & -> & B).
  exists (IZR x), 50, 0. split; [apply ofZ_fin; lia|]. split; [apply (ofZ_fin 50); simpl; lia|].
  split; [apply (ofZ_fin 0); simpl; lia|].
  split; [rewrite <- abs_IZR; apply IZR_le; lia|]. split; [rewrite Rabs_pos_eq; lra | rewrite Rabs_R0; lra].
Qed.

Lemma road_lane lm : lane32 (map (jpt lm) road_xs) 0 100 50 45.
Proof.
  assert (FX : forall x c, (100 <= x <= 150)%Z -> fin (p_x (jpt lm x)) c -> c = IZR x).
  { intros x c B F. refine (fin_fun _ _ _ F _). apply ofZ_fin. lia. }
  assert (F50 : fin (f32_ofZ 50) 50) by (apply (ofZ_fin 50); simpl; lia).
  assert (F00 : fin (f32_ofZ 0) 0) by (apply (ofZ_fin 0); simpl; lia).
  unfold lane32, ahead, aside. rewrite cos_0, sin_0. split; [|split].
  - intros k w c d Hk _ Fc Fd. destruct (road_at lm k w Hk) as (x & _ & -> & B). split; [exact F00|].
    assert (d = 50) by exact (fin_fun _ _ _ Fd F50). subst d. rewrite Rminus_eq_0, !Rmult_0_l, Rmult_0_r, Rminus_0_r, Rabs_R0. lra.
  - intros z Hz.
    assert (W : forall k x, nth_error road_xs k = Some x -> (100 <= x <= 150)%Z -> Rabs (IZR x - 100 - z) <= 3 ->
      exists k w c d, nth_error (map (jpt lm) road_xs) k = Some w /\ p_valid w = true /\ fin (p_x w) c /\ fin (p_y w) d /\ Rabs (1 * (c - 100) + 0 * (d - 50) - z) <= 3).
    { intros k x Hk B D. exists k, (jpt lm x), (IZR x), 50. rewrite nth_error_map, Hk. split; [reflexivity|]. split; [reflexivity|].
      split; [apply ofZ_fin; lia|]. split; [exact F50|]. replace (1 * (IZR x - 100) + 0 * (50 - 50) - z) with (IZR x - 100 - z) by ring. exact D. }
    destruct (Rle_lt_dec z 3); [apply (W 0%nat 100%Z eq_refl); [lia | apply Rabs_le; lra]|].
    destruct (Rle_lt_dec z 8); [apply (W 1%nat 105%Z eq_refl); [lia | apply Rabs_le; lra]|].
    destruct (Rle_lt_dec z 13); [apply (W 2%nat 110%Z eq_refl); [lia | apply Rabs_le; lra]|].
    destruct (Rle_lt_dec z 18); [apply (W 3%nat 115%Z eq_refl); [lia | apply Rabs_le; lra]|].
    destruct (Rle_lt_dec z 23); [apply (W 4%nat 120%Z eq_refl); [lia | apply Rabs_le; lra]|].
    destruct (Rle_lt_dec z 28); [apply (W 5%nat 125%Z eq_refl); [lia | apply Rabs_le; lra]|].
    destruct (Rle_lt_dec z 33); [apply (W 6%nat 130%Z eq_refl); [lia | apply Rabs_le; lra]|].
    destruct (Rle_lt_dec z 38); [apply (W 7%nat 135%Z eq_refl); [lia | apply Rabs_le; lra]|].
    destruct (Rle_lt_dec z 43); [apply (W 8%nat 140%Z eq_refl); [lia | apply Rabs_le; lra]|].
    apply (W 9%nat 145%Z eq_refl); [lia | apply Rabs_le; lra].
  - intros k w c d Hk _ Fc Fd Max. destruct (road_at lm k w Hk) as (x & Hx & -> & B).
    pose proof (Max 10%nat (jpt lm 150) eq_refl eq_refl) as L10.
    assert (L11 : (k < 11)%nat) by (apply (proj1 (nth_error_Some road_xs k)); rewrite Hx; discriminate).
    assert (k = 10%nat) by lia. subst k. assert (x = 150%Z) by (cbn in Hx; congruence). subst x.
    rewrite (FX _ _ B Fc). lra.
Qed.

Example C77_ex_route : exists s' q x y,
  run_policy StateDynamics far_cfg (actor_policy (P := unit) (K := unit) (sim_agent tt (fun _ => [true]) (constant_speed_policy (S := F32 ideal_libm) (f32_ofZ 10))) tt tt None)
    (road_scn ideal_libm) 10 = Ok s' /\
  at2 (s_sim s') 0 10 = Some q /\ p_valid q = true /\ fin (p_x q) x /\ fin (p_y q) y /\ 110 <= x <= 1101 / 10.
Proof.
  destruct (sim_runs (P := unit) (X := unit) (K := unit) 1 11 far_cfg tt (fun _ => [true]) (constant_speed_policy (S := F32 ideal_libm) (f32_ofZ 10)) tt tt None (road_scn ideal_libm) 10)
    as [s' Run]; [apply road_wf|reflexivity|discriminate|simpl; lia|simpl; lia| |].
  { intros s1 W1. refine (waypoint_total 1 11 true _ s1 _ W1 eq_refl _). rewrite map_length. apply W1. }
  assert (IC : in_control far_cfg (road_scn ideal_libm) 0) by (simpl; eexists; split; reflexivity).
  assert (Sq : sqrt (11 * 11 + 0 * 0) = 11).
  { replace (11 * 11 + 0 * 0) with (11 * 11) by ring. rewrite sqrt_square; lra. }
  assert (I10 : INR 10 = 10) by (simpl; lra).
  destruct (C77_constant_speed_route ideal_libm 1 11 far_cfg tt (fun _ => [true]) (f32_ofZ 10) tt tt (@None unit) (road_scn ideal_libm) s' 10 0 _
    (jpt ideal_libm 100) 10 150 256 12 45 100 50 0 11 0 ideal_accurate (road_wf _) Run ltac:(simpl; lia) ltac:(simpl; lia) ltac:(lia) IC eq_refl (road_route _)
    eq_refl eq_refl (ofZ_fin 100 ltac:(simpl; lia)) (ofZ_fin 50 ltac:(simpl; lia)) (ofZ_fin 0 ltac:(simpl; lia)) (ofZ_fin 11 ltac:(simpl; lia)) (ofZ_fin 0 ltac:(simpl; lia))
    (road_lane _) (ofZ_fin 10 ltac:(simpl; lia)) ltac:(lra) ltac:(lra) ltac:(rewrite Sq; lra) ltac:(lra) ltac:(lra) ltac:(lra) ltac:(rewrite I10; lra) 10%nat ltac:(lia))
    as (q & x & y & vx & vy & E & V & Fx & Fy & _ & _ & _ & A & _).
  exists s', q, x, y. split; [exact Run|]. split; [exact E|]. split; [exact V|]. split; [exact Fx|]. split; [exact Fy|].
  unfold ahead in A. rewrite cos_0, sin_0, Sq, I10 in A. apply Rabs_le_inv in A. lra.
Qed.

(** The constant-speed actor with the velocity of its first frame. *)
Example C77_ex_straight : exists s' q x y,
  run_policy StateDynamics far_cfg (actor_policy (P := unit) (K := unit) (constant_speed_actor (S := F32 ideal_libm) tt StateDynamics (fun _ => [true]) None) tt tt None)
    (road_scn ideal_libm) 10 = Ok s' /\
  at2 (s_sim s') 0 10 = Some q /\ p_valid q = true /\ fin (p_x q) x /\ fin (p_y q) y /\ 11099 / 100 <= x <= 11101 / 100 /\ 4999 / 100 <= y <= 5001 / 100.
Proof.
  assert (IC : in_control far_cfg (road_scn ideal_libm) 0) by (simpl; eexists; split; reflexivity).
  destruct (constant_speed_runs 1 11 far_cfg tt (fun _ => [true]) None tt tt (@None unit) (road_scn ideal_libm) 10
    (road_wf _) eq_refl ltac:(discriminate) ltac:(intros; reflexivity) (le_n 1) ltac:(simpl; lia)) as [s' Run].
  assert (I10 : INR 10 = 10) by (simpl; lra).
  destruct (C77_keeps_velocity ideal_libm 1 11 far_cfg tt (fun _ => [true]) tt tt (@None unit) (road_scn ideal_libm) s' 10 0
    (jpt ideal_libm 100) 100 256 11 100 50 11 0 (road_wf _) Run (le_n 1) ltac:(simpl; lia) ltac:(lia) IC eq_refl eq_refl
    (ofZ_fin 100 ltac:(simpl; lia)) (ofZ_fin 50 ltac:(simpl; lia)) (ofZ_fin 11 ltac:(simpl; lia)) (ofZ_fin 0 ltac:(simpl; lia))
    ltac:(rewrite Rabs_pos_eq; lra) ltac:(rewrite Rabs_pos_eq; lra) ltac:(rewrite Rabs_pos_eq; lra) ltac:(rewrite Rabs_R0; lra)
    ltac:(lra) ltac:(lra) ltac:(rewrite I10; lra) 10%nat ltac:(lia)) as (q & x & y & E & V & _ & _ & _ & Fx & Fy & A & B).
  exists s', q, x, y. split; [exact Run|]. split; [exact E|]. split; [exact V|]. split; [exact Fx|]. split; [exact Fy|].
  rewrite I10 in A, B. apply Rabs_le_inv in A, B. lra.
Qed.

(** The same with a given speed of 5 m/s. *)
Example C77_ex_given : exists s' q x y,
  run_policy StateDynamics far_cfg (actor_policy (P := unit) (K := unit) (constant_speed_actor (S := F32 ideal_libm) tt StateDynamics (fun _ => [true]) (Some (f32_ofZ 5))) tt tt None)
    (road_scn ideal_libm) 10 = Ok s' /\
  at2 (s_sim s') 0 10 = Some q /\ p_valid q = true /\ fin (p_x q) x /\ fin (p_y q) y /\ 10499 / 100 <= x <= 10501 / 100.
Proof.
  assert (IC : in_control far_cfg (road_scn ideal_libm) 0) by (simpl; eexists; split; reflexivity).
  destruct (constant_speed_runs (S := F32 ideal_libm) 1 11 far_cfg tt (fun _ => [true]) (Some (f32_ofZ 5)) tt tt (@None unit) (road_scn ideal_libm) 10
    (road_wf _) eq_refl ltac:(discriminate) ltac:(intros; reflexivity) (le_n 1) ltac:(simpl; lia)) as [s' Run].
  assert (I10 : INR 10 = 10) by (simpl; lra).
  destruct (C77_given_speed ideal_libm 1 11 far_cfg tt (fun _ => [true]) (f32_ofZ 5) tt tt (@None unit) (road_scn ideal_libm) s' 10 0
    (jpt ideal_libm 100) 5 100 256 11 100 50 0 ideal_accurate (road_wf _) Run (le_n 1) ltac:(simpl; lia) ltac:(lia) IC eq_refl eq_refl
    (ofZ_fin 100 ltac:(simpl; lia)) (ofZ_fin 50 ltac:(simpl; lia)) (ofZ_fin 0 ltac:(simpl; lia)) ltac:(rewrite Rabs_R0; lra) (ofZ_fin 5 ltac:(simpl; lia))
    ltac:(rewrite Rabs_pos_eq; lra) ltac:(rewrite Rabs_pos_eq; lra) ltac:(rewrite Rabs_pos_eq; lra)
    ltac:(lra) ltac:(lra) ltac:(rewrite I10; lra)) as (ux & uy & D & H).
  destruct (H 10%nat ltac:(lia)) as (q & x & y & E & V & _ & _ & _ & Fx & Fy & A & B).
  exists s', q, x, y. split; [exact Run|]. split; [exact E|]. split; [exact V|]. split; [exact Fx|]. split; [exact Fy|].
  rewrite cos_0, sin_0, dist_len in D. pose proof (len_fst (ux - 5 * 1) (uy - 5 * 0)) as D1.
  rewrite I10 in A. assert (D2 : Rabs (ux - 5 * 1) <= 11 / 2 ^ 20) by lra. apply Rabs_le_inv in A, D2. lra.
Qed.

Print Assumptions C77_idm_moves.
Print Assumptions C77_idm_sim_agent_moves.
Print Assumptions C77_constant_speed_route.
Print Assumptions C77_keeps_velocity.
Print Assumptions C77_given_speed.
Print Assumptions C77_moves_without_tolerance_refuted.
