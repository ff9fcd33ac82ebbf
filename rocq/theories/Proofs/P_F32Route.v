(** Following the logged route in float32: the nearest waypoint, the projection and the
    distance travelled. *)
From Coq Require Import List ZArith Reals Lra Lia Bool.
From Flocq Require Import Core.Raux IEEE754.BinarySingleNaN.
From Verif.Lib Require Import Base JaxIndex Scalar F32.
From Verif.Model Require Import Operations State Dynamics BaseEnv Dyn_State Geometry Discretizer Comfort Metrics Actor Waypoint.
From Verif.Spec Require Import StateSpec GeomSpec DynSpec AgentSpec F32Spec F32EpisodeSpec F32DriveSpec.
From Verif.Proofs Require Import Core P_Metrics P_Waypoint P_F32 P_F32Wrap P_F32Delta P_F32Bicycle P_F32Kim P_F32Special P_F32Overlap P_F32Idm.
Import ListNotations.
Open Scope R_scope.

(** * Argmin of finite numbers and plus infinity *)
Definition okd32 (x : f32) : Prop := x = B754_infinity false \/ exists r, fin x r.
Definition le32 (x y : f32) : Prop := forall q, fin y q -> exists r, fin x r /\ r <= q.

Lemma le32_refl x : le32 x x.
Proof. intros q H. exists q. split; [exact H | lra]. Qed.
Lemma le32_trans x y z : le32 x y -> le32 y z -> le32 x z.
Proof. intros A B q H. destruct (B q H) as (r & Fr & Hr). destruct (A r Fr) as (t & Ft & Ht). exists t. split; [exact Ft | lra]. Qed.

Lemma min_before32 lm x y : okd32 x -> okd32 y ->
  if min_before (S := F32 lm) x y then le32 x y else le32 y x.
Proof.
  intros X Y. unfold min_before.
  assert (N : fisnan (S := F32 lm) x = false).
  { destruct X as [->|(r & F)]; [vm_compute; reflexivity|].
    change (fisnan (S := F32 lm) x) with (negb (Beqb x x)). rewrite (eqb_fin _ _ _ _ F F), Req_bool_true; reflexivity. }
  rewrite N. cbn [andb]. rewrite orb_false_r. change (fltb (Scalar := F32 lm) x y) with (Bltb x y).
  destruct X as [->|(r & Fr)], Y as [->|(q & Fq)].
  - exact (le32_refl _).
  - destruct Fq as [Fy Ey]. destruct y as [s|s| |s m e H]; try discriminate; cbv; intros t [Ft _]; discriminate.
  - destruct Fr as [Fx Ex]. destruct x as [s|s| |s m e H]; try discriminate; cbv; intros t [Ft _]; discriminate.
  - rewrite (ltb_fin _ _ _ _ Fr Fq). destruct (Rlt_bool_spec r q).
    + intros t Ft. rewrite (fin_fun _ _ _ Ft Fq). exists r. split; [exact Fr | lra].
    + intros t Ft. rewrite (fin_fun _ _ _ Ft Fr). exists q. split; [exact Fq | lra].
Qed.

Lemma argmin_from32 lm (l : list f32) best bi i pre :
  okd32 best -> Forall okd32 l -> i = length pre -> nth_error pre bi = Some best ->
  (forall x, In x pre -> le32 best x) ->
  exists r, nth_error (pre ++ l) (argmin_from (S := F32 lm) best bi i l) = Some r /\ forall x, In x (pre ++ l) -> le32 r x.
Proof.
  revert best bi i pre. induction l as [|x l IH]; intros best bi i pre Ob Ol Li Nb M.
  - rewrite app_nil_r. exists best. auto.
  - pose proof (Forall_inv Ol) as Ox. pose proof (Forall_inv_tail Ol) as Ol'.
    assert (Eapp : pre ++ x :: l = (pre ++ [x]) ++ l) by (rewrite <- app_assoc; reflexivity). rewrite Eapp.
    pose proof (min_before32 lm x best Ox Ob) as MB. cbn [argmin_from]. destruct (min_before (S := F32 lm) x best).
    + apply IH; auto.
      * rewrite app_length. simpl. lia.
      * rewrite nth_error_app2 by lia. replace (i - length pre)%nat with 0%nat by lia. reflexivity.
      * intros y Hy. apply in_app_iff in Hy as [Hy|[<-|[]]]; [|apply le32_refl]. exact (le32_trans _ _ _ MB (M y Hy)).
    + apply IH; auto.
      * rewrite app_length. simpl. lia.
      * rewrite nth_error_app1; [exact Nb|]. apply nth_error_Some. congruence.
      * intros y Hy. apply in_app_iff in Hy as [Hy|[<-|[]]]; [exact (M y Hy) | exact MB].
Qed.

Lemma argmin32 lm (l : list f32) : l <> [] -> Forall okd32 l ->
  exists r, nth_error l (argmin (S := F32 lm) l) = Some r /\ forall x, In x l -> le32 r x.
Proof.
  destruct l as [|x l]; [congruence|]. intros _ O.
  apply (argmin_from32 lm l x 0 1 [x]); auto.
  - exact (Forall_inv O).
  - exact (Forall_inv_tail O).
  - intros y [<-|[]]. apply le32_refl.
Qed.

Lemma argmaxn_from_lt best bi i l : (bi < i -> argmaxn_from best bi i l < i + length l)%nat.
Proof.
  revert best bi i. induction l as [|x l IH]; intros best bi i H; cbn [argmaxn_from length]; [lia|].
  destruct (best <? x)%nat; refine (Nat.lt_le_trans _ _ _ (IH _ _ _ _) _); lia.
Qed.
Lemma argmaxn_lt l : l <> [] -> (argmaxn l < length l)%nat.
Proof. destruct l as [|x l]; [congruence|]. intros _. apply (argmaxn_from_lt x 0 1 l). lia. Qed.

(** * Distances *)
Lemma dist_len a b c d : dist (a, b) (c, d) = len (a - c) (b - d).
Proof. reflexivity. Qed.

Lemma len_le a b e : Rabs a <= e -> Rabs b <= e -> len a b <= 3 / 2 * e.
Proof.
  intros A B. assert (0 <= e) by (pose proof (Rabs_pos a); lra).
  unfold len. rewrite <- (sqrt_square (3 / 2 * e)) by lra. apply sqrt_le_1_alt.
  assert (a * a <= e * e) by (rewrite <- (Rabs_pos_eq (a * a)) by apply Rle_0_sqr; rewrite Rabs_mult; apply Rmult_le_compat; auto using Rabs_pos).
  assert (b * b <= e * e) by (rewrite <- (Rabs_pos_eq (b * b)) by apply Rle_0_sqr; rewrite Rabs_mult; apply Rmult_le_compat; auto using Rabs_pos).
  pose proof (Rle_0_sqr e) as Q. unfold Rsqr in Q. lra.
Qed.

(** The part of a vector along a unit vector is not longer than the vector. *)
Lemma along_le h a b : Rabs (cos h * a + sin h * b) <= len a b.
Proof.
  unfold len. rewrite <- sqrt_Rsqr_abs. apply sqrt_le_1_alt. unfold Rsqr.
  pose proof (sin2_cos2 h) as T. unfold Rsqr in T.
  pose proof (Rle_0_sqr (cos h * b - sin h * a)) as Q. unfold Rsqr in Q.
  replace (a * a + b * b) with ((sin h * sin h + cos h * cos h) * (a * a + b * b)) by (rewrite T; ring). lra.
Qed.

Lemma len_add a b c d : len (a + c) (b + d) <= len a b + len c d.
Proof.
  pose proof (triangle (a + c) (b + d) 0 0 c d) as T. unfold dist_euc, Rsqr in T.
  unfold len. rewrite !Rminus_0_r in T. replace (a + c - c) with a in T by ring. replace (b + d - d) with b in T by ring. exact T.
Qed.

Lemma len_polar t h : len (t * cos h) (t * sin h) = Rabs t.
Proof.
  unfold len. rewrite <- sqrt_Rsqr_abs. f_equal. unfold Rsqr. pose proof (sin2_cos2 h) as T. unfold Rsqr in T.
  replace (t * cos h * (t * cos h) + t * sin h * (t * sin h)) with (t * t * (sin h * sin h + cos h * cos h)) by ring. rewrite T. ring.
Qed.

Section Route.
  Variable lm : libm.
  Hypothesis AC : accurate32 lm.
  Notation S32 := (F32 lm).
  Variable P : R.
  Hypothesis P1 : 1 <= P <= 2 ^ 45.

  Let T1 : 0 < tiny <= P / 16777216 / 1000.
  Proof. pose proof tiny_small as T. lra. Qed.

  (** One entry of the distance array. *)
  Lemma way_dist32 (px py wx wy : f32) a b c d : fin px a -> fin py b -> fin wx c -> fin wy d ->
    Rabs a <= 2 * P -> Rabs b <= 2 * P -> Rabs c <= P -> Rabs d <= P ->
    exists r, fin (norm2 (S := S32) (fsub (Scalar := S32) wx px) (fsub (Scalar := S32) wy py)) r /\
      Rabs (r - dist (a, b) (c, d)) <= 60 * (P / 16777216).
  Proof.
    intros Fa Fb Fc Fd Ba Bb Bc Bd. assert (U : u32 = / 16777216) by reflexivity.
    destruct (ap_sub _ _ _ _ _ _ _ _ (ap_exact _ _ _ Fc Bc) (ap_exact _ _ _ Fa Ba) ltac:(lra)) as (x & Fx & Ex & Mx).
    destruct (ap_sub _ _ _ _ _ _ _ _ (ap_exact _ _ _ Fd Bd) (ap_exact _ _ _ Fb Bb) ltac:(lra)) as (y & Fy & Ey & My).
    assert (Ex' : Rabs (x - (c - a)) <= 4 * (P / 16777216)) by (refine (Rle_trans _ _ _ Ex _); rewrite U; lra).
    assert (Ey' : Rabs (y - (d - b)) <= 4 * (P / 16777216)) by (refine (Rle_trans _ _ _ Ey _); rewrite U; lra).
    pose proof (len_triangle (c - a) (d - b) x y) as L.
    assert (Bt : len (c - a) (d - b) <= 3 / 2 * (3 * P)) by (apply len_le; lra).
    destruct (vel_norm_fin lm _ _ x y (8 * P) Fx Fy ltac:(lra)) as (r & Fr & R0 & Er).
    { apply Rabs_le_inv in L. lra. }
    exists r. split; [exact Fr|].
    assert (DE : dist (a, b) (c, d) = len (c - a) (d - b)) by (unfold dist, len; cbn [fst snd]; f_equal; ring).
    rewrite DE. replace (r - len (c - a) (d - b)) with ((r - len x y) + (len x y - len (c - a) (d - b))) by ring.
    eapply Rle_trans; [apply Rabs_triang|]. rewrite U in Er. lra.
  Qed.

  Lemma trig_ap (h : f32) a : fin h a -> Rabs a <= 4 ->
    ap (fcos (Scalar := S32) h) (cos a) (2 * u32) 1 /\ ap (fsin (Scalar := S32) h) (sin a) (2 * u32) 1.
  Proof.
    intros F B. destruct (proj1 AC _ _ F B) as (c & s & Fc & Fs & Bc & Bs & Ec & Es).
    replace (/ 2 ^ 23) with (2 * u32) in * by (unfold u32; simpl; lra).
    split; [exists c | exists s]; (split; [assumption|]); split; auto; apply Rabs_le; [apply COS_bound | apply SIN_bound].
  Qed.

  (** The projection on the line through a waypoint. *)
  Lemma line32 (px py wx wy yaw : f32) a b c d h : fin px a -> fin py b -> fin wx c -> fin wy d -> fin yaw h ->
    Rabs a <= 2 * P -> Rabs b <= 2 * P -> Rabs c <= P -> Rabs d <= P -> Rabs h <= 4 ->
    let inner := fadd (Scalar := S32) (fmul (Scalar := S32) (fcos (Scalar := S32) yaw) (fsub (Scalar := S32) px wx))
                                      (fmul (Scalar := S32) (fsin (Scalar := S32) yaw) (fsub (Scalar := S32) py wy)) in
    let t := cos h * (a - c) + sin h * (b - d) in
    exists x y, fin (fadd (Scalar := S32) (fmul (Scalar := S32) (fcos (Scalar := S32) yaw) inner) wx) x /\
      fin (fadd (Scalar := S32) (fmul (Scalar := S32) (fsin (Scalar := S32) yaw) inner) wy) y /\
      dist (x, y) (c + t * cos h, d + t * sin h) <= P / 2 ^ 17 /\
      dist (x, y) (c, d) <= dist (a, b) (c, d) + P / 2 ^ 17.
  Proof.
    intros Fa Fb Fc Fd Fh Ba Bb Bc Bd Bh inner t. assert (U : u32 = / 16777216) by reflexivity.
    destruct (trig_ap _ _ Fh Bh) as [Ac As].
    set (e := P / 16777216) in *.
    assert (E0 : 0 < e <= 2 ^ 21) by (unfold e; lra).
    assert (EP : P = 16777216 * e) by (unfold e; lra).
    assert (Ax : ap (fsub (Scalar := S32) px wx) (a - c) (4 * e) (3 * P)).
    { eapply ap_weaken; [apply (ap_sub _ _ _ _ _ _ _ _ (ap_exact _ _ _ Fa Ba) (ap_exact _ _ _ Fc Bc)); lra| |]; rewrite ?U; lra. }
    assert (Ay : ap (fsub (Scalar := S32) py wy) (b - d) (4 * e) (3 * P)).
    { eapply ap_weaken; [apply (ap_sub _ _ _ _ _ _ _ _ (ap_exact _ _ _ Fb Bb) (ap_exact _ _ _ Fd Bd)); lra| |]; rewrite ?U; lra. }
    assert (Mx : ap (fmul (Scalar := S32) (fcos (Scalar := S32) yaw) (fsub (Scalar := S32) px wx)) (cos h * (a - c)) (14 * e) (3 * P)).
    { eapply ap_weaken; [apply (ap_mul _ _ _ _ _ _ _ _ Ac Ax)| |]; rewrite ?U; lra. }
    assert (My : ap (fmul (Scalar := S32) (fsin (Scalar := S32) yaw) (fsub (Scalar := S32) py wy)) (sin h * (b - d)) (14 * e) (3 * P)).
    { eapply ap_weaken; [apply (ap_mul _ _ _ _ _ _ _ _ As Ay)| |]; rewrite ?U; lra. }
    assert (Ai : ap inner t (35 * e) (6 * P)).
    { eapply ap_weaken; [apply (ap_add _ _ _ _ _ _ _ _ Mx My)| |]; rewrite ?U; lra. }
    assert (Qx : ap (fmul (Scalar := S32) (fcos (Scalar := S32) yaw) inner) (cos h * t) (54 * e) (6 * P)).
    { eapply ap_weaken; [apply (ap_mul _ _ _ _ _ _ _ _ Ac Ai)| |]; rewrite ?U; lra. }
    assert (Qy : ap (fmul (Scalar := S32) (fsin (Scalar := S32) yaw) inner) (sin h * t) (54 * e) (6 * P)).
    { eapply ap_weaken; [apply (ap_mul _ _ _ _ _ _ _ _ As Ai)| |]; rewrite ?U; lra. }
    destruct (ap_add _ _ _ _ _ _ _ _ Qx (ap_exact _ _ _ Fc Bc) ltac:(lra)) as (x & Fx & Ex & _).
    destruct (ap_add _ _ _ _ _ _ _ _ Qy (ap_exact _ _ _ Fd Bd) ltac:(lra)) as (y & Fy & Ey & _).
    assert (Ex' : Rabs (x - (c + t * cos h)) <= 62 * e).
    { replace (x - (c + t * cos h)) with (x - (cos h * t + c)) by ring. refine (Rle_trans _ _ _ Ex _). rewrite ?U; lra. }
    assert (Ey' : Rabs (y - (d + t * sin h)) <= 62 * e).
    { replace (y - (d + t * sin h)) with (y - (sin h * t + d)) by ring. refine (Rle_trans _ _ _ Ey _). rewrite ?U; lra. }
    exists x, y. split; [exact Fx|]. split; [exact Fy|].
    rewrite !dist_len. split.
    - eapply Rle_trans; [apply len_le; eassumption|]. unfold e. lra.
    - pose proof (len_triangle (t * cos h) (t * sin h) (x - c) (y - d)) as L.
      replace (x - c - t * cos h) with (x - (c + t * cos h)) in L by ring.
      replace (y - d - t * sin h) with (y - (d + t * sin h)) in L by ring.
      rewrite len_polar in L. pose proof (along_le h (a - c) (b - d)) as A. fold t in A. apply Rabs_le_inv in L. lra.
  Qed.

  (** The projection, extrapolating or not, and what it means to have reached the end. *)
  Lemma project_any32 ex (log : list (pt (S := S32))) (px py : f32) a b k0 w0 : route32 P log ->
    fin px a -> fin py b -> Rabs a <= 2 * P -> Rabs b <= 2 * P ->
    nth_error log k0 = Some w0 -> p_valid w0 = true ->
    exists k w c d h x y (qx qy : f32) reached,
      project_point (S := S32) ex (px, py) log = Ok ((qx, qy), p_yaw w, reached) /\
      nth_error log k = Some w /\ p_valid w = true /\ fin (p_x w) c /\ fin (p_y w) d /\ fin (p_yaw w) h /\ Rabs h <= 4 /\
      Rabs c <= P /\ Rabs d <= P /\
      (ex = true \/ reached = false ->
       fin qx x /\ fin qy y /\
       dist (x, y) (c + (cos h * (a - c) + sin h * (b - d)) * cos h, d + (cos h * (a - c) + sin h * (b - d)) * sin h) <= P / 2 ^ 17 /\
       dist (x, y) (c, d) <= dist (a, b) (c, d) + P / 2 ^ 17) /\
      (forall k' w' c' d', nth_error log k' = Some w' -> p_valid w' = true -> fin (p_x w') c' -> fin (p_y w') d' ->
        dist (a, b) (c, d) <= dist (a, b) (c', d') + 120 * (P / 16777216)) /\
      (reached = true -> 5 <= dist (a, b) (c, d) + 60 * (P / 16777216) \/
        exists kl wl cl dl, nth_error log kl = Some wl /\ p_valid wl = true /\
          (forall j w', nth_error log j = Some w' -> p_valid w' = true -> (j <= kl)%nat) /\
          fin (p_x wl) cl /\ fin (p_y wl) dl /\ dist (c, d) (cl, dl) <= 6 / 100 + 60 * (P / 16777216)).
  Proof.
    intros HR Fa Fb Ba Bb H0 V0.
    set (dw := fun w : pt (S := S32) => if p_valid w then norm2 (S := S32) (fsub (Scalar := S32) (p_x w) px) (fsub (Scalar := S32) (p_y w) py)
                                        else finf (Scalar := S32)).
    assert (HV : forall k w, nth_error log k = Some w -> p_valid w = true ->
      exists c d h r, fin (p_x w) c /\ fin (p_y w) d /\ fin (p_yaw w) h /\ Rabs c <= P /\ Rabs d <= P /\ Rabs h <= 4 /\
        fin (dw w) r /\ Rabs (r - dist (a, b) (c, d)) <= 60 * (P / 16777216)).
    { intros k w Hk Hv. destruct (HR k w Hk Hv) as (c & d & h & Fc & Fd & Fh & Bc & Bd & Bh).
      destruct (way_dist32 px py _ _ a b c d Fa Fb Fc Fd Ba Bb Bc Bd) as (r & Fr & Er).
      exists c, d, h, r. unfold dw. rewrite Hv. auto 10. }
    assert (OK : Forall okd32 (map dw log)).
    { apply Forall_forall. intros z Hz. apply in_map_iff in Hz as (w & <- & Hw). apply In_nth_error in Hw as (k & Hk).
      destruct (p_valid w) eqn:Hv.
      - destruct (HV k w Hk Hv) as (c & d & h & r & _ & _ & _ & _ & _ & _ & Fr & _). right. exists r. exact Fr.
      - left. unfold dw. rewrite Hv. reflexivity. }
    assert (NE : map dw log <> []). { intros E. apply map_eq_nil in E. subst log. destruct k0; discriminate. }
    destruct (argmin32 lm _ NE OK) as (m & Hm & Min). set (k := argmin (S := S32) (map dw log)) in *.
    rewrite nth_error_map in Hm. destruct (nth_error log k) as [w|] eqn:Hk; [|discriminate]. cbn [option_map] in Hm.
    assert (Hm' : dw w = m) by congruence. clear Hm.
    assert (In0 : forall k' w', nth_error log k' = Some w' -> In (dw w') (map dw log)).
    { intros k' w' H'. apply in_map, nth_error_In with k'. exact H'. }
    assert (Vw : p_valid w = true).
    { destruct (p_valid w) eqn:Hv; [reflexivity|]. exfalso.
      destruct (HV k0 w0 H0 V0) as (c & d & h & r & _ & _ & _ & _ & _ & _ & Fr & _).
      destruct (Min _ (In0 _ _ H0) _ Fr) as (q & [Fq _] & _). rewrite <- Hm' in Fq. unfold dw in Fq. rewrite Hv in Fq. discriminate. }
    destruct (HV k w Hk Vw) as (c & d & h & r & Fc & Fd & Fh & Bc & Bd & Bh & Fr & Er).
    destruct (line32 px py _ _ _ a b c d h Fa Fb Fc Fd Fh Ba Bb Bc Bd Bh) as (x & y & Fx & Fy & L1 & L2).
    destruct (last_idx_valid log k0 w0 H0 V0) as (last & Hlast & Vl & Hmax).
    destruct (HR _ _ Hlast Vl) as (cl & dl & hl & Fcl & Fdl & _ & Bcl & Bdl & _).
    destruct (way_dist32 (p_x w) (p_y w) _ _ c d cl dl Fc Fd Fcl Fdl ltac:(lra) ltac:(lra) Bcl Bdl) as (rl & Frl & Erl).
    unfold project_point. cbv zeta. cbn [fst snd].
    change (map (fun w1 : pt (S := S32) => if p_valid w1 then norm2 (S := S32) (fsub (Scalar := S32) (p_x w1) px) (fsub (Scalar := S32) (p_y w1) py)
                                        else finf (Scalar := S32)) log) with (map dw log).
    change (mapi (fun i (w1 : pt (S := S32)) => if p_valid w1 then i else 0%nat) log) with (vidx log).
    fold k. rewrite Hk, Hlast, nth_error_map, Hk. cbn [option_map].
    match goal with |- context [negb ex && ?z] => set (rc := z) end.
    exists k, w, c, d, h, x, y. do 2 eexists. exists rc. split; [reflexivity|].
    split; [exact Hk|]. split; [exact Vw|]. split; [exact Fc|]. split; [exact Fd|]. split; [exact Fh|]. split; [exact Bh|].
    split; [exact Bc|]. split; [exact Bd|]. split; [|split].
    - intros HE. replace (negb ex && rc) with false; [split; [exact Fx|]; split; [exact Fy|]; split; [exact L1 | exact L2]|].
      destruct HE as [->| ->]; [reflexivity | symmetry; apply andb_false_r].
    - intros k' w' c' d' H' V' Fc' Fd'. destruct (HV k' w' H' V') as (c1 & d1 & h1 & r1 & G1 & G2 & _ & _ & _ & _ & Fr1 & Er1).
      rewrite (fin_fun _ _ _ Fc' G1), (fin_fun _ _ _ Fd' G2).
      destruct (Min _ (In0 _ _ H') _ Fr1) as (q & Fq & Hq). rewrite <- Hm' in Fq. rewrite (fin_fun _ _ _ Fq Fr) in Hq.
      apply Rabs_le_inv in Er, Er1. lra.
    - unfold rc. intros HE. apply orb_true_iff in HE as [HE|HE].
      + right. exists (argmaxn (vidx log)), last, cl, dl. do 5 (split; [assumption|]).
        destruct (lit_near lm 5 100 (6 / 100) ltac:(simpl; lia) ltac:(simpl; lia) ltac:(rewrite Rabs_pos_eq; simpl; lra)) as (z & Fz & Ez).
        assert (HE' : Bltb (norm2 (S := S32) (fsub (Scalar := S32) (p_x last) (p_x w)) (fsub (Scalar := S32) (p_y last) (p_y w))) (flit (Scalar := S32) 5 100) = true) by exact HE.
        rewrite (ltb_fin _ _ _ _ Frl Fz) in HE'. destruct (Rlt_bool_spec rl z) as [L|L]; [|discriminate].
        pose proof tiny_small as TS. unfold u32 in Ez. apply Rabs_le_inv in Ez, Erl. lra.
      + left.
        assert (HE' : Bltb (flit (Scalar := S32) 5 1) (dw w) = true) by exact HE.
        rewrite (ltb_fin _ _ _ _ (lit_int lm 5 ltac:(simpl; lia)) Fr) in HE'. destruct (Rlt_bool_spec 5 r) as [L|L]; [|discriminate].
        apply Rabs_le_inv in Er. lra.
  Qed.

  Lemma project32 (log : list (pt (S := S32))) (px py : f32) a b k0 w0 : route32 P log ->
    fin px a -> fin py b -> Rabs a <= 2 * P -> Rabs b <= 2 * P ->
    nth_error log k0 = Some w0 -> p_valid w0 = true ->
    exists k w c d h x y (qx qy : f32) reached,
      project_point (S := S32) true (px, py) log = Ok ((qx, qy), p_yaw w, reached) /\
      nth_error log k = Some w /\ p_valid w = true /\ fin (p_x w) c /\ fin (p_y w) d /\ fin (p_yaw w) h /\ Rabs h <= 4 /\
      Rabs c <= P /\ Rabs d <= P /\
      fin qx x /\ fin qy y /\
      dist (x, y) (c + (cos h * (a - c) + sin h * (b - d)) * cos h, d + (cos h * (a - c) + sin h * (b - d)) * sin h) <= P / 2 ^ 17 /\
      forall k' w' c' d', nth_error log k' = Some w' -> p_valid w' = true -> fin (p_x w') c' -> fin (p_y w') d' ->
        dist (x, y) (c, d) <= dist (a, b) (c', d') + 248 * (P / 16777216).
  Proof.
    intros HR Fa Fb Ba Bb H0 V0.
    destruct (project_any32 true log px py a b k0 w0 HR Fa Fb Ba Bb H0 V0)
      as (k & w & c & d & h & x & y & qx & qy & rc & E & Hk & Vw & Fc & Fd & Fh & Bh & Bc & Bd & HL & HN & _).
    destruct (HL (or_introl eq_refl)) as (Fx & Fy & L1 & L2).
    exists k, w, c, d, h, x, y, qx, qy, rc. do 12 (split; [assumption|]).
    intros k' w' c' d' H' V' Fc' Fd'. pose proof (HN k' w' c' d' H' V' Fc' Fd'). lra.
  Qed.

  (** One step of an object that is valid now.  [C] bounds the speeds. *)
  Variable C : R.
  Hypothesis C1 : 1 <= C <= P.

  Lemma travel32 (ns cs : f32) r v : fin ns r -> fin cs v -> 0 <= r <= C -> 0 <= v <= C ->
    ap (fmul (Scalar := S32) (fdiv (Scalar := S32) (fadd (Scalar := S32) ns cs) (f2 (S := S32))) (default_time_delta (S := S32)))
       ((r + v) / 2 * (1 / 10)) (C / 2 ^ 22) (C / 10).
  Proof.
    intros Fr Fv Br Bv. pose proof tiny_small as TS. assert (U : u32 = / 16777216) by reflexivity.
    destruct (tenth_fin lm) as (d & Fd & Ed).
    assert (Asum : ap (fadd (Scalar := S32) ns cs) (r + v) (3 * C / 16777216) (2 * C)).
    { eapply ap_weaken; [apply (ap_add _ _ _ _ _ _ _ _ (ap_exact _ _ C Fr ltac:(rewrite Rabs_pos_eq; lra)) (ap_exact _ _ C Fv ltac:(rewrite Rabs_pos_eq; lra))); lra| |]; rewrite ?U; lra. }
    destruct Asum as (z & Fz & Ez & Mz).
    assert (Bz : Rabs (z / 2) <= 2 * C).
    { apply Rabs_le_inv in Ez, Mz. apply Rabs_le. lra. }
    assert (Ah : ap (fdiv (Scalar := S32) (fadd (Scalar := S32) ns cs) (f2 (S := S32))) ((r + v) / 2) (4 * C / 16777216) C).
    { exists (rnd (z / 2)). split; [apply (div_fin _ _ _ _ Fz (f2_fin lm)); [lra | apply big127; lra]|].
      split; [|rewrite Rabs_pos_eq; lra].
      pose proof (rnd_cap _ _ Bz) as E. rewrite U in E. apply Rabs_le_inv in E, Ez. apply Rabs_le. lra. }
    assert (At : ap (default_time_delta (S := S32)) (1 / 10) (/ 100000000) (1 / 10)).
    { exists d. split; [exact Fd|]. split; [exact Ed | rewrite Rabs_pos_eq; lra]. }
    eapply ap_weaken; [apply (ap_mul _ _ _ _ _ _ _ _ Ah At)| |]; rewrite ?U; lra.
  Qed.

  Lemma next32 (log : list (pt (S := S32))) (cur : pt (S := S32)) (ns : f32) x0 y0 h0 vx vy v r k0 w0 c0 d0 :
    route32 P log -> p_valid cur = true -> fin (p_x cur) x0 -> fin (p_y cur) y0 -> fin (p_yaw cur) h0 ->
    fin (p_vx cur) vx -> fin (p_vy cur) vy -> fin (obj_speed cur) v -> fin ns r ->
    Rabs x0 <= P -> Rabs y0 <= P -> Rabs h0 <= 4 -> 0 <= r <= C -> 0 <= v <= C ->
    nth_error log k0 = Some w0 -> p_valid w0 = true -> fin (p_x w0) c0 -> fin (p_y w0) d0 ->
    exists q k w c d h x y t qvx qvy, next_by_projection (S := S32) false default_time_delta log cur ns true = Ok q /\
      nth_error log k = Some w /\ p_valid w = true /\ fin (p_x w) c /\ fin (p_y w) d /\ fin (p_yaw w) h /\ Rabs h <= 4 /\
      Rabs c <= P /\ Rabs d <= P /\
      p_yaw q = p_yaw w /\ fin (p_x q) x /\ fin (p_y q) y /\
      dist (x, y) (c + t * cos h, d + t * sin h) <= P / 2 ^ 17 /\
      Rabs (t - (cos h * (x0 + (r + v) / 20 * cos h0 - c) + sin h * (y0 + (r + v) / 20 * sin h0 - d))) <= P / 2 ^ 20 /\
      dist (x, y) (c, d) <= dist (x0, y0) (c0, d0) + (r + v) / 20 + P / 2 ^ 15 /\
      fin (p_vx q) qvx /\ fin (p_vy q) qvy /\
      ((qvx = vx /\ qvy = vy) \/ len (qvx - r * cos h0) (qvy - r * sin h0) <= 8 * C / 16777216).
  Proof.
    intros HR Vc Fx Fy Fh Fvx Fvy Fs Fr Bx By Bh Br Bv H0 V0 Fc0 Fd0. pose proof tiny_small as TS.
    assert (U : u32 = / 16777216) by reflexivity.
    pose proof (travel32 ns (obj_speed cur) r v Fr Fs Br Bv) as At.
    destruct (trig_ap _ _ Fh Bh) as [Ac As].
    set (tr := fmul (Scalar := S32) (fdiv (Scalar := S32) (fadd (Scalar := S32) ns (obj_speed cur)) (f2 (S := S32))) (default_time_delta (S := S32))) in *.
    set (tt := (r + v) / 2 * (1 / 10)) in *.
    assert (Btt : 0 <= tt <= C / 10) by (unfold tt; lra).
    set (e := P / 16777216) in *. assert (E0 : 0 < e <= 2 ^ 21) by (unfold e; lra).
    assert (EP : P = 16777216 * e) by (unfold e; lra).
    assert (Mc : ap (fmul (Scalar := S32) tr (fcos (Scalar := S32) (p_yaw cur))) (tt * cos h0) (5 * e) (P / 10)).
    { eapply ap_weaken; [apply (ap_mul _ _ _ _ _ _ _ _ At Ac)| |]; rewrite ?U; lra. }
    assert (Ms : ap (fmul (Scalar := S32) tr (fsin (Scalar := S32) (p_yaw cur))) (tt * sin h0) (5 * e) (P / 10)).
    { eapply ap_weaken; [apply (ap_mul _ _ _ _ _ _ _ _ At As)| |]; rewrite ?U; lra. }
    destruct (ap_add _ _ _ _ _ _ _ _ (ap_exact _ _ _ Fx Bx) Mc ltac:(lra)) as (a & Fa & Ea & Ma).
    destruct (ap_add _ _ _ _ _ _ _ _ (ap_exact _ _ _ Fy By) Ms ltac:(lra)) as (b & Fb & Eb & Mb).
    assert (Ea' : Rabs (a - (x0 + tt * cos h0)) <= 8 * e) by (refine (Rle_trans _ _ _ Ea _); rewrite ?U; lra).
    assert (Eb' : Rabs (b - (y0 + tt * sin h0)) <= 8 * e) by (refine (Rle_trans _ _ _ Eb _); rewrite ?U; lra).
    assert (Ba : Rabs a <= 2 * P) by (apply Rabs_le_inv in Ea', Ma; apply Rabs_le; lra).
    assert (Bb : Rabs b <= 2 * P) by (apply Rabs_le_inv in Eb', Mb; apply Rabs_le; lra).
    destruct (project32 log _ _ a b k0 w0 HR Fa Fb Ba Bb H0 V0)
      as (k & w & c & d & h & x & y & qx & qy & reached & HP & Hk & Vw & Fc & Fd & Fhw & Bhw & Bc & Bd & Fqx & Fqy & L1 & L2).
    set (t := cos h * (a - c) + sin h * (b - d)) in *.
    assert (Et : Rabs (t - (cos h * (x0 + (r + v) / 20 * cos h0 - c) + sin h * (y0 + (r + v) / 20 * sin h0 - d))) <= P / 2 ^ 20).
    { replace (t - _) with (cos h * (a - (x0 + tt * cos h0)) + sin h * (b - (y0 + tt * sin h0))) by (unfold t, tt; field).
      eapply Rle_trans; [apply along_le|]. eapply Rle_trans; [apply len_le; eassumption|]. unfold e. lra. }
    (* distances *)
    assert (D1 : dist (a, b) (c0, d0) <= dist (x0, y0) (c0, d0) + tt + 16 * e).
    { rewrite !dist_len.
      pose proof (len_triangle (x0 + tt * cos h0 - c0) (y0 + tt * sin h0 - d0) (a - c0) (b - d0)) as L.
      replace (a - c0 - (x0 + tt * cos h0 - c0)) with (a - (x0 + tt * cos h0)) in L by ring.
      replace (b - d0 - (y0 + tt * sin h0 - d0)) with (b - (y0 + tt * sin h0)) in L by ring.
      apply Rabs_le_inv in L.
      assert (L' : len (x0 + tt * cos h0 - c0) (y0 + tt * sin h0 - d0) <= len (x0 - c0) (y0 - d0) + len (tt * cos h0) (tt * sin h0)).
      { pose proof (len_add (x0 - c0) (y0 - d0) (tt * cos h0) (tt * sin h0)) as LA.
        replace (x0 + tt * cos h0 - c0) with (x0 - c0 + tt * cos h0) by ring.
        replace (y0 + tt * sin h0 - d0) with (y0 - d0 + tt * sin h0) by ring. exact LA. }
      rewrite len_polar, (Rabs_pos_eq tt) in L' by lra. lra. }
    specialize (L2 k0 w0 c0 d0 H0 V0 Fc0 Fd0). fold e in L2.
    (* velocities *)
    assert (Ar : ap ns r 0 C) by (apply ap_exact; [exact Fr | rewrite Rabs_pos_eq; lra]).
    assert (Wc : ap (fmul (Scalar := S32) ns (fcos (Scalar := S32) (p_yaw cur))) (r * cos h0) (4 * C / 16777216) C).
    { eapply ap_weaken; [apply (ap_mul _ _ _ _ _ _ _ _ Ar Ac)| |]; rewrite ?U; lra. }
    assert (Ws : ap (fmul (Scalar := S32) ns (fsin (Scalar := S32) (p_yaw cur))) (r * sin h0) (4 * C / 16777216) C).
    { eapply ap_weaken; [apply (ap_mul _ _ _ _ _ _ _ _ Ar As)| |]; rewrite ?U; lra. }
    destruct Wc as (ux & Fux & Eux & _). destruct Ws as (uy & Fuy & Euy & _).
    pose proof (len_le _ _ _ Eux Euy) as L3.
    unfold next_by_projection. cbv zeta. cbn [negb andb].
    match type of HP with ?l = _ =>
      match goal with |- context [project_point true ?z log] => change (project_point true z log) with l end end.
    rewrite HP. cbn [bind]. rewrite Vc. cbn [fst snd].
    destruct reached.
    - exists (mkpt (S := S32) qx qy (p_z cur) (p_vx cur) (p_vy cur) (p_yaw w) true (p_ts cur) (p_len cur) (p_wid cur) (p_hei cur)), k, w, c, d, h, x, y, t, vx, vy.
      cbn [p_x p_y p_vx p_vy p_yaw]. split; [reflexivity|]. repeat (split; [first [assumption | reflexivity]|]).
      split; [unfold e, tt in *; lra|]. split; [assumption|]. split; [assumption|]. left. auto.
    - exists (mkpt (S := S32) qx qy (p_z cur) (fmul (Scalar := S32) ns (fcos (Scalar := S32) (p_yaw cur))) (fmul (Scalar := S32) ns (fsin (Scalar := S32) (p_yaw cur)))
                (p_yaw w) true (p_ts cur) (p_len cur) (p_wid cur) (p_hei cur)), k, w, c, d, h, x, y, t, ux, uy.
      cbn [p_x p_y p_vx p_vy p_yaw]. split; [reflexivity|]. repeat (split; [first [assumption | reflexivity]|]).
      split; [unfold e, tt in *; lra|]. split; [assumption|]. split; [assumption|]. right. lra.
  Qed.
End Route.
