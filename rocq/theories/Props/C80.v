(** C80: progress along the route in float32. *)
From Coq Require Import List ZArith Reals Lra Lia Bool.
From Flocq Require Import Core.Raux IEEE754.BinarySingleNaN.
From Verif.Lib Require Import Base JaxIndex Scalar F32.
From Verif.Model Require Import Operations State Geometry Discretizer Comfort Metrics.
From Verif.Spec Require Import StateSpec GeomSpec MetricSpec F32Spec F32EpisodeSpec F32GeomSpec F32MapSpec.
From Verif.Proofs Require Import Core P_Metrics P_F32 P_F32Wrap P_F32Map P_F32Progress P_Libm.
Import ListNotations.
Open Scope R_scope.

(** All positions at most [P].  0 and invalid if the SDC is invalid or no on-route path
    has a valid point.  Otherwise valid: up to [P / 2^17] a path nearest to the SDC is
    taken, on it the arc lengths [a0], [a1] and [a] of the points nearest to the SDC's
    first and last logged position and to its position now, and the value is
    [(a - a0) / (a1 - a0)] to a relative error of 2^-22 (1 if [a0 = a1]).  At the last
    logged position it is exactly 1, at the first exactly 0.  Nothing is assumed of the
    maths library. *)
Theorem C80_progression_report lm P n T (s : state (S := F32 lm)) t i p x l0 x0 l1 x1 paths m :
  1 <= P <= 2 ^ 30 ->
  wf_state n T s -> s_t s = Z.of_nat t -> (t < T)%nat -> the_sdc (s_meta s) i ->
  frame32 P (s_sim s) t -> frame32 P (s_log s) 0 -> frame32 P (s_log s) (T - 1) ->
  at2 (s_sim s) i t = Some p -> fin (p_x p) (fst x) -> fin (p_y p) (snd x) ->
  at2 (s_log s) i 0 = Some l0 -> fin (p_x l0) (fst x0) -> fin (p_y l0) (snd x0) ->
  at2 (s_log s) i (T - 1) = Some l1 -> fin (p_x l1) (fst x1) -> fin (p_y l1) (snd x1) ->
  s_paths s = Some paths -> paths32 P paths -> arcs32 paths -> progression_compute s = Ok m ->
  ((p_valid p = false \/ ~ exists c, path_point_with32 true paths c) /\ mr_valid m = false /\ fin (mr_value m) 0) \/
  (p_valid p = true /\ mr_valid m = true /\
   exists pa a0 a1 a v, ref_path32 (P / 2 ^ 17) paths x pa /\
     arc32 (P / 2 ^ 17) (path_pts pa) x0 a0 /\ arc32 (P / 2 ^ 17) (path_pts pa) x1 a1 /\ arc32 (P / 2 ^ 17) (path_pts pa) x a /\
     fin (mr_value m) v /\ (a0 = a1 -> v = 1) /\ (x = x1 -> v = 1) /\ (x = x0 -> a0 <> a1 -> v = 0) /\
     (a0 <> a1 -> Rabs (v - (a - a0) / (a1 - a0)) <= Rabs ((a - a0) / (a1 - a0)) / 2 ^ 22 + / 2 ^ 100)).
Proof. intros HP. exact (progression32 lm P HP n T s t i p x l0 x0 l1 x1 paths m). Qed.

(* ---------------- a concrete case ---------------- *)

Section Case.
  Variable lm : libm.

  (** Logged from x = 0 to x = 10 along a route with a point every 5 m; beside it a path
      off the route. *)
  Definition pcar (x : Z) : pt (S := F32 lm) :=
    mkpt (S := F32 lm) (f32_ofZ x) (f32_ofZ 0) (f32_ofZ 0) (f32_ofZ 0) (f32_ofZ 0) (f32_ofZ 0) true 0
      (f32_ofZ 4) (f32_ofZ 2) (f32_ofZ 1).
  Definition ppnt (x arc : Z) : pathpt (S := F32 lm) :=
    mkpp (S := F32 lm) (f32_ofZ x) (f32_ofZ 0) (f32_ofZ 0) 1 true (f32_ofZ arc).
  Definition pline : list (pathpt (S := F32 lm)) := [ppnt (-5) 0; ppnt 0 5; ppnt 5 10; ppnt 10 15].
  Definition proute : list (path (S := F32 lm)) :=
    [mkpath (S := F32 lm) [ppnt 5 100; ppnt 10 101] false; mkpath (S := F32 lm) pline true].
  Definition pscn (x : Z) : state (S := F32 lm) :=
    mkstate (S := F32 lm) [[pcar x; pcar x]] [[pcar 0; pcar 10]] []
      [mkmeta 1 1 true true true false false] 0 (Some proute) None.

  Lemma small z : (Z.abs z <= 128)%Z -> fin (f32_ofZ z) (IZR z).
  Proof. intros; apply ofZ_fin; lia. Qed.
  Lemma small_le z : (Z.abs z <= 128)%Z -> Rabs (IZR z) <= 128.
  Proof. intros; rewrite <- abs_IZR; apply IZR_le; lia. Qed.

  Lemma pscn_wf x : wf_state 1 2 (pscn x).
  Proof.
    split; [split; [reflexivity | intros r [<-|[]]; reflexivity]|].
    split; [split; [reflexivity | intros r [<-|[]]; reflexivity]|].
    split; [reflexivity|]. lia.
  Qed.

  Lemma pscn_sdc x : the_sdc (s_meta (pscn x)) 0.
  Proof. split; [eexists; split; reflexivity|]. intros [|j] m Hj V; [reflexivity | destruct j; discriminate]. Qed.

  Lemma pframe (tr : traj (S := F32 lm)) t x : (Z.abs x <= 128)%Z -> at2 tr 0 t = Some (pcar x) ->
    (forall i, at2 tr (Datatypes.S i) t = None) -> frame32 128 tr t.
  Proof.
    intros Hx E N [|i] q Hq; [|rewrite N in Hq; discriminate]. assert (pcar x = q) by congruence. subst q.
    exists (IZR x), 0. split; [now apply small|]. split; [apply (small 0); lia|]. split; [now apply small_le|]. rewrite Rabs_R0; lra.
  Qed.

  Definition on_proute (q : pathpt (S := F32 lm)) : Prop := exists c a, (Z.abs c <= 128)%Z /\ (Z.abs a <= 128)%Z /\ q = ppnt c a.
  Lemma proute_pts pa q : In pa proute -> In q (path_pts pa) -> on_proute q.
  Proof.
    intros [<-|[<-|[]]] Hq; cbn [path_pts] in Hq.
    - destruct Hq as [<-|[<-|[]]]; [exists 5%Z, 100%Z | exists 10%Z, 101%Z]; repeat split; lia.
    - destruct Hq as [<-|[<-|[<-|[<-|[]]]]]; [exists (-5)%Z, 0%Z | exists 0%Z, 5%Z | exists 5%Z, 10%Z | exists 10%Z, 15%Z]; repeat split; lia.
  Qed.
  Lemma ppnt_xy c a : (Z.abs c <= 128)%Z -> xy32 (ppnt c a) (IZR c, 0).
  Proof. intros Hc. split; cbn [pp_x pp_y ppnt fst snd]; [now apply small | apply (small 0); lia]. Qed.

  Lemma proute32 : paths32 128 proute.
  Proof.
    intros pa q Hpa Hq _. destruct (proute_pts pa q Hpa Hq) as (c & a & Hc & Ha & ->).
    exists (IZR c, 0). split; [now apply ppnt_xy|]. cbn [fst snd]. split; [now apply small_le | rewrite Rabs_R0; lra].
  Qed.
  Lemma proute_arcs : arcs32 proute.
  Proof.
    intros pa q Hpa Hq _. destruct (proute_pts pa q Hpa Hq) as (c & a & Hc & Ha & ->).
    exists (IZR a). split; [now apply small|]. split; [eapply Rle_trans; [now apply small_le|]; simpl; lra|].
    intros q' a' Hq' _ F N. destruct (proute_pts pa q' Hpa Hq') as (c' & b & Hc' & Hb & ->).
    rewrite (fin_fun _ _ _ F (small b Hb)) in *. rewrite <- minus_IZR, <- abs_IZR.
    apply Rle_trans with 1; [simpl; lra|]. apply IZR_le. assert (b <> a) by (intros ->; auto). lia.
  Qed.

  Lemma dist_line a b : dist (a, 0) (b, 0) = Rabs (a - b).
  Proof. unfold dist; cbn [fst snd]. replace (_ + _) with (Rsqr (a - b)) by (unfold Rsqr; ring). apply sqrt_Rsqr_abs. Qed.

  Lemma pline_arc z a : In z [-5; 0; 5; 10]%Z -> arc32 (128 / 2 ^ 17) pline (IZR z, 0) a -> a = IZR z + 5.
  Proof.
    intros Hz (q & c & Hq & _ & X & F & M).
    assert (G : In (ppnt z (z + 5)) pline) by exact (in_map (fun w => ppnt w (w + 5)) [-5; 0; 5; 10]%Z z Hz).
    assert (Z1 : (Z.abs z <= 10)%Z) by (destruct Hz as [<-|[<-|[<-|[<-|[]]]]]; lia).
    assert (H : exists w, (Z.abs w <= 10)%Z /\ q = ppnt w (w + 5) /\ (w = z \/ 5 <= Z.abs (z - w))%Z).
    { assert (W : In q (map (fun w => ppnt w (w + 5)) [-5; 0; 5; 10]%Z)) by exact Hq.
      apply in_map_iff in W as (w & <- & Hw). exists w. clear - Hz Hw.
      split; [|split; [reflexivity|]]; destruct Hz as [<-|[<-|[<-|[<-|[]]]]], Hw as [<-|[<-|[<-|[<-|[]]]]]; lia. }
    destruct H as (w & Hw & -> & D).
    destruct X as (X1 & X2). destruct (ppnt_xy w (w + 5) ltac:(lia)) as (Y1 & Y2). cbn [fst snd] in *.
    assert (C : c = (IZR w, 0)) by (destruct c; cbn [fst snd] in *; f_equal; eapply fin_fun; eauto). subst c.
    specialize (M _ _ G eq_refl (ppnt_xy z (z + 5) ltac:(lia))). rewrite !dist_line, Rminus_eq_0, Rabs_R0 in M.
    rewrite <- minus_IZR, <- abs_IZR in M.
    destruct D as [->|D].
    - rewrite (fin_fun _ _ _ F (small (z + 5) ltac:(lia))), plus_IZR. reflexivity.
    - exfalso. apply IZR_le in D. simpl in M. lra.
  Qed.

  Lemma pscn_value z : In z [-5; 0; 5; 10]%Z -> exists m v, progression_compute (pscn z) = Ok m /\ mr_valid m = true /\
    fin (mr_value m) v /\ Rabs (v - IZR z / 10) <= / 2 ^ 20.
  Proof.
    intros Hz. assert (Z1 : (Z.abs z <= 10)%Z) by (destruct Hz as [<-|[<-|[<-|[<-|[]]]]]; lia).
    assert (Hm : exists m, progression_compute (pscn z) = Ok m) by (eexists; reflexivity). destruct Hm as (m & Hm).
    assert (Y0 : fin (f32_ofZ 0) 0) by (apply (small 0); lia).
    destruct (C80_progression_report lm 128 1 2 (pscn z) 0 0 (pcar z) (IZR z, 0) (pcar 0) (0, 0) (pcar 10) (10, 0) proute m ltac:(lra) (pscn_wf z) eq_refl
      ltac:(lia) (pscn_sdc z) (pframe (s_sim (pscn z)) 0 z ltac:(lia) eq_refl ltac:(intros [|?]; reflexivity))
      (pframe (s_log (pscn z)) 0 0 ltac:(lia) eq_refl ltac:(intros [|?]; reflexivity)) (pframe (s_log (pscn z)) 1 10 ltac:(lia) eq_refl ltac:(intros [|?]; reflexivity))
      eq_refl (small z ltac:(lia)) Y0 eq_refl Y0 Y0 eq_refl (small 10 ltac:(lia)) Y0 eq_refl proute32 proute_arcs Hm)
      as [([N|N] & _)|(_ & V & pa & a0 & a1 & a & v & (Ipa & On & _) & A0 & A1 & A & F & _ & _ & _ & E)].
    - discriminate.
    - exfalso. apply N. exists (0, 0), (mkpath (S := F32 lm) pline true), (ppnt 0 5). split; [right; left; reflexivity|]. split; [reflexivity|].
      split; [right; left; reflexivity|]. split; [reflexivity | apply (ppnt_xy 0); lia].
    - destruct Ipa as [<-|[<-|[]]]; [discriminate|]. cbn [path_pts] in A0, A1, A.
      pose proof (pline_arc 0 a0 ltac:(cbn; auto) A0) as E0. pose proof (pline_arc 10 a1 ltac:(cbn; auto) A1) as E1. pose proof (pline_arc z a Hz A) as Ea.
      exists m, v. split; [exact Hm|]. split; [exact V|]. split; [exact F|].
      specialize (E ltac:(lra)). rewrite E0, E1, Ea in E. replace ((IZR z + 5 - (0 + 5)) / (10 + 5 - (0 + 5))) with (IZR z / 10) in E by field.
      refine (Rle_trans _ _ _ E _).
      assert (Rabs (IZR z / 10) <= 1).
      { unfold Rdiv. rewrite Rabs_mult, (Rabs_pos_eq (/ 10)) by lra. rewrite <- abs_IZR. apply IZR_le in Z1. lra. }
      simpl. lra.
  Qed.
End Case.

(** Half way, whatever the maths library computes. *)
Example C80_ex lm : exists m v, progression_compute (pscn lm 5) = Ok m /\ mr_valid m = true /\
  fin (mr_value m) v /\ Rabs (v - 1 / 2) <= / 2 ^ 20.
Proof.
  destruct (pscn_value lm 5 ltac:(cbn; auto)) as (m & v & H & V & F & E). exists m, v. repeat (split; [assumption|]).
  replace (1 / 2) with (5 / 10) by field. exact E.
Qed.

(** Progress is not bounded below by 0: behind its logged start the SDC has negative
    progress. *)
Theorem C80_progression_nonnegative_refuted : exists (s : state (S := F32 ideal_libm)) m v,
  wf_state 1 2 s /\ progression_compute s = Ok m /\ mr_valid m = true /\ fin (mr_value m) v /\ v < 0.
Proof.
  destruct (pscn_value ideal_libm (-5) ltac:(cbn; auto)) as (m & v & H & V & F & E). exists (pscn ideal_libm (-5)), m, v.
  split; [apply pscn_wf|]. split; [exact H|]. split; [exact V|]. split; [exact F|].
  apply Rabs_le_inv in E. simpl in E. lra.
Qed.

Print Assumptions C80_progression_report.
Print Assumptions C80_ex.
Print Assumptions C80_progression_nonnegative_refuted.
