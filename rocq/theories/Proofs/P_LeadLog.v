(** Leader selection along an arbitrary list of check points, and along the log. *)
From Coq Require Import List ZArith Reals Lra Lia Bool.
From Verif.Lib Require Import Base JaxIndex Scalar XR.
From Verif.Model Require Import Operations State Dynamics Geometry Discretizer Metrics Waypoint.
From Verif.Spec Require Import StateSpec GeomSpec WaypointSpec LogAheadSpec.
From Verif.Proofs Require Import P_Pose P_Overlap P_Metrics P_Waypoint P_IDM P_Lead.
Import ListNotations.
Open Scope R_scope.

(** A finite non-empty set of points has one of smallest value. *)
Lemma smallest_exists (P : nat -> Prop) (f : nat -> R -> Prop) (n : nat) :
  (forall t, P t -> (t < n)%nat) -> (forall t, P t \/ ~ P t) ->
  (forall t, P t -> exists r, f t r) -> (forall t r r', P t -> f t r -> f t r' -> r = r') ->
  (exists t, P t) -> exists v, smallest P f v.
Proof.
  intros B Dc E U. revert P B Dc E U. induction n as [|n IH]; intros P B Dc E U (t & Ht).
  - specialize (B t Ht). lia.
  - destruct (Dc n) as [Hn|Hn].
    + destruct (E n Hn) as [r Hr].
      destruct (Classical_Prop.classic (exists t, P t /\ (t < n)%nat)) as [(t' & Ht' & L)|N].
      * destruct (IH (fun t => P t /\ (t < n)%nat)) as (v & (t1 & [P1 L1] & F1) & M).
        -- intros x [_ Hx]. exact Hx.
        -- intros x. destruct (Dc x), (Nat.lt_ge_cases x n); [left; auto| | |]; right; intros [? ?]; try tauto; lia.
        -- intros x [Hx _]. auto.
        -- intros x a b [Hx _]. now apply U.
        -- eauto.
        -- destruct (Rle_dec v r) as [Lv|Lv].
           ++ exists v. split; [eauto|]. intros j a Pj Fj. specialize (B j Pj).
              destruct (Nat.eq_dec j n) as [->|Nj]; [now rewrite (U n a r Pj Fj Hr)|]. apply (M j); auto. split; auto. lia.
           ++ exists r. split; [eauto|]. intros j a Pj Fj. specialize (B j Pj).
              destruct (Nat.eq_dec j n) as [->|Nj]; [rewrite (U n a r Pj Fj Hr); lra|].
              assert (v <= a) by (apply (M j); auto; split; auto; lia). lra.
      * exists r. split; [eauto|]. intros j a Pj Fj. specialize (B j Pj).
        destruct (Nat.eq_dec j n) as [->|Nj]; [rewrite (U n a r Pj Fj Hr); lra|].
        destruct N. exists j. split; auto. lia.
    + apply IH; auto; [|eauto]. intros x Hx. specialize (B x Hx). assert (x <> n) by (intros ->; auto). lia.
Qed.

Section Any.
  Variables (cur tr : list (pt (S := XR))) (i : nat) (me : pt (S := XR)) (fm : rframe).
  Variable cp : nat -> rframe -> R -> Prop.
  Hypothesis Hfr : forall j p, nth_error cur j = Some p -> p_valid p = true -> exists g, is_frame p g.
  Hypothesis Hto : forall t w, nth_error tr t = Some w -> p_valid w = true -> exists f e, cp t f e.
  Hypothesis Hof : forall t f e, cp t f e -> exists w, nth_error tr t = Some w /\ p_valid w = true /\
    pt_box w = fbox (advanced f e) /\ pt_dist3 (S := XR) me w = Fin (dist_ahead fm f e).

  Let coll := mapi (fun j c => map (fun w => collision (S := XR) i w j c) tr) cur.
  Let speeds : list (list xr) := map (fun c => map (fun _ => obj_speed (S := XR) c) tr) cur.
  Let valid := map (fun c : pt (S := XR) => map (fun _ : pt (S := XR) => p_valid c) tr) cur.
  Let any := map (fun t => existsb (fun r => nth t r false) coll) (seq 0 (length tr)).

  Lemma any_lead_eq : object_lead (S := XR) i tr cur me
    = (compute_lead_velocity (S := XR) speeds coll valid (length tr), compute_lead_distance (S := XR) tr any me).
  Proof. reflexivity. Qed.

  Lemma any_decided : decided speeds coll valid (length cur) (length tr).
  Proof.
    unfold decided, rect. repeat split.
    - unfold speeds. apply map_length.
    - unfold speeds. intros r Hr. apply in_map_iff in Hr as (c & <- & _). apply map_length.
    - unfold coll. apply mapi_length.
    - unfold coll. intros r Hr. apply In_nth_error in Hr as [j Hj]. rewrite nth_error_mapi in Hj.
      destruct (nth_error cur j); [|discriminate]. apply Some_inj in Hj. subst r. apply map_length.
    - unfold valid. apply map_length.
    - unfold valid. intros r Hr. apply in_map_iff in Hr as (c & <- & _). apply map_length.
  Qed.

  Lemma any_at2_coll j t b : at2 coll j t = Some b <->
    exists c w, nth_error cur j = Some c /\ nth_error tr t = Some w /\ b = collision (S := XR) i w j c.
  Proof.
    unfold at2, coll. rewrite nth_error_mapi. destruct (nth_error cur j) as [c|]; cbn [option_map].
    - rewrite nth_error_map. destruct (nth_error tr t) as [w|]; cbn [option_map].
      + split; [intros H; apply Some_inj in H; eauto|intros (c' & w' & A & B & ->)].
        apply Some_inj in A, B. now subst.
      + split; [discriminate|intros (c' & w' & _ & B & _); discriminate].
    - split; [discriminate|intros (c' & w' & A & _); discriminate].
  Qed.
  Lemma any_at2_valid j t b : at2 valid j t = Some b <->
    exists c w, nth_error cur j = Some c /\ nth_error tr t = Some w /\ b = p_valid c.
  Proof.
    unfold at2, valid. rewrite nth_error_map. destruct (nth_error cur j) as [c|]; cbn [option_map].
    - rewrite nth_error_map. destruct (nth_error tr t) as [w|]; cbn [option_map].
      + split; [intros H; apply Some_inj in H; eauto|intros (c' & w' & A & B & ->)].
        apply Some_inj in A, B. now subst.
      + split; [discriminate|intros (c' & w' & _ & B & _); discriminate].
    - split; [discriminate|intros (c' & w' & A & _); discriminate].
  Qed.
  Lemma any_at2_speed j t b : at2 speeds j t = Some b <->
    exists c w, nth_error cur j = Some c /\ nth_error tr t = Some w /\ b = obj_speed (S := XR) c.
  Proof.
    unfold at2, speeds. rewrite nth_error_map. destruct (nth_error cur j) as [c|]; cbn [option_map].
    - rewrite nth_error_map. destruct (nth_error tr t) as [w|]; cbn [option_map].
      + split; [intros H; apply Some_inj in H; eauto|intros (c' & w' & A & B & ->)].
        apply Some_inj in A, B. now subst.
      + split; [discriminate|intros (c' & w' & _ & B & _); discriminate].
    - split; [discriminate|intros (c' & w' & A & _); discriminate].
  Qed.

  Lemma any_hit j t : hit coll valid j t <-> blocked cur cp i j t.
  Proof.
    split.
    - intros [A _]. apply any_at2_coll in A as (c & w & Hc & Hw & E). unfold collision in E.
      destruct (p_valid w && p_valid c && negb (i =? j)%nat) eqn:K; [|discriminate].
      apply andb_true_iff in K as [K Nj]. apply andb_true_iff in K as [Vw Vc].
      destruct (Nat.eqb_spec i j) as [|Nij]; [discriminate|].
      destruct (Hto t w Hw Vw) as (f & e & C). destruct (Hof t f e C) as (w' & Hw' & _ & Bw & _).
      rewrite Hw in Hw'. apply Some_inj in Hw'. subst w'.
      destruct (Hfr j c Hc Vc) as [g Hg]. split; [congruence|]. exists f, e, c, g. repeat (split; [solve [auto]|]).
      symmetry in E. rewrite Bw, (pt_box_frame c g Hg) in E. now apply overlap_exact in E.
    - intros (Nj & f & e & c & g & C & Hc & Vc & Hg & Q). destruct (Hof t f e C) as (w & Hw & Vw & Bw & _). split.
      + apply any_at2_coll. exists c, w. repeat split; auto. unfold collision. rewrite Vw, Vc.
        destruct (Nat.eqb_spec i j) as [|_]; [congruence|]. cbn [andb negb].
        rewrite Bw, (pt_box_frame c g Hg). symmetry. now apply overlap_exact.
      + apply any_at2_valid. exists c, w. auto.
  Qed.

  Lemma any_any t : nth_error any t = Some true <-> exists j, blocked cur cp i j t.
  Proof.
    unfold any. split.
    - intros H. rewrite nth_error_map in H.
      destruct (nth_error (seq 0 (length tr)) t) as [q|] eqn:Eq; [|discriminate].
      cbn [option_map] in H. apply Some_inj in H.
      assert (Lt : (t < length tr)%nat) by (apply nth_error_Some_lt in Eq; now rewrite seq_length in Eq).
      rewrite (nth_error_nth' _ 0%nat), seq_nth in Eq by (rewrite ?seq_length; auto). apply Some_inj in Eq. simpl in Eq. subst q.
      apply existsb_exists in H as (r & Hr & Hn). apply In_nth_error in Hr as [j Hj].
      exists j. apply any_hit.
      assert (A : at2 coll j t = Some true).
      { unfold at2. rewrite Hj. assert (Lr : length r = length tr).
        { destruct any_decided as (_ & [_ R] & _). apply R. eapply nth_error_In; eauto. }
        rewrite (nth_error_nth' r false) by lia. now rewrite Hn. }
      split; auto. apply any_at2_coll in A as (c & w & Hc & Hw & E). apply any_at2_valid. exists c, w. repeat split; auto.
      unfold collision in E. destruct (p_valid w && p_valid c && negb (i =? j)%nat) eqn:K; [|discriminate].
      apply andb_true_iff in K as [K _]. apply andb_true_iff in K as [_ K]. auto.
    - intros (j & H). apply any_hit in H as [A _]. pose proof A as A'.
      apply any_at2_coll in A' as (c & w & _ & Hw & _). apply nth_error_Some_lt in Hw. rewrite nth_error_map.
      rewrite (nth_error_nth' _ 0%nat), seq_nth by (rewrite ?seq_length; lia). cbn [option_map]. f_equal.
      apply existsb_exists. unfold at2 in A.
      destruct (nth_error coll j) as [r|] eqn:E; [|discriminate]. exists r.
      split; [eapply nth_error_In; eauto|]. now apply nth_error_nth.
  Qed.

  Lemma any_hit_speeds j t : hit coll valid j t -> exists r, at2 speeds j t = Some (Fin r) /\ 0 <= r.
  Proof.
    intros [A B]. apply any_at2_coll in A as (c & w & Hc & Hw & _). apply any_at2_valid in B as (c' & w' & Hc' & _ & V).
    rewrite Hc in Hc'. apply Some_inj in Hc'. subst c'.
    destruct (Hfr j c Hc (eq_sym V)) as [g Hg]. exists (rspeed g). split; [|apply rspeed_nonneg].
    apply any_at2_speed. exists c, w. repeat split; auto. symmetry. now apply obj_speed_frame.
  Qed.

  Lemma any_leader : exists u d, object_lead (S := XR) i tr cur me = (Fin u, Fin d) /\ leader_along cur cp i fm u d.
  Proof.
    rewrite any_lead_eq. destruct (first_true any) as [Hn|(k0 & Hk & Hb)].
    - exists (-1), (-1).
      rewrite (lead_velocity_none speeds coll valid (length cur) (length tr) any_decided any_hit_speeds).
      + rewrite lead_distance_none by auto. split; auto. left. split; auto.
        intros j k H. apply (Hn k). apply any_any. eauto.
      + intros j t H. apply (Hn t). apply any_any. exists j. now apply any_hit.
    - apply any_any in Hk as (j0 & H0).
      assert (FH : first_hit (hit coll valid) k0).
      { split; [exists j0; now apply any_hit|]. intros t j Ht Hh. apply (Hb t Ht). apply any_any. exists j.
        now apply any_hit. }
      destruct (lead_velocity_first speeds coll valid (length cur) (length tr) any_decided any_hit_speeds k0 FH)
        as (u & Eu & Su).
      assert (Uniq : forall t r r' f e f' e', cp t f e -> r = dist_ahead fm f e -> cp t f' e' ->
                       r' = dist_ahead fm f' e' -> r = r').
      { intros t r r' f e f' e' C -> C' ->. destruct (Hof _ _ _ C) as (w & Hw & _ & _ & D1).
        destruct (Hof _ _ _ C') as (w' & Hw' & _ & _ & D2). rewrite Hw in Hw'. apply Some_inj in Hw'. subst w'. congruence. }
      destruct (smallest_exists (fun t => exists j, blocked cur cp i j t)
                  (fun t r => exists f e, cp t f e /\ r = dist_ahead fm f e) (length tr)) as (d & Sd).
      { intros t (j & (_ & f & e & _ & _ & C & _)). destruct (Hof t f e C) as (w & Hw & _). now apply nth_error_Some_lt in Hw. }
      { intros t. apply Classical_Prop.classic. }
      { intros t (j & (_ & f & e & _ & _ & C & _)). eauto. }
      { intros t r r' _ (f & e & C & E) (f' & e' & C' & E'). eauto. }
      { eauto. }
      exists u, d. rewrite Eu.
      pose proof Sd as [(t1 & B1 & f1 & e1 & C1 & D1) Md].
      rewrite (lead_distance_first tr any me t1 d).
      + split; auto. right. exists k0. split; [|split; auto].
        * destruct FH as [(j & Hj) Hl]. split; [exists j; now apply any_hit|].
          intros t j' Ht Hw. apply (Hl t j' Ht). now apply any_hit.
        * destruct Su as [(j1 & A1 & E1) C]. split.
          -- exists j1. split; [now apply any_hit|].
             apply any_at2_speed in E1 as (c & w & Hc & Hw & Ev).
             destruct A1 as [_ A1]. apply any_at2_valid in A1 as (c' & w' & Hc' & _ & V).
             rewrite Hc in Hc'. apply Some_inj in Hc'. subst c'.
             destruct (Hfr j1 c Hc (eq_sym V)) as [g Hg]. exists c, g. split; auto. split; auto.
             rewrite (obj_speed_frame c g Hg (eq_sym V)) in Ev. congruence.
          -- intros j r Hw (p & g & Hp & Hg & ->). pose proof Hw as (_ & f & e & q & g' & Cq & Hq & Vq & _).
             rewrite Hp in Hq. apply Some_inj in Hq. subst q.
             destruct (Hof _ _ _ Cq) as (w & Hww & _). apply (C j); [now apply any_hit|].
             apply any_at2_speed. exists p, w. repeat split; auto.
             symmetry. now apply obj_speed_frame.
      + unfold any. now rewrite map_length, seq_length.
      + now apply any_any.
      + destruct (Hof _ _ _ C1) as (w & A & _ & _ & B). exists w. split; auto. now rewrite D1.
      + intros t w Ht Hw. apply any_any in Ht as (j & Hj). pose proof Hj as (_ & f & e & q & g' & Cq & _).
        destruct (Hof _ _ _ Cq) as (w' & A & _ & _ & B). rewrite Hw in A. apply Some_inj in A. subst w'.
        exists (dist_ahead fm f e). split; auto. apply (Md t); eauto.
  Qed.
End Any.

(* ---------------- along the log ---------------- *)

Lemma frame_dist me fm p f : is_frame me fm -> is_frame p f -> pt_dist3 (S := XR) me p = Fin (dist_ahead fm f 0).
Proof.
  intros (A1 & A2 & A3 & _) (B1 & B2 & B3 & _). unfold pt_dist3. rewrite A1, A2, A3, B1, B2, B3, !fsub_Fin, norm3_Fin.
  unfold dist_ahead. rewrite !Rmult_0_l, !Rplus_0_r. reflexivity.
Qed.

Lemma headway_frame_dist me fm D N p f k : (N <> 0)%nat -> is_frame me fm -> is_frame p f ->
  pt_dist3 (S := XR) me (headway_point (Fin D) N p k) = Fin (dist_ahead fm f (D * INR k / INR N)).
Proof.
  intros H (A1 & A2 & A3 & _) (B1 & B2 & B3 & _ & _ & B6 & _). unfold pt_dist3, headway_point. cbn [p_x p_y p_z].
  rewrite spacing_Fin by auto. rewrite A1, A2, A3, B1, B2, B3, B6, fcos_Fin, fsin_Fin, !fmul_Fin, !fadd_Fin, !fsub_Fin, norm3_Fin.
  unfold dist_ahead. do 2 f_equal. ring.
Qed.

Section Log.
  Variables (log : list (pt (S := XR))) (me : pt (S := XR)) (fm : rframe).
  Hypothesis Fme : is_frame me fm.
  Hypothesis Hlog : forall j p, nth_error log j = Some p -> p_valid p = true -> exists g, is_frame p g.
  Variables (k0 : nat) (p0 : pt (S := XR)).
  Hypothesis H0 : nth_error log k0 = Some p0.
  Hypothesis V0 : p_valid p0 = true.

  Let ds := map (fun w => if p_valid w then pt_dist3 (S := XR) me w else finf) log.

  Lemma nearest_logged_idx : nearest_logged fm log (argmin (S := XR) ds).
  Proof.
    assert (N : ds <> []).
    { intros E. assert (L : length ds = length log) by apply map_length. rewrite E in L. apply nth_error_Some_lt in H0. simpl in L. lia. }
    assert (En : forall j p g, nth_error log j = Some p -> p_valid p = true -> is_frame p g ->
                   nth_error ds j = Some (Fin (dist_ahead fm g 0))).
    { intros j p g Hj Vj Hg. unfold ds. rewrite nth_error_map, Hj. cbn [option_map]. rewrite Vj.
      now rewrite (frame_dist me fm p g). }
    assert (O : Forall okd ds).
    { apply Forall_forall. intros x Hx. apply In_nth_error in Hx as [j Hj].
      unfold ds in Hj. rewrite nth_error_map in Hj. destruct (nth_error log j) as [p|] eqn:Ep; [|discriminate].
      cbn [option_map] in Hj. apply Some_inj in Hj. subst x. destruct (p_valid p) eqn:Vp; [|exact I].
      destruct (Hlog j p Ep Vp) as [g Hg]. rewrite (frame_dist me fm p g) by auto. exact I. }
    destruct (argmin_okd ds N O) as (r & Hr & HM). set (k := argmin (S := XR) ds) in *.
    pose proof Hr as Hr'. unfold ds in Hr'. rewrite nth_error_map in Hr'.
    destruct (nth_error log k) as [p|] eqn:Ep; [|discriminate]. cbn [option_map] in Hr'. apply Some_inj in Hr'.
    destruct (Hlog k0 p0 H0 V0) as [g0 Hg0]. pose proof (En k0 p0 g0 H0 V0 Hg0) as E0.
    destruct (p_valid p) eqn:Vp.
    - destruct (Hlog k p Ep Vp) as [g Hg]. exists p, g. repeat (split; [solve [auto]|]).
      intros j p' g' Hj Vj Hg'. pose proof (eq_trans (eq_sym Hr) (En k p g Ep Vp Hg)) as Ek. apply Some_inj in Ek.
      destruct (HM j _ (En j p' g' Hj Vj Hg')) as [A B]. rewrite ?Hr', ?Ek in A, B. simpl in A, B. apply Rltb_false in A.
      split; [lra|]. intros J. specialize (B J). now apply Rltb_true in B.
    - subst r. destruct (HM k0 _ E0) as [A _]. discriminate.
  Qed.
End Log.

Lemma nth_error_skipn' {A} (l : list A) s t : nth_error (skipn s l) t = nth_error l (s + t).
Proof. revert l; induction s as [|s IH]; intros [|a l]; simpl; auto; now destruct t. Qed.

Lemma rev_last {A} (l : list A) : l <> [] -> exists q r, rev l = q :: r /\ nth_error l (length l - 1) = Some q.
Proof.
  destruct l as [|a l] using rev_ind; [congruence|]. intros _. rewrite rev_app_distr. exists a, (rev l). split; auto.
  rewrite app_length. cbn [length]. rewrite nth_error_app2 by lia. now replace (length l + 1 - 1 - length l)%nat with 0%nat by lia.
Qed.

Section Along.
  Variables (p : idm_params (S := XR)) (log cur : list (pt (S := XR))) (D : R) (i : nat) (me : pt (S := XR)) (fm : rframe).
  Hypothesis HL : lookahead_from_current_position p = false.
  Hypothesis HA : additional_lookahead_distance p = Fin D.
  Hypothesis Fme : is_frame me fm.
  Hypothesis Hfr : forall j q, nth_error cur j = Some q -> p_valid q = true -> exists g, is_frame q g.
  Hypothesis Hlog : forall j q, nth_error log j = Some q -> p_valid q = true -> exists g, is_frame q g.
  Let W := max_lookahead p.
  Let N := additional_headway_points p.
  Hypothesis HW : (1 <= W <= length log)%nat.

  Let k := argmin (S := XR) (map (fun w => if p_valid w then pt_dist3 (S := XR) me w else finf) log).
  Let s := Nat.min k (length log - W).
  Let win := firstn W (skipn s log).

  Lemma win_nth t : (t < W)%nat -> nth_error win t = nth_error log (s + t).
  Proof. intros H. unfold win. rewrite nth_error_firstn_lt by auto. apply nth_error_skipn'. Qed.
  Lemma win_len : length win = W.
  Proof. unfold win. rewrite firstn_length, skipn_length. unfold s. lia. Qed.

  Lemma along_traj : exists q tr, nth_error log (s + (W - 1)) = Some q /\
    lookahead_traj (S := XR) p log me = Ok tr /\
    (forall t, (t < W)%nat -> nth_error tr t = nth_error log (s + t)) /\
    (forall m, (1 <= m <= N)%nat -> nth_error tr (W - 1 + m) = Some (headway_point (S := XR) (Fin D) N q m)) /\
    length tr = (W + N)%nat.
  Proof.
    assert (Wn : win <> []) by (intros E; pose proof win_len as L; rewrite E in L; simpl in L; lia).
    destruct (rev_last win Wn) as (q & r & Er & Eq). rewrite win_len in Eq.
    assert (Er' : reference_traj (S := XR) me log W = Ok win).
    { unfold reference_traj, dyn_slice. destruct (W <=? length log)%nat eqn:E; [|apply Nat.leb_gt in E; lia].
      f_equal. unfold win. do 2 f_equal. fold k. unfold norm_start, s.
      destruct (Z.of_nat k <? 0)%Z eqn:Ez; [apply Z.ltb_lt in Ez; lia|]. lia. }
    exists q. unfold lookahead_traj. rewrite HL, HA. fold W N. rewrite Er'. cbn [bind].
    destruct (Nat.ltb_spec 0 N) as [Hn|Hn].
    - eexists. split; [rewrite <- win_nth by lia; exact Eq|]. split; [reflexivity|]. unfold add_headway_waypoints. rewrite Er.
      split; [|split].
      + intros t Ht. rewrite nth_error_app1 by (rewrite win_len; auto). now apply win_nth.
      + intros m Hm. rewrite nth_error_app2 by (rewrite win_len; lia). rewrite win_len, nth_error_map.
        replace (W - 1 + m - W)%nat with (m - 1)%nat by lia.
        rewrite (nth_error_nth' _ 0%nat) by (rewrite seq_length; lia). rewrite seq_nth by lia. cbn [option_map].
        now replace (1 + (m - 1))%nat with m by lia.
      + rewrite app_length, map_length, seq_length, win_len. reflexivity.
    - exists win. split; [rewrite <- win_nth by lia; exact Eq|]. split; [reflexivity|].
      split; [apply win_nth|]. split; [intros; lia|]. rewrite win_len. lia.
  Qed.

  Lemma along_leader : exists tr u d, lookahead_traj (S := XR) p log me = Ok tr /\ length tr = (W + N)%nat /\
    object_lead (S := XR) i tr cur me = (Fin u, Fin d) /\ leader_along cur (check_point log s W D N) i fm u d.
  Proof.
    destruct along_traj as (q & tr & Hq & Ht & A & B & L).
    destruct (any_leader cur tr i me fm (check_point log s W D N)) as (u & d & Eo & Ld); auto; [| |].
    - intros t w Hw V. pose proof (nth_error_Some_lt _ _ _ Hw) as Lt. rewrite L in Lt.
      destruct (Nat.lt_ge_cases t W) as [Lw|Lw].
      + rewrite A in Hw by auto. destruct (Hlog _ _ Hw V) as [g Hg]. exists g, 0. eapply on_log; eauto.
      + replace t with (W - 1 + (t - (W - 1)))%nat in Hw by lia. rewrite B in Hw by lia.
        apply Some_inj in Hw. subst w. cbn [p_valid headway_point] in V.
        destruct (Hlog _ _ Hq V) as [g Hg]. exists g, (D * INR (t - (W - 1)) / INR N).
        replace t with (W - 1 + (t - (W - 1)))%nat at 1 by lia. eapply beyond_log; eauto. lia.
    - intros t f e C. destruct C as [t w f Lt Hw V Hf|m w f Hm Hw V Hf].
      + exists w. rewrite A by auto. repeat (split; [solve [auto]|]). split; [now apply pt_box_frame|now apply frame_dist].
      + rewrite Hq in Hw. apply Some_inj in Hw. subst w. exists (headway_point (S := XR) (Fin D) N q m).
        split; [now apply B|]. split; [exact V|]. split; [apply headway_box|apply headway_frame_dist]; auto; lia.
    - exists tr, u, d. auto.
  Qed.
End Along.

(** Too short a log. *)
Lemma along_short (p : idm_params (S := XR)) log me :
  lookahead_from_current_position p = false -> (length log < max_lookahead p)%nat ->
  lookahead_traj (S := XR) p log me = Err TypeError.
Proof.
  intros HL H. unfold lookahead_traj, reference_traj, dyn_slice. rewrite HL.
  destruct (Nat.leb_spec (max_lookahead p) (length log)); [lia|reflexivity].
Qed.

Lemma nearest_logged_unique me log k k' : nearest_logged me log k -> nearest_logged me log k' -> k = k'.
Proof.
  intros (p & f & A1 & A2 & A3 & A4) (p' & f' & B1 & B2 & B3 & B4).
  destruct (Nat.lt_trichotomy k k') as [L|[L|L]]; auto.
  - destruct (B4 _ _ _ A1 A2 A3) as [_ B]. destruct (A4 _ _ _ B1 B2 B3) as [A _]. specialize (B L). lra.
  - destruct (A4 _ _ _ B1 B2 B3) as [_ B]. destruct (B4 _ _ _ A1 A2 A3) as [A _]. specialize (B L). lra.
Qed.

Lemma leader_along_log (p : idm_params (S := XR)) log cur D i me fm :
  lookahead_from_current_position p = false -> additional_lookahead_distance p = Fin D ->
  is_frame me fm ->
  (forall j q, nth_error cur j = Some q -> p_valid q = true -> exists g, is_frame q g) ->
  (forall j q, nth_error log j = Some q -> p_valid q = true -> exists g, is_frame q g) ->
  (1 <= max_lookahead p <= length log)%nat ->
  exists s tr u d, lookahead_traj (S := XR) p log me = Ok tr /\
    object_lead (S := XR) i tr cur me = (Fin u, Fin d) /\
    (forall k, nearest_logged fm log k -> s = Nat.min k (length log - max_lookahead p)) /\
    leader_along cur (check_point log s (max_lookahead p) D (additional_headway_points p)) i fm u d.
Proof.
  intros HL HA Fm Hc Hlog HW.
  destruct (along_leader p log cur D i me fm HL HA Fm Hc Hlog HW) as (tr & u & d & A & _ & B & C).
  eexists _, tr, u, d. split; [exact A|]. split; [exact B|]. split; [|exact C].
  intros k Hk. pose proof Hk as (q & f & Hq & Vq & _).
  f_equal. apply (nearest_logged_unique fm log); auto. now apply (nearest_logged_idx log me fm Fm Hlog k q).
Qed.
