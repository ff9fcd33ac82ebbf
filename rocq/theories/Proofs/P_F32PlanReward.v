(** Proofs for C82: the planning agent's reward and metrics in float32. *)
From Coq Require Import String.
From Coq Require Import List ZArith Reals Lra Lia Bool.
From Flocq Require Import Core.Raux IEEE754.BinarySingleNaN.
From Verif.Lib Require Import Base JaxIndex Scalar F32.
From Verif.Model Require Import Operations State Dynamics Dyn_State BaseEnv Comfort Metrics PlanningEnv.
From Verif.Spec Require Import StateSpec MetricSpec RewardSpec PlanSpec AgentSpec F32Spec F32RewardSpec.
From Verif.Proofs Require Import Core P_Metrics P_Reward P_F32 P_F32Wrap P_F32Idm P_F32Overlap P_F32Obs P_F32Reward P_Route P_PlanMetrics.
Import ListNotations.
Open Scope R_scope.

(** What the reported entries are, in any arithmetic. *)
Section Any.
  Context {S : Scalar} {P X K : Type}.
  Local Open Scope string_scope.

  Lemma metrics_any reg (e : penv (S := S) P X K) ps d0 d3 name v :
    run_metrics reg (ps_state ps) (pe_metrics e) = Ok d0 -> penv_metrics reg e ps = Ok d3 ->
    In name per_object_names -> lookup name d0 = Some v ->
    exists v', select_metric v (map m_is_sdc (s_meta (ps_state ps))) = Ok v' /\ lookup name d3 = Some v'.
  Proof.
    intros H0 H N E. unfold penv_metrics in H. rewrite H0 in H. cbn [bind] in H.
    apply bind_Ok in H as (d1 & H1 & H). apply bind_Ok in H as (d2 & H2 & H).
    apply bind_Ok in H as (d2' & H3 & H).
    assert (G : exists v', select_metric v (map m_is_sdc (s_meta (ps_state ps))) = Ok v' /\ lookup name d2' = Some v').
    { destruct N as [<-|[<-|[<-|[]]]].
      - destruct (select_entry_same _ _ _ _ _ H1 E) as (v' & Hv & Ev). exists v'. split; [exact Hv|].
        rewrite (select_entry_other _ _ _ _ _ H3), (select_entry_other _ _ _ _ _ H2) by discriminate. exact Ev.
      - rewrite <- (select_entry_other _ _ _ _ _ H1) in E by discriminate.
        destruct (select_entry_same _ _ _ _ _ H2 E) as (v' & Hv & Ev). exists v'. split; [exact Hv|].
        rewrite (select_entry_other _ _ _ _ _ H3) by discriminate. exact Ev.
      - rewrite <- (select_entry_other _ _ _ _ _ H1) in E by discriminate.
        rewrite <- (select_entry_other _ _ _ _ _ H2) in E by discriminate.
        destruct (select_entry_same _ _ _ _ _ H3 E) as (v' & Hv & Ev). exists v'. auto. }
    destruct G as (v' & Hv & G). exists v'. split; [exact Hv|].
    destruct (existsb _ _) in H; [|congruence].
    destruct (lookup "kinematic_infeasibility" d2') as [w|] in H; [|discriminate].
    apply bind_Ok in H as (w' & _ & H).
    assert (d3 = dict_set "kinematic_infeasibility" w' d2') as -> by congruence.
    rewrite lookup_dict_set.
    destruct (String.eqb_spec name "kinematic_infeasibility") as [->|_]; auto.
    simpl in N. destruct N as [N|[N|[N|[]]]]; discriminate.
  Qed.

  Lemma kim_any reg (e : penv (S := S) P X K) ps d0 d3 v :
    run_metrics reg (ps_state ps) (pe_metrics e) = Ok d0 -> penv_metrics reg e ps = Ok d3 ->
    In "kinematic_infeasibility" (pe_metrics e) -> lookup "kinematic_infeasibility" d0 = Some v ->
    exists v', select_metric (mask_metric (Z.of_nat (c_init_steps (pe_cfg e)) <=? s_t (ps_state ps))%Z v) (map m_is_sdc (s_meta (ps_state ps))) = Ok v' /\
      lookup "kinematic_infeasibility" d3 = Some v'.
  Proof.
    intros H0 H N E. unfold penv_metrics in H. rewrite H0 in H. cbn [bind] in H.
    apply bind_Ok in H as (d1 & H1 & H). apply bind_Ok in H as (d2 & H2 & H).
    apply bind_Ok in H as (d2' & H3 & H).
    rewrite <- (select_entry_other _ _ _ _ _ H1) in E by discriminate.
    rewrite <- (select_entry_other _ _ _ _ _ H2) in E by discriminate.
    rewrite <- (select_entry_other _ _ _ _ _ H3) in E by discriminate.
    assert (Ex : existsb (String.eqb "kinematic_infeasibility") (pe_metrics e) = true).
    { apply existsb_exists. eexists; split; [exact N|apply String.eqb_refl]. }
    rewrite Ex, E in H. apply bind_Ok in H as (v' & Hv & H).
    assert (d3 = dict_set "kinematic_infeasibility" v' d2') as -> by congruence.
    rewrite lookup_dict_set, String.eqb_refl. exists v'. split; [|reflexivity]. rewrite <- Hv. f_equal. f_equal.
    apply eq_true_iff_eq. rewrite Z.leb_le, Z.ltb_lt. lia.
  Qed.
End Any.

Section Plan.
  Variable lm : libm.
  Notation S32 := (F32 lm).
  Notation pick := (fun x (b : bool) => fmul (Scalar := S32) x (fbool b)).

  Lemma pick_none (data : list f32) (sel : list bool) (acc : f32) a :
    (forall j, nth_error sel j <> Some true) -> (forall y, In y data -> exists r, fin y r) -> fin acc a -> Rabs a <= 2 ^ 70 ->
    fin (fold_left (fadd (Scalar := S32)) (map2 pick data sel) acc) a.
  Proof.
    revert sel acc. induction data as [|y data IH]; intros [|b sel] acc N F A B; cbn [map2 fold_left]; auto.
    destruct b; [destruct (N 0%nat); reflexivity|].
    destruct (F y (or_introl eq_refl)) as (r & Fr).
    apply IH; auto.
    - intros j. exact (N (Datatypes.S j)).
    - intros z Hz. apply F. right. exact Hz.
    - exact (add0_fin _ _ _ A (mul0_fin _ _ _ Fr (f0_fin lm)) B).
  Qed.

  Lemma pick_one (data : list f32) (sel : list bool) (acc : f32) i x r :
    nth_error data i = Some x -> nth_error sel i = Some true -> (forall j, nth_error sel j = Some true -> j = i) ->
    (forall y, In y data -> exists r, fin y r) -> fin x r -> Rabs r <= 2 ^ 70 -> fin acc 0 ->
    fin (fold_left (fadd (Scalar := S32)) (map2 pick data sel) acc) r.
  Proof.
    revert sel acc i. induction data as [|y data IH]; intros sel acc i Hd Hs U F Fx B A.
    - destruct i; discriminate Hd.
    - destruct sel as [|b sel]; [destruct i; discriminate Hs|]. destruct i as [|i].
      + cbn [nth_error] in Hd, Hs. apply Some_inj in Hd. apply Some_inj in Hs. subst b y. cbn [map2 fold_left].
        apply pick_none; auto.
        * intros j Hj. specialize (U (Datatypes.S j) Hj). discriminate U.
        * intros z Hz. apply F. right. exact Hz.
        * pose proof (add_fin _ _ _ _ A (mul1_fin _ _ _ Fx (f1_fin lm) B)) as AA.
          rewrite Rplus_0_l, (rnd_id r (fin_rep _ _ Fx)) in AA. apply AA. apply big127. exact B.
      + cbn [nth_error] in Hd, Hs. cbn [map2 fold_left].
        destruct b; [specialize (U 0%nat eq_refl); discriminate U|].
        apply (IH sel _ i); auto.
        * intros j Hj. specialize (U (Datatypes.S j) Hj). congruence.
        * intros z Hz. apply F. right. exact Hz.
        * destruct (F y (or_introl eq_refl)) as (q & Fq).
          refine (add0_fin _ _ _ A (mul0_fin _ _ _ Fq (f0_fin lm)) _). rewrite Rabs_R0. apply pow_le. lra.
  Qed.

  Lemma pick_sdc (data : list f32) (ms : list meta) i x r : length data = length ms -> the_sdc ms i ->
    (forall y, In y data -> exists r, fin y r) -> nth_error data i = Some x -> fin x r -> Rabs r <= 2 ^ 70 ->
    exists y, select_by_onehot (S := S32) data (map m_is_sdc ms) = Ok y /\ fin y r.
  Proof.
    intros L ((m & Hm & Sm) & U) F Hx Fx B. unfold select_by_onehot. change (@length (@Scalar.F S32)) with (@length f32).
    rewrite map_length, L, Nat.eqb_refl. cbn [guard bind]. eexists. split; [reflexivity|].
    apply (pick_one data (map m_is_sdc ms) _ i x r); auto.
    - rewrite nth_error_map, Hm. cbn [option_map]. now rewrite Sm.
    - intros j Hj. rewrite nth_error_map in Hj. destruct (nth_error ms j) as [mj|] eqn:E; [|discriminate Hj]. cbn [option_map] in Hj. apply (U j mj); auto; congruence.
    - exact (f0_fin lm).
  Qed.

  Lemma bools_mask (mask : list bool) : mask32 (map (fbool (S := S32)) mask) mask.
  Proof.
    split; [apply map_length|]. intros i b Hb. rewrite nth_error_map, Hb. eexists. split; [reflexivity|].
    destruct b; [exact (f1_fin lm) | exact (f0_fin lm)].
  Qed.

  Lemma Rsum_cap (f : string -> R) names W : (forall name, In name names -> Rabs (f name) <= W) ->
    Rabs (Rsum (map f names)) <= INR (length names) * W.
  Proof.
    unfold Rsum. induction names as [|n names IH]; intros H.
    - cbn [map fold_right length INR]. rewrite Rabs_R0. lra.
    - cbn [map fold_right length]. rewrite S_INR. eapply Rle_trans; [apply Rabs_triang|].
      assert (Rabs (f n) <= W) by (apply H; now left).
      assert (Rabs (fold_right Rplus 0 (map f names)) <= INR (length names) * W) by (apply IH; intros; apply H; now right). lra.
  Qed.

  Lemma planning_reward32 {P X K} reg (e : penv (S := S32) P X K) (ps : pstate (S := S32) X) i wtF (wt : string -> R) (val : string -> nat -> R) names W :
    pe_compute_reward e = true -> pe_rewards e = map (fun name => (name, wtF name)) names -> c_controlled (pe_cfg e) = SDC ->
    the_sdc (s_meta (ps_state ps)) i -> 1 <= W <= 2 ^ 40 -> (length names <= 2 ^ 20)%nat ->
    (forall name, In name names -> fin (wtF name) (wt name)) ->
    (forall name, In name names -> exists m v, lookup name reg = Some m /\ m (ps_state ps) = Ok v /\ shaped32 (length (s_meta (ps_state ps))) v /\
       forall j, (j < length (s_meta (ps_state ps)))%nat -> contributes32 v j (val name j) /\ Rabs (wt name * val name j) <= W /\ Rabs (val name j) <= 2 ^ 60) ->
    exists x v, penv_reward reg e ps = Ok x /\ fin x v /\
      Rabs (v - Rsum (map (fun name => wt name * val name i) names)) <= INR (length names) ^ 2 * W / 2 ^ 22.
  Proof.
    intros C E HC Hs HW HN Hw H. unfold penv_reward. rewrite C, HC, E. cbn [get_control_mask bind].
    set (ms := s_meta (ps_state ps)) in *.
    destruct (reward32 lm (length ms) reg (ps_state ps) _ (map m_is_sdc ms) wtF wt val names W (bools_mask _) (map_length _ _) HW HN Hw H)
      as (r & Er & Lr & Nr).
    match goal with |- context [@linear_reward ?S ?a ?b ?c ?d] => replace (@linear_reward S a b c d) with (@Ok (list (@Scalar.F S32)) r) by (symmetry; exact Er) end.
    cbn [bind]. destruct Hs as ((m & Hm & Sm) & U).
    assert (Hi : nth_error (map m_is_sdc ms) i = Some true) by (rewrite nth_error_map, Hm; cbn [option_map]; now rewrite Sm).
    destruct (Nr i true Hi) as (x & v & Hx & Fx & Bx).
    assert (Li : (i < length ms)%nat) by (eapply nth_error_Some_lt; eauto).
    assert (BS : Rabs (Rsum (map (fun name => wt name * val name i) names)) <= INR (length names) * W).
    { apply Rsum_cap. intros name Hin. destruct (H name Hin) as (m' & v' & _ & _ & _ & HC'). now apply HC'. }
    assert (Ln : INR (length names) <= 2 ^ 20).
    { replace (2 ^ 20) with (INR (2 ^ 20)); [now apply le_INR|]. rewrite pow_INR. reflexivity. }
    pose proof (pos_INR (length names)) as Pn.
    assert (B70 : Rabs v <= 2 ^ 70).
    { set (N := INR (length names)) in *.
      assert (Q1 : N * W <= 2 ^ 20 * 2 ^ 40) by (apply Rmult_le_compat; lra).
      assert (Q2 : N ^ 2 * W <= (2 ^ 20) ^ 2 * 2 ^ 40) by (apply Rmult_le_compat; [apply pow_le; lra | lra | apply pow_incr; lra | lra]).
      assert (Rabs v <= N ^ 2 * W / 2 ^ 22 + N * W).
      { replace v with ((v - total wt val i names) + total wt val i names) by ring.
        eapply Rle_trans; [apply Rabs_triang|]. apply Rplus_le_compat; [exact Bx | exact BS]. }
      assert (Q3 : N ^ 2 * W / 2 ^ 22 <= (2 ^ 20) ^ 2 * 2 ^ 40 / 2 ^ 22).
      { apply Rmult_le_compat_r; [|exact Q2]. apply Rlt_le, Rinv_0_lt_compat, pow_lt. lra. }
      apply Rle_trans with ((2 ^ 20) ^ 2 * 2 ^ 40 / 2 ^ 22 + 2 ^ 20 * 2 ^ 40); [lra|]. simpl. lra. }
    destruct (pick_sdc r ms i x v) as (y & Ey & Fy); auto.
    - exact (conj (ex_intro _ m (conj Hm Sm)) U).
    - intros y Hy. apply In_nth_error in Hy. destruct Hy as (j & Hj).
      assert (Lj : (j < length ms)%nat) by (rewrite <- Lr; eapply nth_error_Some_lt; eauto).
      destruct (nth_error (map m_is_sdc ms) j) as [b|] eqn:Eb.
      + destruct (Nr j b Eb) as (y' & w & Hy' & Fw & _).
        assert (Some y = Some y') as Q by (etransitivity; [symmetry; exact Hj | exact Hy']). apply Some_inj in Q. subst y'. eauto.
      + apply nth_error_None in Eb. rewrite map_length in Eb. lia.
    - exists y, v. split; [exact Ey|]. split; [exact Fy | exact Bx].
  Qed.

  Lemma planning_reward_exact32 {P X K} reg (e : penv (S := S32) P X K) (ps : pstate (S := S32) X) i wtF (wt : string -> Z) (val : string -> nat -> Z) names :
    pe_compute_reward e = true -> pe_rewards e = map (fun name => (name, wtF name)) names -> c_controlled (pe_cfg e) = SDC ->
    the_sdc (s_meta (ps_state ps)) i ->
    (forall name, In name names -> fin (wtF name) (IZR (wt name))) ->
    (forall name, In name names -> exists m v, lookup name reg = Some m /\ m (ps_state ps) = Ok v /\ shaped32 (length (s_meta (ps_state ps))) v /\
       forall j, (j < length (s_meta (ps_state ps)))%nat -> contributes32 v j (IZR (val name j)) /\ Rabs (IZR (val name j)) <= 2 ^ 60) ->
    (forall j, (j < length (s_meta (ps_state ps)))%nat -> (Zsum (map (fun name => Z.abs (wt name * val name j)) names) <= 2 ^ 24)%Z) ->
    exists x, penv_reward reg e ps = Ok x /\ fin x (IZR (Zsum (map (fun name => wt name * val name i)%Z names))).
  Proof.
    intros C E HC Hs Hw H HB. unfold penv_reward. rewrite C, HC, E. cbn [get_control_mask bind].
    set (ms := s_meta (ps_state ps)) in *.
    destruct (reward_exact32 lm (length ms) reg (ps_state ps) _ (map m_is_sdc ms) wtF wt val names (bools_mask _) (map_length _ _) Hw H HB)
      as (r & Er & Lr & Nr).
    match goal with |- context [@linear_reward ?S ?a ?b ?c ?d] => replace (@linear_reward S a b c d) with (@Ok (list (@Scalar.F S32)) r) by (symmetry; exact Er) end.
    cbn [bind]. destruct Hs as ((m & Hm & Sm) & U).
    assert (Hi : nth_error (map m_is_sdc ms) i = Some true) by (rewrite nth_error_map, Hm; cbn [option_map]; now rewrite Sm).
    destruct (Nr i true Hi) as (x & Hx & Fx). cbv iota in Fx.
    assert (Li : (i < length ms)%nat) by (eapply nth_error_Some_lt; eauto).
    assert (B70 : Rabs (IZR (Zsum (map (fun name => wt name * val name i)%Z names))) <= 2 ^ 70).
    { assert (Q : (Z.abs (Zsum (map (fun name => wt name * val name i)%Z names)) <= Zsum (map (fun name => Z.abs (wt name * val name i)) names))%Z).
      { clear. unfold Zsum. induction names; cbn [map fold_right]; lia. }
      rewrite <- abs_IZR. apply Rle_trans with (IZR (2 ^ 24)); [apply IZR_le; specialize (HB i Li); lia|]. simpl. lra. }
    apply (pick_sdc r ms i x _ Lr (conj (ex_intro _ m (conj Hm Sm)) U)); auto.
    intros y Hy. apply In_nth_error in Hy. destruct Hy as (j & Hj).
    assert (Lj : (j < length ms)%nat) by (rewrite <- Lr; eapply nth_error_Some_lt; eauto).
    destruct (nth_error (map m_is_sdc ms) j) as [b|] eqn:Eb.
    - destruct (Nr j b Eb) as (y' & Hy' & Fw).
      assert (Some y = Some y') as Q by (etransitivity; [symmetry; exact Hj | exact Hy']). apply Some_inj in Q. subst y'. eauto.
    - apply nth_error_None in Eb. rewrite map_length in Eb. lia.
  Qed.

  (** Entries of a per-object result are finite; that of object [k] is [r] with validity [b]. *)
  Lemma select_metric32 (l : list (mres (S := S32))) ms k m r : length l = length ms -> the_sdc ms k ->
    (forall m, In m l -> exists r, fin (mr_value m) r) -> nth_error l k = Some m -> fin (mr_value m) r -> Rabs r <= 2 ^ 70 ->
    exists x, select_metric (S := S32) (PerObject l) (map m_is_sdc ms) = Ok (Scalar0 (mkmres (S := S32) x (mr_valid m))) /\ fin x r.
  Proof.
    intros L U F Hm Fm B. cbn [select_metric].
    destruct (pick_sdc (map mr_value l) ms k (mr_value m) r) as (x & Ex & Fx); auto.
    - rewrite map_length. exact L.
    - intros y Hy. apply in_map_iff in Hy as (m' & <- & Hm'). exact (F m' Hm').
    - rewrite nth_error_map, Hm. reflexivity.
    - exists x. split; [|exact Fx]. rewrite Ex. cbn [bind].
      rewrite (select_onehot_b (map mr_valid l) ms k (mr_valid m)); [reflexivity| | |]; auto.
      + rewrite map_length. exact L.
      + rewrite nth_error_map, Hm. reflexivity.
  Qed.

  Lemma planning_metrics32 {P X K} reg (e : penv (S := S32) P X K) (ps : pstate (S := S32) X) d0 d3 name l k m r :
    run_metrics reg (ps_state ps) (pe_metrics e) = Ok d0 -> penv_metrics reg e ps = Ok d3 ->
    In name per_object_names -> lookup name d0 = Some (PerObject l) ->
    length l = length (s_meta (ps_state ps)) -> the_sdc (s_meta (ps_state ps)) k ->
    (forall m, In m l -> exists r, fin (mr_value m) r) -> nth_error l k = Some m -> fin (mr_value m) r -> Rabs r <= 2 ^ 70 ->
    exists x, lookup name d3 = Some (Scalar0 (mkmres (S := S32) x (mr_valid m))) /\ fin x r.
  Proof.
    intros H0 H N E L U F Hm Fm B. destruct (metrics_any reg e ps d0 d3 name _ H0 H N E) as (v & Hv & Ev).
    destruct (select_metric32 l _ k m r L U F Hm Fm B) as (x & Ex & Fx). exists x. split; [|exact Fx].
    rewrite Ev. rewrite Ex in Hv. apply Ok_inj in Hv. rewrite Hv. reflexivity.
  Qed.

  Lemma planning_kim32 {P X K} reg (e : penv (S := S32) P X K) (ps : pstate (S := S32) X) d0 d3 l k m r :
    run_metrics reg (ps_state ps) (pe_metrics e) = Ok d0 -> penv_metrics reg e ps = Ok d3 ->
    In "kinematic_infeasibility"%string (pe_metrics e) -> lookup "kinematic_infeasibility"%string d0 = Some (PerObject l) ->
    length l = length (s_meta (ps_state ps)) -> the_sdc (s_meta (ps_state ps)) k ->
    (forall m, In m l -> exists r, fin (mr_value m) r /\ Rabs r <= 2 ^ 70) -> nth_error l k = Some m -> fin (mr_value m) r ->
    exists x, let started := (Z.of_nat (c_init_steps (pe_cfg e)) <=? s_t (ps_state ps))%Z in
      lookup "kinematic_infeasibility"%string d3 = Some (Scalar0 (mkmres (S := S32) x (mr_valid m && started))) /\
      fin x (if started then r else 0).
  Proof.
    intros H0 H N E L U F Hm Fm. destruct (kim_any reg e ps d0 d3 _ H0 H N E) as (v & Hv & Ev).
    set (b := (Z.of_nat (c_init_steps (pe_cfg e)) <=? s_t (ps_state ps))%Z) in *.
    cbn [mask_metric] in Hv. set (m1 := fun m0 : mres => mkmres _ _) in Hv.
    assert (F1 : forall (m' : mres (S := S32)) r', fin (mr_value m') r' -> Rabs r' <= 2 ^ 70 -> fin (mr_value (m1 m')) (if b then r' else 0)).
    { intros m' r' F' B'. unfold m1. cbn [mr_value]. destruct b; [exact (mul1_fin _ _ _ F' (f1_fin lm) B') | exact (mul0_fin _ _ _ F' (f0_fin lm))]. }
    assert (Br : Rabs r <= 2 ^ 70).
    { destruct (F m (nth_error_In _ _ Hm)) as (r' & F' & B'). rewrite (fin_fun _ _ _ Fm F'). exact B'. }
    destruct (select_metric32 (map m1 l) (s_meta (ps_state ps)) k (m1 m) (if b then r else 0)) as (x & Ex & Fx).
    - rewrite map_length. exact L.
    - exact U.
    - intros m' Hm'. apply in_map_iff in Hm' as (m0 & <- & Hin). destruct (F m0 Hin) as (r0 & F0 & B0). eexists. exact (F1 m0 r0 F0 B0).
    - rewrite nth_error_map, Hm. reflexivity.
    - exact (F1 m r Fm Br).
    - destruct b; [exact Br|]. rewrite Rabs_R0. apply pow_le. lra.
    - exists x. cbv zeta. split; [|exact Fx]. rewrite Ev. rewrite Ex in Hv. apply Ok_inj in Hv. rewrite <- Hv. reflexivity.
  Qed.
End Plan.
