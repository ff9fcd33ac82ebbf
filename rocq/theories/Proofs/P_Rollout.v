(** Proofs for C34. *)
From Coq Require Import List ZArith Bool Lia.
From Verif.Lib Require Import Base JaxIndex Scalar.
From Verif.Model Require Import Operations State Dynamics Dyn_State BaseEnv Expert Actor PlanningEnv Envs Rollout.
From Verif.Spec Require Import StateSpec RolloutSpec.
From Verif.Proofs Require Import Core Episode P_Expert.
Import ListNotations.

Section Rollout.
  Context {P X K Sc St A O M R : Type}.
  Variable split : K -> nat -> nat -> K.
  Variable zeros_like : A -> A.
  Variables (env : aenv Sc St A O M R) (actor : gactor P X K St A) (params : P).

  Notation scan := (scan split env actor params).
  Notation roll_step := (roll_step split env actor params).
  Notation carry := (carry X K St O).
  Notation row := (row St A O M R).

  (** The recurrence for a scan of [n] steps from carry [c] to [c']. *)
  Record is_scan (n : nat) (c c' : carry) (rows : list row) (cs : list carry) : Prop := {
    is_len : length rows = n;
    is_clen : length cs = S n;
    is_first : nth_error cs 0 = Some c;
    is_last : nth_error cs n = Some c';
    is_step : forall i r ci ci', nth_error rows i = Some r -> nth_error cs i = Some ci ->
      nth_error cs (S i) = Some ci' -> roll_step ci = Ok (ci', r) }.

  Lemma scan_spec n c c' rows : scan n c = Ok (c', rows) <-> exists cs, is_scan n c c' rows cs.
  Proof.
    revert c rows. induction n as [|n IH]; intros c rows.
    - split.
      + intros H. injection H as <- <-. exists [c]. split; auto. intros [|i] r ci ci' H; discriminate.
      + intros [cs [L LC H0 HN HS]]. destruct rows; [|discriminate]. rewrite H0 in HN. injection HN as <-.
        reflexivity.
    - cbn [Rollout.scan]. split.
      + intros H. apply bind_Ok in H as ([c1 r1] & H1 & H). apply bind_Ok in H as ([c2 rs] & H2 & H).
        injection H as <- <-. cbn [fst snd] in *. apply IH in H2 as (cs & [L LC H0 HN HS]).
        exists (c :: cs). split; simpl; auto.
        intros [|i] r ci ci' Hr Hc Hc'.
        * cbn in *. injection Hr as <-. injection Hc as <-. rewrite H0 in Hc'. injection Hc' as <-. auto.
        * cbn in *. eapply HS; eauto.
      + intros [cs [L LC H0 HN HS]].
        destruct rows as [|r1 rs]; [discriminate|]. destruct cs as [|c0 cs]; [discriminate|].
        cbn in H0. injection H0 as ->. destruct cs as [|c1 cs]; [discriminate|].
        rewrite (HS 0 r1 c c1 eq_refl eq_refl eq_refl). cbn [bind fst snd].
        assert (E : scan n c1 = Ok (c', rs)).
        { apply IH. exists (c1 :: cs). split; simpl in *; auto; try lia.
          intros i r ci ci' Hr Hc Hc'. apply (HS (S i) r ci ci' Hr Hc Hc'). }
        rewrite E. reflexivity.
  Qed.

  Lemma roll_step_Ok c c' r : roll_step c = Ok (c', r) <->
    rr_state r = ca_state c /\ rr_obs r = ca_obs c /\
    ga_select actor params (ca_state c) (ca_actor c) (split (ca_rng c) 2 0) = Ok (rr_action r, ca_actor c') /\
    ae_step env (ca_state c) (rr_action r) = Ok (ca_state c') /\
    ae_observe env (ca_state c') = Ok (ca_obs c') /\
    ae_metrics env (ca_state c) = Ok (rr_metrics r) /\
    ae_reward env (ca_state c) (rr_action r) = Ok (rr_reward r) /\
    ca_rng c' = split (ca_rng c) 2 1.
  Proof.
    unfold Rollout.roll_step. split.
    - intros H. apply bind_Ok in H as ([a x] & H1 & H). apply bind_Ok in H as (nx & H2 & H).
      apply bind_Ok in H as (no & H3 & H). apply bind_Ok in H as (m & H4 & H).
      apply bind_Ok in H as (rw & H5 & H). injection H as <- <-. cbn in *. repeat split; auto.
    - destruct c' as [s' o' k' x'], r as [a s o m rw]. cbn. intros (-> & -> & H1 & H2 & H3 & H4 & H5 & ->).
      rewrite H1. cbn. rewrite H2. cbn. rewrite H3. cbn. rewrite H4. cbn. rewrite H5. reflexivity.
  Qed.

  Lemma rev_last {B} (l : list B) b r : rev l = b :: r -> exists l', l = l' ++ [b].
  Proof. intros H. exists (rev r). rewrite <- (rev_involutive l), H. reflexivity. Qed.

  Lemma split_last {B} (l : list B) n b : length l = S n -> nth_error l n = Some b -> l = firstn n l ++ [b].
  Proof.
    revert n. induction l as [|a l IH]; intros [|n] L H; try discriminate.
    - cbn in *. injection H as ->. destruct l; [reflexivity|discriminate].
    - cbn in *. f_equal. apply IH; auto.
  Qed.

  (** The rollout succeeds with [rows] exactly when the rows satisfy the recurrence. *)
  Lemma rollout_spec scenario rng N rows :
    rollout split zeros_like env actor params scenario rng N = Ok rows <->
    0 < N /\ exists xs, is_rollout split zeros_like env actor params scenario rng N rows xs.
  Proof.
    unfold rollout. split.
    - intros H. apply bind_Ok in H as (s0 & H0 & H). apply bind_Ok in H as (x0 & Hx & H).
      apply bind_Ok in H as (o0 & Ho & H). apply bind_Ok in H as ([c rs] & HS & H). cbn [fst snd] in H.
      apply scan_spec in HS as (cs & [L LC F0 FN FS]).
      destruct (rev rs) as [|rl rv] eqn:ER; [discriminate|].
      apply bind_Ok in H as (m & Hm & H). apply bind_Ok in H as (rw & Hrw & H). injection H as <-.
      destruct (rev_last _ _ _ ER) as [rs' Ers].
      assert (HN : 0 < N) by (rewrite <- L, Ers, app_length; simpl; lia).
      split; auto. exists (map ca_actor cs).
      (* facts about the carries *)
      assert (CK : forall i ci, nth_error cs i = Some ci -> ca_rng ci = carried_key split rng i /\
                ae_observe env (ca_state ci) = Ok (ca_obs ci)).
      { induction i as [|i IH]; intros ci Hi.
        - rewrite F0 in Hi. injection Hi as <-. split; auto.
        - pose proof (nth_error_Some_lt _ _ _ Hi).
          destruct (nth_error_lt_Some cs i) as [cj Hj]; [lia|].
          destruct (nth_error_lt_Some rs i) as [ri Hr]; [lia|].
          pose proof (FS i ri cj ci Hr Hj Hi) as HS. apply roll_step_Ok in HS.
          destruct HS as (_ & _ & _ & _ & Hob & _ & _ & Hk). destruct (IH cj Hj) as [Ek _].
          split; auto. rewrite Hk, Ek. reflexivity. }
      assert (RS : forall i r ci, nth_error (rs ++ [mkrow (zeros_like (rr_action rl)) (ca_state c) (ca_obs c) m rw]) i = Some r ->
                nth_error cs i = Some ci -> rr_state r = ca_state ci /\ rr_obs r = ca_obs ci).
      { intros i r ci Hr Hc. destruct (Nat.lt_ge_cases i (length rs)) as [Hl|Hg].
        - rewrite nth_error_app1 in Hr by auto. pose proof (nth_error_Some_lt _ _ _ Hr).
          destruct (nth_error_lt_Some cs (S i)) as [cj Hj]; [lia|].
          pose proof (FS i r ci cj Hr Hc Hj) as HS. apply roll_step_Ok in HS. tauto.
        - rewrite nth_error_app2 in Hr by auto. destruct (i - length rs) as [|k] eqn:Ei; [|destruct k; discriminate].
          cbn in Hr. injection Hr as <-. assert (i = N) by lia. subst i. rewrite FN in Hc. injection Hc as <-. auto. }
      split.
      + rewrite app_length, L. simpl. lia.
      + rewrite map_length. auto.
      + intros r Hr. destruct (RS 0 r _ Hr F0) as [-> _]. cbn. exact H0.
      + intros r x Hr Hxx. rewrite nth_error_map, F0 in Hxx. cbn in Hxx. injection Hxx as <-.
        destruct (RS 0 r _ Hr F0) as [-> _]. cbn. exact Hx.
      + intros i r x x' Hi Hr Hx1 Hx2. rewrite nth_error_app1 in Hr by lia.
        rewrite nth_error_map in Hx1, Hx2.
        destruct (nth_error cs i) as [ci|] eqn:Ei; [|discriminate].
        destruct (nth_error cs (S i)) as [cj|] eqn:Ej; [|discriminate].
        cbn in Hx1, Hx2. injection Hx1 as <-. injection Hx2 as <-.
        pose proof (FS i r ci cj Hr Ei Ej) as HS. apply roll_step_Ok in HS.
        destruct HS as (-> & _ & Hsel & _). destruct (CK i ci Ei) as [Ek _].
        unfold actor_key. rewrite <- Ek. exact Hsel.
      + intros i r r' Hi Hr Hr'.
        destruct (nth_error_lt_Some cs i) as [ci Ei]; [lia|].
        destruct (nth_error_lt_Some cs (S i)) as [cj Ej]; [lia|].
        destruct (RS (S i) r' cj Hr' Ej) as [-> _]. rewrite nth_error_app1 in Hr by lia.
        pose proof (FS i r ci cj Hr Ei Ej) as HS. apply roll_step_Ok in HS.
        destruct HS as (-> & _ & _ & Hst & _). exact Hst.
      + intros i r Hr. pose proof (nth_error_Some_lt _ _ _ Hr) as Li. rewrite app_length in Li. simpl in Li.
        destruct (nth_error_lt_Some cs i) as [ci Ei]; [lia|].
        destruct (CK i ci Ei) as [_ Hob]. destruct (RS i r ci Hr Ei) as [E1 E2]. rewrite E1, E2. split; auto.
        destruct (Nat.lt_ge_cases i (length rs)) as [Hl|Hg].
        * rewrite nth_error_app1 in Hr by auto.
          destruct (nth_error_lt_Some cs (S i)) as [cj Ej]; [lia|].
          pose proof (FS i r ci cj Hr Ei Ej) as HS. apply roll_step_Ok in HS.
          destruct HS as (_ & _ & _ & _ & _ & Hm' & Hr' & _). auto.
        * rewrite nth_error_app2 in Hr by auto. destruct (i - length rs) as [|k] eqn:Ek; [|destruct k; discriminate].
          cbn in Hr. injection Hr as <-. cbn in *. subst. rewrite <- E1. auto.
      + intros r r' Hr Hr'. rewrite nth_error_app2 in Hr' by lia. rewrite L, Nat.sub_diag in Hr'.
        cbn in Hr'. injection Hr' as <-. cbn. rewrite nth_error_app1 in Hr by lia.
        rewrite Ers in Hr. rewrite nth_error_app2 in Hr by (rewrite Ers, app_length in L; simpl in L; lia).
        replace (N - 1 - length rs') with 0 in Hr by (rewrite Ers, app_length in L; simpl in L; lia).
        cbn in Hr. injection Hr as ->. reflexivity.
    - intros [HN (xs & [LR LX H0 HI HA HS HE HP])].
      destruct (nth_error_lt_Some rows 0) as [r0 E0]; [lia|].
      destruct (nth_error_lt_Some xs 0) as [x0 Ex0]; [lia|].
      rewrite (H0 r0 E0). cbn [bind]. rewrite (HI r0 x0 E0 Ex0). cbn [bind].
      destruct (HE 0 r0 E0) as (Ho & _ & _). rewrite Ho. cbn [bind].
      destruct (nth_error_lt_Some rows N) as [rN EN]; [lia|].
      destruct (nth_error_lt_Some xs N) as [xN ExN]; [lia|].
      (* split rows into the first N and the last *)
      assert (SP : rows = firstn N rows ++ [rN]).
      { apply split_last; auto. }
      set (cs := mapi (fun i r => mkcarry (rr_state r) (rr_obs r) (carried_key split rng i)
                  (nth i xs x0)) rows).
      assert (CS : forall i r x, nth_error rows i = Some r -> nth_error xs i = Some x ->
                nth_error cs i = Some (mkcarry (rr_state r) (rr_obs r) (carried_key split rng i) x)).
      { intros i r x Hr Hx. unfold cs. rewrite nth_error_mapi, Hr. cbn. do 2 f_equal.
        now apply nth_error_nth. }
      assert (HScan : scan N (mkcarry (rr_state r0) (rr_obs r0) (split rng 2 1) x0)
                = Ok (mkcarry (rr_state rN) (rr_obs rN) (carried_key split rng N) xN, firstn N rows)).
      { apply scan_spec. exists cs. split.
        - rewrite firstn_length. lia.
        - unfold cs. rewrite mapi_length. auto.
        - rewrite (CS 0 r0 x0 E0 Ex0). reflexivity.
        - now apply CS.
        - intros i r ci ci' Hr Hc Hc'.
          assert (Hi : i < N) by (pose proof (nth_error_Some_lt _ _ _ Hr) as Q; rewrite firstn_length in Q; lia).
          assert (Hr0 : nth_error rows i = Some r).
          { rewrite SP. rewrite nth_error_app1; auto. rewrite firstn_length. lia. }
          destruct (nth_error_lt_Some rows (S i)) as [r' Hr']; [lia|].
          destruct (nth_error_lt_Some xs i) as [x Hx]; [lia|].
          destruct (nth_error_lt_Some xs (S i)) as [x' Hx']; [lia|].
          rewrite (CS i r x Hr0 Hx) in Hc. injection Hc as <-.
          rewrite (CS (S i) r' x' Hr' Hx') in Hc'. injection Hc' as <-.
          apply roll_step_Ok. cbn. destruct (HE i r Hr0) as (_ & Hm & Hrw).
          destruct (HE (S i) r' Hr') as (Ho' & _ & _).
          repeat split; auto.
          + apply HA; auto.
          + now apply (HS i). }
      rewrite HScan. cbn [bind fst snd].
      destruct (nth_error_lt_Some rows (N - 1)) as [rl El]; [lia|].
      assert (ER : exists l, firstn N rows = l ++ [rl]).
      { exists (firstn (N - 1) rows).
        assert (EE : nth_error (firstn N rows) (N - 1) = Some rl).
        { rewrite SP in El. rewrite nth_error_app1 in El; auto. rewrite firstn_length. lia. }
        transitivity (firstn (N - 1) (firstn N rows) ++ [rl]).
        - apply split_last; auto. rewrite firstn_length. lia.
        - f_equal. rewrite firstn_firstn. f_equal. lia. }
      destruct ER as [l El']. rewrite El', rev_app_distr. cbn [rev app].
      destruct (HE N rN EN) as (_ & Hm & Hrw). cbn [ca_state]. rewrite Hm. cbn [bind].
      rewrite <- (HP rl rN El EN), Hrw. cbn [bind]. rewrite <- El'. f_equal.
      transitivity (firstn N rows ++ [rN]); [|symmetry; exact SP]. do 2 f_equal.
      cbn [ca_obs]. destruct rN; reflexivity.
  Qed.
End Rollout.

Section Prefix.
  Context {P X K Sc St A O M R : Type}.
  Variable split : K -> nat -> nat -> K.
  Variable zeros_like : A -> A.
  Variables (env : aenv Sc St A O M R) (actor : gactor P X K St A) (params : P).

  Lemma rollout_prefix scenario rng N N' rows rows' :
    rollout split zeros_like env actor params scenario rng N = Ok rows ->
    rollout split zeros_like env actor params scenario rng N' = Ok rows' -> N <= N' ->
    (forall i, i < N -> nth_error rows' i = nth_error rows i) /\
    (exists r r', nth_error rows N = Some r /\ nth_error rows' N = Some r' /\
       rr_state r' = rr_state r /\ rr_obs r' = rr_obs r /\ rr_metrics r' = rr_metrics r).
  Proof.
    intros H H' HN. apply rollout_spec in H as (P1 & xs & [LR LX H0 HI HA HS HE HP]).
    apply rollout_spec in H' as (P1' & xs' & [LR' LX' H0' HI' HA' HS' HE' HP']).
    assert (Q : forall i r r' x x', i <= N -> nth_error rows i = Some r -> nth_error rows' i = Some r' ->
              nth_error xs i = Some x -> nth_error xs' i = Some x' -> rr_state r' = rr_state r /\ x' = x).
    { induction i as [|i IH]; intros r r' x x' Hi Hr Hr' Hx Hx'.
      - pose proof (H0 r Hr). pose proof (H0' r' Hr'). assert (E : rr_state r' = rr_state r) by congruence.
        split; auto. pose proof (HI r x Hr Hx). pose proof (HI' r' x' Hr' Hx'). congruence.
      - destruct (nth_error_lt_Some rows i) as [q Hq]; [lia|].
        destruct (nth_error_lt_Some rows' i) as [q' Hq']; [lia|].
        destruct (nth_error_lt_Some xs i) as [y Hy]; [lia|].
        destruct (nth_error_lt_Some xs' i) as [y' Hy']; [lia|].
        destruct (IH q q' y y' ltac:(lia) Hq Hq' Hy Hy') as [E1 E2].
        pose proof (HA i q y x ltac:(lia) Hq Hy Hx) as A1.
        pose proof (HA' i q' y' x' ltac:(lia) Hq' Hy' Hx') as A2.
        rewrite E1, E2, A1 in A2. injection A2 as A3 A4.
        pose proof (HS i q r ltac:(lia) Hq Hr) as S1. pose proof (HS' i q' r' ltac:(lia) Hq' Hr') as S2.
        rewrite E1, <- A3, S1 in S2. split; congruence. }
    split.
    - intros i Hi. destruct (nth_error_lt_Some rows i) as [r Hr]; [lia|].
      destruct (nth_error_lt_Some rows' i) as [r' Hr']; [lia|].
      destruct (nth_error_lt_Some xs i) as [x Hx]; [lia|].
      destruct (nth_error_lt_Some xs' i) as [x' Hx']; [lia|].
      destruct (nth_error_lt_Some xs (S i)) as [y Hy]; [lia|].
      destruct (nth_error_lt_Some xs' (S i)) as [y' Hy']; [lia|].
      destruct (Q i r r' x x' ltac:(lia) Hr Hr' Hx Hx') as [E1 E2].
      pose proof (HA i r x y Hi Hr Hx Hy) as A1.
      pose proof (HA' i r' x' y' ltac:(lia) Hr' Hx' Hy') as A2.
      rewrite E1, E2, A1 in A2. injection A2 as A3 A4.
      destruct (HE i r Hr) as (O1 & M1 & R1). destruct (HE' i r' Hr') as (O2 & M2 & R2).
      rewrite E1 in O2, M2, R2. rewrite <- A3, R1 in R2. rewrite O1 in O2. rewrite M1 in M2.
      rewrite Hr, Hr'. f_equal. destruct r, r'; cbn in *. congruence.
    - destruct (nth_error_lt_Some rows N) as [r Hr]; [lia|].
      destruct (nth_error_lt_Some rows' N) as [r' Hr']; [lia|].
      destruct (nth_error_lt_Some xs N) as [x Hx]; [lia|].
      destruct (nth_error_lt_Some xs' N) as [x' Hx']; [lia|].
      destruct (Q N r r' x x' ltac:(lia) Hr Hr' Hx Hx') as [E1 E2].
      exists r, r'. repeat split; auto.
      + destruct (HE N r Hr) as (O1 & _). destruct (HE' N r' Hr') as (O2 & _). rewrite E1 in O2. congruence.
      + destruct (HE N r Hr) as (_ & M1 & _). destruct (HE' N r' Hr') as (_ & M2 & _). rewrite E1 in M2. congruence.
  Qed.

  (** A rollout is total when everything it calls is, on an invariant set of states. *)
  Lemma rollout_total (inv : St -> Prop) scenario rng N :
    0 < N ->
    (exists s, ae_reset env scenario = Ok s /\ inv s) ->
    (forall k s, inv s -> exists x, ga_init actor k s = Ok x) ->
    (forall s x k, inv s -> exists a x', ga_select actor params s x k = Ok (a, x') /\
       exists s', ae_step env s a = Ok s' /\ inv s') ->
    (forall s, inv s -> exists o, ae_observe env s = Ok o) ->
    (forall s, inv s -> exists m, ae_metrics env s = Ok m) ->
    (forall s a, inv s -> exists r, ae_reward env s a = Ok r) ->
    exists rows, rollout split zeros_like env actor params scenario rng N = Ok rows.
  Proof.
    intros HN (s0 & H0 & I0) HI HA HO HM HR. unfold rollout. rewrite H0. cbn [bind].
    destruct (HI (split rng 2 0) s0 I0) as [x0 Hx]. rewrite Hx. cbn [bind].
    destruct (HO s0 I0) as [o0 Ho]. rewrite Ho. cbn [bind].
    assert (SC : forall n c, inv (ca_state c) ->
      exists c' rs, scan split env actor params n c = Ok (c', rs) /\ inv (ca_state c') /\ length rs = n).
    { induction n as [|n IH]; intros c Ic.
      - exists c, []. auto.
      - cbn [scan]. unfold roll_step.
        destruct (HA (ca_state c) (ca_actor c) (split (ca_rng c) 2 0) Ic) as (a & x' & E1 & s' & E2 & I').
        rewrite E1. cbn [bind fst snd]. rewrite E2. cbn [bind].
        destruct (HO s' I') as [o' E3]. rewrite E3. cbn [bind].
        destruct (HM _ Ic) as [m E4]. rewrite E4. cbn [bind].
        destruct (HR _ a Ic) as [r E5]. rewrite E5. cbn [bind fst snd].
        destruct (IH (mkcarry s' o' (split (ca_rng c) 2 1) x') I') as (c' & rs & E6 & I6 & L6).
        rewrite E6. cbn [bind fst snd]. eexists _, _. split; [reflexivity|]. split; auto. simpl. auto. }
    destruct (SC N (mkcarry s0 o0 (split rng 2 1) x0) I0) as (c' & rs & E & Ic & L).
    rewrite E. cbn [bind fst snd].
    destruct (rev rs) as [|r rv] eqn:ER.
    - apply (f_equal (@length _)) in ER. rewrite rev_length in ER. simpl in ER. lia.
    - destruct (HM _ Ic) as [m E4]. rewrite E4. cbn [bind].
      destruct (HR _ (zeros_like (rr_action r)) Ic) as [w E5]. rewrite E5. cbn [bind]. eauto.
  Qed.
End Prefix.

Section Base.
  Context {S : Scalar} {P X K : Type}.
  Variable split : K -> nat -> nat -> K.

  Lemma env_step_clock d c s a s' : env_step d c s a = Ok s' -> s_t s' = (s_t s + 1)%Z.
  Proof.
    unfold env_step. intros H. apply bind_Ok in H as (m & _ & H). apply bind_Ok in H as (sim & _ & H).
    now injection H as <-.
  Qed.
  Lemma env_step_scenario d c s a s' : env_step d c s a = Ok s' -> same_scenario s s'.
  Proof.
    unfold env_step. intros H. apply bind_Ok in H as (m & _ & H). apply bind_Ok in H as (sim & _ & H).
    injection H as <-. repeat split.
  Qed.
  Lemma env_reset_clock c s s' : env_reset c s = Ok s' -> s_t s' = (Z.of_nat (c_init_steps c) - 1)%Z.
  Proof.
    unfold env_reset, update_state_by_log. intros H. apply bind_Ok in H as (u & _ & H).
    apply bind_Ok in H as (sim & _ & H). match type of H with Ok ?x = _ => assert (E : x = s') by congruence end. rewrite <- E. cbn [s_t]. lia.
  Qed.
  Lemma env_reset_scenario c s s' : env_reset c s = Ok s' -> same_scenario s s'.
  Proof.
    unfold env_reset, update_state_by_log. intros H. apply bind_Ok in H as (u & _ & H).
    apply bind_Ok in H as (sim & _ & H). injection H as <-. repeat split.
  Qed.

  (** Row i of a rollout of the base environment is the episode of the first i
      actions of the rollout. *)
  Lemma rollout_base_episode reg (e : benv) (ac : gactor P X K state (list act)) params s rng N rows :
    rollout split zero_actions (base_env reg e) ac params s rng N = Ok rows ->
    forall i r, nth_error rows i = Some r ->
      run_episode (be_dyn e) (be_cfg e) s (firstn i (map rr_action rows)) = Ok (rr_state r) /\
      s_t (rr_state r) = (Z.of_nat (c_init_steps (be_cfg e) + i) - 1)%Z /\
      same_scenario s (rr_state r).
  Proof.
    intros H. apply rollout_spec in H as (HN & xs & [LR LX H0 HI HA HS HE HP]).
    induction i as [|i IH]; intros r Hr.
    - cbn [firstn]. specialize (H0 r Hr). cbn in H0. split; [now apply run_episode_nil|].
      rewrite Nat.add_0_r. split; [now apply env_reset_clock with s|now apply env_reset_scenario with (be_cfg e)].
    - pose proof (nth_error_Some_lt _ _ _ Hr) as Li.
      destruct (nth_error_lt_Some rows i) as [q Hq]; [lia|].
      destruct (IH q Hq) as (E1 & E2 & E3). pose proof (HS i q r ltac:(lia) Hq Hr) as HSt. cbn in HSt.
      split.
      + assert (EF : firstn (Datatypes.S i) (map rr_action rows) = firstn i (map rr_action rows) ++ [rr_action q]).
        { assert (Hm : nth_error (map rr_action rows) i = Some (rr_action q)) by now rewrite nth_error_map, Hq.
          clear - Hm. revert i Hm. induction (map rr_action rows) as [|a l IH]; intros [|i] Hm; try discriminate.
          - cbn in *. injection Hm as ->. reflexivity.
          - cbn in *. f_equal. now apply IH. }
        rewrite EF. apply run_episode_snoc. exists (rr_state q). auto.
      + split; [rewrite (env_step_clock _ _ _ _ _ HSt), E2; lia|].
        eapply same_scenario_trans; [exact E3|]. now apply env_step_scenario with (be_dyn e) (be_cfg e) (rr_action q).
  Qed.

  (** The expert rollout is the closed loop of the expert policy. *)
  (** The padding row of a rollout in a BaseEnvironment. *)
  Lemma rollout_padding reg (e : benv) (ac : gactor P X K state (list act)) params s rng N rows :
    rollout split zero_actions (base_env reg e) ac params s rng N = Ok rows ->
    exists r r', nth_error rows (N - 1) = Some r /\ nth_error rows N = Some r' /\
      length (rr_action r') = length (rr_action r) /\
      forall i a, nth_error (rr_action r) i = Some a ->
        exists z, nth_error (rr_action r') i = Some z /\ a_valid z = false /\
          length (a_data z) = length (a_data a) /\ Forall (fun y => y = f0) (a_data z).
  Proof.
    intros H. apply rollout_spec in H as (HN & xs & [LR LX H0 HI HA HS HE HP]).
    destruct (nth_error_lt_Some rows (N - 1)) as [r Er]; [lia|].
    destruct (nth_error_lt_Some rows N) as [r' Er']; [lia|].
    exists r, r'. split; auto. split; auto. rewrite (HP r r' Er Er').
    unfold zero_actions. split; [apply map_length|].
    intros i a Ea. rewrite nth_error_map, Ea. cbn [option_map]. eexists. split; [reflexivity|].
    split; [reflexivity|]. cbn [zero_action a_data]. split; [apply map_length|].
    apply Forall_forall. intros y Hy. apply in_map_iff in Hy as (? & <- & _). reflexivity.
  Qed.

  Lemma expert_rollout_policy key0 reg (e : benv) s N rows :
    rollout_log_by_expert_sdc split key0 reg e (be_dyn e) s N = Ok rows ->
    forall i r, nth_error rows i = Some r ->
      DynSpec.run_policy (be_dyn e) (be_cfg e) (infer_expert_action (be_dyn e)) s i = Ok (rr_state r).
  Proof.
    intros H. apply rollout_spec in H as (HN & xs & [LR LX H0 HI HA HS HE HP]).
    induction i as [|i IH]; intros r Hr.
    - apply run_policy_0. specialize (H0 r Hr). exact H0.
    - pose proof (nth_error_Some_lt _ _ _ Hr) as Li.
      destruct (nth_error_lt_Some rows i) as [q Hq]; [lia|].
      destruct (nth_error_lt_Some xs i) as [x Hx]; [lia|].
      destruct (nth_error_lt_Some xs (Datatypes.S i)) as [x' Hx']; [lia|].
      apply run_policy_snoc. exists (rr_state q), (rr_action q). split; [now apply IH|]. split.
      + pose proof (HA i q x x' ltac:(lia) Hq Hx Hx') as Hsel. cbn in Hsel.
        apply bind_Ok in Hsel as (o & Ho & Hsel). apply bind_Ok in Ho as (a & Ha & Ho).
        injection Ho as <-. cbn in Hsel. injection Hsel as <- _. exact Ha.
      + exact (HS i q r ltac:(lia) Hq Hr).
  Qed.

  Lemma expert_rollout_replays key0 reg (e : benv) n T s N rows :
    be_dyn e = StateDynamics -> wf_scenario n T s -> 1 <= c_init_steps (be_cfg e) ->
    c_init_steps (be_cfg e) + N <= T ->
    rollout_log_by_expert_sdc split key0 reg e (be_dyn e) s N = Ok rows ->
    forall j r i t, nth_error rows j = Some r -> i < n -> t < c_init_steps (be_cfg e) + j ->
      exists p l, at2 (s_sim (rr_state r)) i t = Some p /\ at2 (s_log s) i t = Some l /\
        same_pose p l /\ p_ts p = p_ts l.
  Proof.
    intros ED W Hi Hl H j r i t Hr Hin Ht.
    pose proof (expert_rollout_policy _ _ _ _ _ _ H j r Hr) as HP. rewrite ED in HP.
    assert (Lj : j <= N).
    { apply rollout_spec in H as (_ & xs & [LR _ _ _ _ _ _ _]). pose proof (nth_error_Some_lt _ _ _ Hr). lia. }
    apply (expert_replay n T (be_cfg e) s j (rr_state r) i t); auto. lia.
  Qed.
End Base.
