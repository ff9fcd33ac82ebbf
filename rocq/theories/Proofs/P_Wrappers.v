(** Proofs for C35, C36, C37, C51. *)
From Coq Require Import String.
From Coq Require Import List ZArith Bool Lia.
From Verif.Lib Require Import Base JaxIndex Scalar.
From Verif.Model Require Import Operations State Dynamics Dyn_State BaseEnv Expert Metrics Actor PlanningEnv Envs Wrappers.
From Verif.Spec Require Import StateSpec WrapSpec.
From Verif.Proofs Require Import Core Episode P_Rollout.
Import ListNotations.

Section DM.
  Context {Sc St A O M R RA : Type}.
  Variable env : aenv Sc St A O M R.
  Variable raw_reward : St -> RA -> res R.
  Variable to_action : St -> RA -> res A.
  Notation dmenv := (dmenv Sc St).
  Notation dm_run := (dm_run env raw_reward to_action).
  Notation dm_call := (dm_call env raw_reward to_action).
  Notation dm_step := (dm_step env raw_reward to_action).
  Notation dm_reset := (dm_reset env (R := R)).

  Lemma orb_repeat_false b n : map2 orb (repeat false n) (repeat b n) = repeat b n.
  Proof. induction n; simpl; f_equal; auto. Qed.
  Lemma forallb_repeat b n : 0 < n -> forallb (fun x => x) (repeat b n) = b.
  Proof. destruct n; [lia|]. intros _. simpl. induction n; simpl; destruct b; auto. Qed.
  Lemma existsb_repeat b n : 0 < n -> existsb (fun x => x) (repeat b n) = b.
  Proof. destruct n; [lia|]. intros _. simpl. induction n; simpl; destruct b; auto. Qed.
  Lemma negb_repeat b n : map negb (repeat b n) = repeat (negb b) n.
  Proof. induction n; simpl; f_equal; auto. Qed.

  (* -------- the protocol for every history -------- *)

  (** The wrapper state represents the automaton state. *)
  Definition represents (inv : St -> nat -> Prop) (w : dmenv) (left : option nat) : Prop :=
    match left with
    | None => dm_initialized w = false
    | Some k => dm_initialized w = true /\ dm_done w = (k =? 0) /\
                exists s, dm_cur w = Some s /\ inv s k
    end.

  Lemma protocol_sim scn ok inv : episodic env raw_reward to_action scn ok inv ->
    forall h w ks left, Forall2 scn (dm_data w) ks -> Forall (fun k => 0 < k) ks ->
    legal ok h -> represents inv w left ->
    map outcome_of (snd (dm_run w h)) = protocol ks left h.
  Proof.
    intros E. induction h as [|c h IH]; intros w ks left HD HK HL HR; [reflexivity|].
    assert (HL' : legal ok h) by (intros a Ha; apply HL; now right).
    destruct c as [|a]; cbn [Wrappers.dm_run Wrappers.dm_call protocol].
    - unfold Wrappers.dm_reset. inversion HD as [E1 E2|sc k rest ks' Hs HD' E1 E2]; subst.
      + rewrite <- E1 in *.
        destruct (dm_run w h) as [w2 rs] eqn:EW. cbn [snd map]. cbn [outcome_of]. f_equal.
        specialize (IH w [] left). rewrite <- E1, EW in IH. now apply IH.
      + inversion HK as [|k' ks2 Hk HK']; subst.
        destruct (ep_reset _ _ _ _ _ _ E sc k Hs) as (s & Hr & Is). rewrite Hr.
        rewrite (ep_done _ _ _ _ _ _ E s k Is). destruct (Nat.eqb_spec k 0) as [->|Nk]; [lia|].
        destruct (ep_observe _ _ _ _ _ _ E s k Is) as [o Ho]. rewrite Ho. cbn [bind].
        destruct (dm_run (mkdm rest (dm_sample w) (Some s) true false) h) as [w2 rs] eqn:EW.
        cbn [snd map outcome_of ts_type]. f_equal.
        specialize (IH (mkdm rest (dm_sample w) (Some s) true false) ks' (Some k)).
        rewrite EW in IH. apply IH; auto. cbn. split; auto. split; [|eauto].
        symmetry. now apply Nat.eqb_neq.
    - unfold Wrappers.dm_step. destruct left as [k|].
      + destruct HR as (Hi & Hd & s & Hc & Is). rewrite Hi, Hd. cbn [negb].
        destruct k as [|k].
        * cbn [Nat.eqb].
          destruct (dm_run w h) as [w2 rs] eqn:EW. cbn [snd map outcome_of]. f_equal.
          specialize (IH w ks (Some 0)). rewrite EW in IH. apply IH; auto. cbn. eauto.
        * cbn [Nat.eqb]. rewrite Hc.
          destruct (ep_step _ _ _ _ _ _ E s k a Is) as (r & a' & s' & E1 & E2 & E3 & Is').
          { apply HL. now left. }
          rewrite E1. cbn [bind]. rewrite E2. cbn [bind]. rewrite E3. cbn [bind].
          destruct (ep_batch _ _ _ _ _ _ E s' k Is') as (b & Hb & ET & EC). rewrite ET, EC.
          rewrite orb_repeat_false, forallb_repeat, existsb_repeat by auto.
          destruct (ep_observe _ _ _ _ _ _ E s' k Is') as [o Ho]. rewrite Ho. cbn [bind].
          destruct k as [|k]; cbn [Nat.eqb].
          -- destruct (dm_run (mkdm (dm_data w) (dm_sample w) (Some s') true true) h) as [w2 rs] eqn:EW.
             cbn [snd map outcome_of ts_type]. f_equal.
             specialize (IH (mkdm (dm_data w) (dm_sample w) (Some s') true true) ks (Some 0)).
             rewrite EW in IH. apply IH; auto. cbn. eauto.
          -- destruct (dm_run (mkdm (dm_data w) (dm_sample w) (Some s') true false) h) as [w2 rs] eqn:EW.
             cbn [snd map outcome_of ts_type]. f_equal.
             specialize (IH (mkdm (dm_data w) (dm_sample w) (Some s') true false) ks (Some (S k))).
             rewrite EW in IH. apply IH; auto. cbn. eauto.
      + cbn in HR. rewrite HR. cbn [negb].
        destruct (dm_run w h) as [w2 rs] eqn:EW. cbn [snd map outcome_of]. f_equal.
        specialize (IH w ks None). rewrite EW in IH. now apply IH.
  Qed.

  Lemma dm_protocol scn ok inv : episodic env raw_reward to_action scn ok inv ->
    forall sc0 data ks h w, Forall2 scn data ks -> Forall (fun k => 0 < k) ks ->
    make_dm (sc0 :: data) = Ok w -> legal ok h ->
    map outcome_of (snd (dm_run w h)) = protocol ks None h.
  Proof.
    intros E sc0 data ks h w HD HK HW HL. injection HW as <-.
    now apply protocol_sim with (1 := E).
  Qed.

  (* -------- facts for every environment and every history -------- *)

  Lemma dm_run_app w h1 h2 : dm_run w (h1 ++ h2)
    = (fst (dm_run (fst (dm_run w h1)) h2), snd (dm_run w h1) ++ snd (dm_run (fst (dm_run w h1)) h2)).
  Proof.
    revert w. induction h1 as [|c h1 IH]; intros w.
    - cbn. now destruct (dm_run w h2).
    - cbn [app Wrappers.dm_run]. destruct (dm_call w c) as [w1 r]. rewrite IH.
      destruct (dm_run w1 h1) as [w2 rs]. reflexivity.
  Qed.

  Lemma step_uninitialised w a : dm_initialized w = false ->
    dm_step w a = (w, Err SimulationNotInitializedError).
  Proof. intros H. unfold Wrappers.dm_step. now rewrite H. Qed.
  Lemma step_finished w a : dm_initialized w = true -> dm_done w = true ->
    dm_step w a = (w, Err EpisodeAlreadyFinishedError).
  Proof. intros H H'. unfold Wrappers.dm_step. now rewrite H, H'. Qed.

  (** Steps never touch the data stream, every reset takes one scenario if there is one. *)
  Lemma step_data w a : dm_data (fst (dm_step w a)) = dm_data w /\
    dm_sample (fst (dm_step w a)) = dm_sample w /\
    dm_initialized (fst (dm_step w a)) = dm_initialized w.
  Proof.
    unfold Wrappers.dm_step. destruct (negb (dm_initialized w)); [auto|].
    destruct (dm_done w); [auto|]. destruct (dm_cur w) as [s|]; [|auto].
    destruct (bind _ _) as [[r s']|e]; [|auto].
    destruct (forallb _ _); [auto|]. destruct (existsb _ _); auto.
  Qed.
  Lemma reset_data w : dm_data (fst (dm_reset w)) = tl (dm_data w) /\
    dm_sample (fst (dm_reset w)) = dm_sample w.
  Proof.
    unfold Wrappers.dm_reset. destruct (dm_data w) as [|sc rest] eqn:E; [now (rewrite ?E; auto)|].
    destruct (ae_reset env sc); [|auto]. destruct (ae_is_done env a); auto.
  Qed.

  Lemma skipn_tl {B} n (l : list B) : tl (skipn n l) = skipn (S n) l.
  Proof.
    revert l. induction n as [|n IH]; intros [|a l]; auto.
    change (tl (skipn n l) = skipn (S n) l). apply IH.
  Qed.

  Lemma data_consumed w h : dm_data (fst (dm_run w h)) = skipn (resets h) (dm_data w) /\
    dm_sample (fst (dm_run w h)) = dm_sample w.
  Proof.
    induction h as [|c h IH] using rev_ind; [now rewrite skipn_O|].
    rewrite dm_run_app. cbn [fst]. destruct IH as [E1 E2].
    unfold resets in *. rewrite filter_app, app_length.
    cbn [Wrappers.dm_run]. destruct c as [|a]; cbn [filter is_reset length].
    - cbn [Wrappers.dm_call]. destruct (dm_reset (fst (dm_run w h))) as [w1 r] eqn:EW. cbn [fst].
      destruct (reset_data (fst (dm_run w h))) as [F1 F2]. rewrite EW in F1, F2. cbn [fst] in *.
      split; [|congruence]. rewrite F1, E1, skipn_tl. f_equal. lia.
    - cbn [Wrappers.dm_call]. destruct (dm_step (fst (dm_run w h)) a) as [w1 r] eqn:EW. cbn [fst].
      destruct (step_data (fst (dm_run w h)) a) as (F1 & F2 & _). rewrite EW in F1, F2. cbn [fst] in *.
      split; [|congruence]. rewrite F1, E1. f_equal. lia.
  Qed.

  (** If no call raised, the current state is what the environment computes from the
      scenario of the last reset and the actions since then. *)
  Definition all_ok {B} (l : list (res B)) : Prop := forall r, In r l -> exists b, r = Ok b.

  Lemma dm_reset_Ok w w' ts : dm_reset w = (w', Ok ts) ->
    exists sc rest s, dm_data w = sc :: rest /\ ae_reset env sc = Ok s /\ ae_is_done env s = false /\
      ae_observe env s = Ok (ts_obs ts) /\ ts_type ts = FIRST /\ ts_reward ts = None /\ ts_discount ts = None /\
      w' = mkdm rest (dm_sample w) (Some s) true false.
  Proof.
    unfold Wrappers.dm_reset. destruct (dm_data w) as [|sc rest]; [intros H; injection H; discriminate|].
    destruct (ae_reset env sc) as [s|e] eqn:E; [|intros H; injection H; discriminate].
    destruct (ae_is_done env s) eqn:ED; [intros H; injection H; discriminate|].
    destruct (ae_observe env s) as [o|e] eqn:EO; cbn [bind]; intros H; injection H as <- H2; [|discriminate].
    subst ts. exists sc, rest, s. cbn. repeat split; auto.
  Qed.

  Lemma dm_step_Ok w w' ts a : dm_step w a = (w', Ok ts) ->
    exists s r b s', dm_initialized w = true /\ dm_done w = false /\ dm_cur w = Some s /\
      raw_reward s a = Ok r /\ to_action s a = Ok b /\ ae_step env s b = Ok s' /\
      ts_reward ts = Some r /\ ae_observe env s' = Ok (ts_obs ts) /\
      let done := map2 orb (ae_termination env s') (ae_truncation env s') in
      let last := forallb (fun x => x) done in
      ts_type ts = (if last then LAST else MID) /\
      ts_discount ts = Some (if last then map negb (ae_termination env s') else [true]) /\
      (last = false -> existsb (fun x => x) done = false) /\
      w' = mkdm (dm_data w) (dm_sample w) (Some s') true last.
  Proof.
    unfold Wrappers.dm_step. destruct (dm_initialized w) eqn:EI; cbn [negb]; [|intros H; injection H; discriminate].
    destruct (dm_done w) eqn:ED; [intros H; injection H; discriminate|].
    destruct (dm_cur w) as [s|] eqn:EC; [|intros H; injection H; discriminate].
    destruct (bind _ _) as [[r s']|e] eqn:EB; [|intros H; injection H; discriminate].
    apply bind_Ok in EB as (r1 & E1 & EB). apply bind_Ok in EB as (b & E2 & EB).
    apply bind_Ok in EB as (s1 & E3 & EB). injection EB as -> ->.
    intros H. exists s, r, b, s'. repeat (split; [now auto|]).
    destruct (forallb (fun x => x) (map2 orb (ae_termination env s') (ae_truncation env s'))) eqn:EF.
    - destruct (ae_observe env s') as [o|e] eqn:EO; cbn [bind] in H; injection H as <- H2; [|discriminate].
      subst ts. cbn. repeat split; auto. discriminate.
    - destruct (existsb (fun x => x) (map2 orb (ae_termination env s') (ae_truncation env s'))) eqn:EX;
        [injection H; discriminate|].
      destruct (ae_observe env s') as [o|e] eqn:EO; cbn [bind] in H; injection H as <- H2; [|discriminate].
      subst ts. cbn. repeat split; auto.
  Qed.

  Lemma current_state w pre raws w' rs :
    dm_run w (pre ++ CallReset :: map CallStep raws) = (w', rs) ->
    all_ok (skipn (length pre) rs) ->
    exists sc s0 s, nth_error (dm_data w) (resets pre) = Some sc /\
      ae_reset env sc = Ok s0 /\ user_steps env to_action s0 raws = Ok s /\ dm_cur w' = Some s.
  Proof.
    rewrite dm_run_app. intros H HO. injection H as EW ER.
    set (w1 := fst (dm_run w pre)) in *.
    assert (LP : forall h v, length (snd (dm_run v h)) = length h).
    { induction h as [|c h IH]; intros v; [reflexivity|]. cbn [Wrappers.dm_run].
      destruct (dm_call v c) as [v1 r]. specialize (IH v1). destruct (dm_run v1 h). simpl in *. lia. }
    rewrite <- ER, skipn_app, LP, Nat.sub_diag, <- (LP pre w), skipn_all in HO.
    cbn [app skipn] in HO. clear ER.
    destruct (data_consumed w pre) as [ED _]. fold w1 in ED.
    cbn [Wrappers.dm_run Wrappers.dm_call] in EW, HO.
    destruct (dm_reset w1) as [w2 r0] eqn:E0.
    destruct (dm_run w2 (map CallStep raws)) as [w3 rs3] eqn:E3. cbn [fst snd] in *. subst w3.
    destruct (HO r0 (or_introl eq_refl)) as [ts ->].
    apply dm_reset_Ok in E0 as (sc & rest & s0 & Ed & Er & _ & _ & _ & _ & _ & ->).
    exists sc, s0. rewrite ED in Ed.
    assert (Hn : nth_error (dm_data w) (resets pre) = Some sc).
    { clear - Ed. revert Ed. generalize (resets pre). generalize (dm_data w). clear.
      intros l n. revert l. induction n as [|n IH]; intros [|a l] H; cbn in *; try discriminate; auto.
      congruence. }
    assert (HO3 : all_ok rs3) by (intros r Hr; apply HO; now right). clear HO.
    cut (exists s, user_steps env to_action s0 raws = Ok s /\ dm_cur w' = Some s).
    { intros (s & H1 & H2). exists s. auto. }
    clear - E3 HO3. revert E3 HO3.
    assert (G : forall raws v s, dm_cur v = Some s -> forall w' rs3, dm_run v (map CallStep raws) = (w', rs3) ->
              all_ok rs3 -> exists s', user_steps env to_action s raws = Ok s' /\ dm_cur w' = Some s').
    { clear. induction raws as [|a raws IH]; intros v s Hc w' rs3 H HO.
      - injection H as <- <-. exists s. auto.
      - cbn [map Wrappers.dm_run Wrappers.dm_call] in H. destruct (dm_step v a) as [v1 r] eqn:E1.
        destruct (dm_run v1 (map CallStep raws)) as [v2 rs2] eqn:E2. injection H as <- <-.
        destruct (HO r (or_introl eq_refl)) as [ts ->].
        apply dm_step_Ok in E1 as (s1 & rw & b & s2 & _ & _ & Hc' & _ & H2 & H3 & _ & _ & Ev).
        cbn zeta in Ev. destruct Ev as (_ & _ & _ & ->). rewrite Hc in Hc'. injection Hc' as <-.
        cbn [user_steps]. rewrite H2. cbn [bind]. rewrite H3. cbn [bind].
        eapply IH; [|exact E2|]; [reflexivity|]. intros q Hq. apply HO. now right. }
    intros E3 HO3. eapply G; eauto. reflexivity.
  Qed.

  Lemma current_initialized w pre raws w' rs :
    dm_run w (pre ++ CallReset :: map CallStep raws) = (w', rs) ->
    all_ok (skipn (length pre) rs) -> dm_initialized w' = true.
  Proof.
    intros H HO.
    assert (LP : forall h v, length (snd (dm_run v h)) = length h).
    { induction h as [|c h IH]; intros v; [reflexivity|]. cbn [Wrappers.dm_run].
      destruct (dm_call v c) as [v1 r]. specialize (IH v1). destruct (dm_run v1 h). simpl in *. lia. }
    rewrite dm_run_app in H. injection H as EW ER.
    rewrite <- ER, skipn_app, LP, Nat.sub_diag, <- (LP pre w), skipn_all in HO.
    cbn [app skipn] in HO. cbn [Wrappers.dm_run Wrappers.dm_call] in EW, HO.
    destruct (dm_reset (fst (dm_run w pre))) as [w2 r0] eqn:E0.
    destruct (dm_run w2 (map CallStep raws)) as [w3 rs3] eqn:E3. cbn [fst snd] in *. subst w3.
    destruct (HO r0 (or_introl eq_refl)) as [ts ->].
    apply dm_reset_Ok in E0 as (sc & rest & s0 & _ & _ & _ & _ & _ & _ & _ & ->).
    assert (G : forall raws v, dm_initialized (fst (dm_run v (map CallStep raws))) = dm_initialized v).
    { clear. induction raws as [|a raws IH]; intros v; [reflexivity|].
      cbn [map Wrappers.dm_run Wrappers.dm_call]. destruct (step_data v a) as (_ & _ & E).
      destruct (dm_step v a) as [v1 r]. specialize (IH v1). destruct (dm_run v1 (map CallStep raws)).
      cbn [fst] in *. congruence. }
    specialize (G raws (mkdm rest (dm_sample (fst (dm_run w pre))) (Some s0) true false)).
    rewrite E3 in G. exact G.
  Qed.

  (** A reset on an exhausted scenario raises, yet the wrapper counts as initialised
      and holds the exhausted state. *)
  Lemma exhausted_reset w sc rest s : dm_data w = sc :: rest -> ae_reset env sc = Ok s ->
    ae_is_done env s = true ->
    dm_reset w = (mkdm rest (dm_sample w) (Some s) true (dm_done w), Err SimulationNotInitializedError).
  Proof. intros H1 H2 H3. unfold Wrappers.dm_reset. now rewrite H1, H2, H3. Qed.
End DM.

Section DM2.
  Context {Sc St A O M R RA : Type}.
  Variable env : aenv Sc St A O M R.
  Variable raw_reward : St -> RA -> res R.
  Variable to_action : St -> RA -> res A.

  (** Batched environments: if some but not all elements are done the step raises,
      yet the simulation has advanced and the next step is accepted again. *)
  Lemma mixed_batch w s a r b s' : dm_initialized w = true -> dm_done w = false -> dm_cur w = Some s ->
    raw_reward s a = Ok r -> to_action s a = Ok b -> ae_step env s b = Ok s' ->
    let done := map2 orb (ae_termination env s') (ae_truncation env s') in
    In true done -> In false done ->
    dm_step env raw_reward to_action w a
    = (mkdm (dm_data w) (dm_sample w) (Some s') true false, Err NotImplementedError).
  Proof.
    intros H1 H2 H3 H4 H5 H6 done Ht Hf. unfold dm_step. rewrite H1, H2. cbn [negb]. rewrite H3, H4. cbn [bind].
    rewrite H5. cbn [bind]. rewrite H6. cbn [bind]. fold done.
    replace (forallb (fun b => b) done) with false.
    - replace (existsb (fun b => b) done) with true; [reflexivity|]. symmetry. apply existsb_exists. eauto.
    - symmetry. destruct (forallb (fun b => b) done) eqn:E; auto. rewrite forallb_forall in E. now apply E in Hf.
  Qed.

  (** The discount is 1 on every step of an environment that never terminates. *)
  Lemma discount_one : (forall s x, In x (ae_termination env s) -> x = false) ->
    forall h w r ts, In r (snd (dm_run env raw_reward to_action w h)) -> r = Ok ts ->
    (ts_type ts = FIRST /\ ts_reward ts = None /\ ts_discount ts = None) \/
    (ts_type ts <> FIRST /\ ts_reward ts <> None /\
     exists l, ts_discount ts = Some l /\ forall x, In x l -> x = true).
  Proof.
    intros HT. induction h as [|c h IH]; intros w r ts Hin ->; [easy|].
    cbn [dm_run] in Hin. destruct (dm_call env raw_reward to_action w c) as [w1 r1] eqn:EC.
    specialize (IH w1). destruct (dm_run env raw_reward to_action w1 h) as [w2 rs]. cbn [snd] in Hin.
    destruct Hin as [->|Hin]; [|apply (IH (Ok ts) ts); auto].
    destruct c as [|a]; cbn [dm_call] in EC.
    - left. apply dm_reset_Ok in EC as (sc & rest & s & _ & _ & _ & _ & E1 & E2 & E3 & _). auto.
    - right. apply dm_step_Ok in EC as (s & rw & b & s' & _ & _ & _ & _ & _ & _ & ER & _ & EV).
      cbn zeta in EV. destruct EV as (E1 & E2 & _ & _).
      rewrite E1, E2, ER. split; [destruct (forallb _ _); discriminate|]. split; [discriminate|].
      eexists. split; [reflexivity|]. intros x Hx. destruct (forallb _ _).
      + apply in_map_iff in Hx as (y & <- & Hy). now rewrite (HT _ _ Hy).
      + now destruct Hx as [<-|[]].
  Qed.
End DM2.
