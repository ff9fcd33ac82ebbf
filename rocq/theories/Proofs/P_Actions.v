(** Proofs for C10, C11. *)
From Coq Require Import List ZArith Lia Bool.
From Verif.Lib Require Import Base JaxIndex Scalar.
From Verif.Model Require Import Operations State Dynamics BaseEnv Geometry
  Dyn_State Dyn_Delta Dyn_Bicycle.
From Verif.Spec Require Import StateSpec.
From Verif.Proofs Require Import Core Episode P_Step.
Import ListNotations.

Section P.
  Context {S : Scalar}.

  Lemma next_pt_uncontrolled inj u u' cur nxt :
    next_pt inj false u cur nxt false = next_pt inj false u' cur nxt false.
  Proof. reflexivity. Qed.

  (** What one step does to object i depends only on i's own action, and not even
      on that when i is uncontrolled. *)
  Lemma step_object_noninterference n T d c s a a' s1 s2 mask i :
    wf_state n T s -> dyn_local d ->
    env_step d c s a = Ok s1 -> env_step d c s a' = Ok s2 ->
    env_control_mask s c = Ok mask -> i < n ->
    (nth_error mask i = Some true -> nth_error a i = nth_error a' i) ->
    forall k, at2 (s_sim s1) i k = at2 (s_sim s2) i k.
  Proof.
    intros W [f L] H1 H2 Hm Hi Ha k.
    destruct (env_step_Ok _ _ _ _ _ _ _ W H1)
      as (m1 & cur1 & us1 & nxt1 & Hm1 & La1 & Lm1 & Lc1 & Lu1 & Ln1 & Hc1 & Hn1 & Hu1 & _ & Hs1 & _).
    destruct (env_step_Ok _ _ _ _ _ _ _ W H2)
      as (m2 & cur2 & us2 & nxt2 & Hm2 & La2 & Lm2 & Lc2 & Lu2 & Ln2 & Hc2 & Hn2 & Hu2 & _ & Hs2 & _).
    assert (m1 = mask) as -> by congruence. assert (m2 = mask) as -> by congruence.
    rewrite Hs1, Hs2 by auto. destruct (k =? norm_start (s_t s + 1) T 1); auto.
    rewrite !nth_error_map4.
    assert (E1 : nth_error cur1 i = nth_error cur2 i) by (rewrite Hc1, Hc2; auto).
    assert (E2 : nth_error nxt1 i = nth_error nxt2 i) by (rewrite Hn1, Hn2; auto).
    rewrite E1, E2 in *.
    destruct (nth_error_lt_Some cur2 i) as [p Ep]; [lia|].
    destruct (nth_error_lt_Some nxt2 i) as [q Eq]; [lia|].
    destruct (nth_error_lt_Some mask i) as [b Eb]; [lia|].
    destruct (nth_error_lt_Some us1 i) as [u1 Eu1]; [lia|].
    destruct (nth_error_lt_Some us2 i) as [u2 Eu2]; [lia|].
    rewrite Ep, Eq, Eb, Eu1, Eu2. destruct b; [|reflexivity].
    specialize (Ha Eb).
    destruct (nth_error_lt_Some a i) as [x Ex]; [lia|].
    assert (Ex' : nth_error a' i = Some x) by congruence.
    destruct (L a cur1 us1 Hu1 i x p Ex ltac:(congruence)) as (v1 & V1 & V1').
    destruct (L a' cur2 us2 Hu2 i x p Ex' Ep) as (v2 & V2 & V2').
    assert (u1 = v1) by congruence. assert (u2 = v2) by congruence.
    assert (v1 = v2) by congruence. subst. reflexivity.
  Qed.

  Lemma step_noninterference n T d c s a a' s1 s2 mask :
    wf_state n T s -> dyn_local d ->
    env_step d c s a = Ok s1 -> env_step d c s a' = Ok s2 ->
    env_control_mask s c = Ok mask ->
    (forall i, nth_error mask i = Some true -> nth_error a i = nth_error a' i) ->
    s1 = s2.
  Proof.
    intros W L H1 H2 Hm Ha.
    pose proof (env_step_wf _ _ _ _ _ _ _ W H1) as (R1 & _).
    pose proof (env_step_wf _ _ _ _ _ _ _ W H2) as (R2 & _).
    assert (E : s_sim s1 = s_sim s2).
    { apply (rect_ext n T); auto. intros i t Hi Ht.
      eapply step_object_noninterference; eauto. }
    unfold env_step in H1, H2.
    apply bind_Ok in H1 as (m1 & _ & H1). apply bind_Ok in H1 as (x1 & _ & H1).
    apply bind_Ok in H2 as (m2 & _ & H2). apply bind_Ok in H2 as (x2 & _ & H2).
    assert (E1 : s1 = mkstate x1 (s_log s) (s_tls s) (s_meta s) (s_t s + 1) (s_paths s) (s_rg s))
      by congruence.
    assert (E2 : s2 = mkstate x2 (s_log s) (s_tls s) (s_meta s) (s_t s + 1) (s_paths s) (s_rg s))
      by congruence.
    rewrite E1, E2 in E. simpl in E. rewrite E1, E2, E. reflexivity.
  Qed.

  (** Whole episodes: replacing the actions of uncontrolled objects changes
      nothing. *)
  Lemma episode_noninterference n T d c s acts acts' s1 s2 :
    wf_scenario n T s -> dyn_local d -> 1 <= c_init_steps c ->
    c_init_steps c + length acts <= T ->
    Forall2 (agree_on_controlled c s) acts acts' ->
    run_episode d c s acts = Ok s1 -> run_episode d c s acts' = Ok s2 -> s1 = s2.
  Proof.
    intros W L HI. revert acts' s1 s2.
    induction acts as [|a acts IH] using rev_ind; intros acts' s1 s2 HL FA H1 H2.
    - inversion FA; subst. congruence.
    - apply Forall2_app_inv_l in FA as (l1 & l2 & FA & FB & ->).
      inversion FB as [|? a' ? ? AG FN]; subst. inversion FN; subst.
      apply run_episode_snoc in H1 as (t1 & H1 & K1).
      apply run_episode_snoc in H2 as (t2 & H2 & K2).
      rewrite app_length in HL; simpl in HL.
      assert (t1 = t2) as <- by (eapply IH; eauto; lia).
      destruct (episode_basic n T d c s acts t1 W H1 ltac:(lia)) as (W1 & _).
      assert (Hm : exists mask, env_control_mask t1 c = Ok mask).
      { unfold env_step in K1. apply bind_Ok in K1 as (m & Hm & _). eauto. }
      destruct Hm as [mask Hm].
      eapply (step_noninterference n T); eauto.
      intros i Em. destruct AG as [_ AG]. apply AG.
      eapply (episode_mask n T d c s acts t1); eauto; lia.
  Qed.

  (* ---------------- the shipped dynamics are per-object ---------------- *)

  Lemma per_object_local f inv : dyn_local (mkdyn (per_object (S := S) f) inv).
  Proof.
    exists f. intros acts cur us H i a p Ha Hp. simpl in H.
    destruct (per_object_Ok f acts cur us H) as (_ & _ & K). eauto.
  Qed.

  Lemma per_object_total f inv (ok : act -> Prop) :
    (forall a p, ok a -> exists u, f a p = Ok u) ->
    dyn_total (mkdyn (per_object (S := S) f) inv) ok.
  Proof.
    intros Hf acts. simpl. induction acts as [|a acts IH]; intros [|p cur] L FA; simpl in *;
      try discriminate.
    - eexists; split; reflexivity.
    - inversion FA as [|? ? Oa FA']; subst. destruct (Hf a p Oa) as [u Hu].
      destruct (IH cur ltac:(lia) FA') as (us & Hus & Lus).
      rewrite Hu; simpl. rewrite Hus; simpl. eexists; split; [reflexivity|]. simpl; lia.
  Qed.

  Lemma state_total : dyn_total StateDynamics (fun a => 5 <= length (a_data a)).
  Proof.
    apply per_object_total. intros [l v] p; simpl. unfold state_update; simpl.
    destruct l as [|x [|y [|yaw [|vx [|vy l]]]]]; simpl; intros; try lia; eauto.
  Qed.

  Lemma delta_global_total q : dyn_total (DeltaGlobal q) (fun a => length (a_data a) = 3).
  Proof.
    apply per_object_total. intros [l v] p; simpl. unfold delta_global_update; simpl.
    destruct l as [|x [|y [|yaw [|]]]]; simpl; intros; try lia; eauto.
  Qed.

  Lemma delta_local_total q : dyn_total (DeltaLocal q) (fun a => length (a_data a) = 3).
  Proof.
    apply per_object_total. intros [l v] p; simpl. unfold delta_local_update; simpl.
    destruct l as [|x [|y [|yaw [|]]]]; simpl; intros; try lia; eauto.
    unfold delta_global_update; simpl; eauto.
  Qed.

  Lemma bicycle_total q :
    dyn_total (InvertibleBicycleModel q) (fun a => 2 <= length (a_data a)).
  Proof.
    apply per_object_total. intros [l v] p; simpl. unfold bicycle_update; simpl.
    destruct l as [|x [|y l]]; simpl; intros; try lia; eauto.
  Qed.

  (* ---------------- C11: the valid flag ---------------- *)

  Definition upd_agree (u u' : upd) : Prop :=
    u_x u = u_x u' /\ u_y u = u_y u' /\ u_yaw u = u_yaw u' /\
    u_vx u = u_vx u' /\ u_vy u = u_vy u'.

  Lemma next_pt_flag inj u u' cur nxt b :
    upd_agree u u' -> next_pt inj false u cur nxt b = next_pt inj false u' cur nxt b.
  Proof.
    intros (E1 & E2 & E3 & E4 & E5). unfold next_pt.
    rewrite E1, E2, E3, E4, E5. reflexivity.
  Qed.

  Lemma map4_next_flag inj us us' : Forall2 upd_agree us us' ->
    forall cur nxt mask,
    map4 (next_pt inj false) us cur nxt mask = map4 (next_pt inj false) us' cur nxt mask.
  Proof.
    induction 1 as [|u u' us us' E FA IH]; intros [|p cur] [|q nxt] [|b mask]; simpl; auto.
    rewrite (next_pt_flag inj u u' p q b E), IH. reflexivity.
  Qed.

  Lemma apply_flag us us' sim ref mask t inj :
    Forall2 upd_agree us us' ->
    apply_trajectory_update_to_state us sim ref mask t inj false
    = apply_trajectory_update_to_state us' sim ref mask t inj false.
  Proof.
    intros FA. unfold apply_trajectory_update_to_state.
    destruct (dynamic_index sim t) as [cur|]; simpl; auto.
    destruct (dynamic_index ref (t + 1)) as [nxt|]; simpl; auto.
    rewrite <- (Forall2_len _ _ _ FA).
    rewrite (map4_next_flag inj us us' FA). reflexivity.
  Qed.

  (** Per-object updates that agree on everything but the flag. *)
  Definition blind (f : act -> pt -> res upd) : Prop :=
    forall data v v' p,
      match f (mkact data v) p, f (mkact data v') p with
      | Ok u, Ok u' => upd_agree u u'
      | Err e, Err e' => e = e'
      | _, _ => False
      end.

  Lemma per_object_blind f : blind f ->
    forall acts acts' cur, map a_data acts = map a_data acts' ->
      match per_object (S := S) f acts cur, per_object f acts' cur with
      | Ok us, Ok us' => Forall2 upd_agree us us'
      | Err e, Err e' => e = e'
      | _, _ => False
      end.
  Proof.
    intros B. induction acts as [|[da va] acts IH]; intros [|[da' va'] acts'] cur E;
      simpl in E; try discriminate.
    - destruct cur; simpl; auto.
    - assert (da' = da) as -> by congruence.
      assert (E' : map a_data acts = map a_data acts') by congruence.
      destruct cur as [|p cur]; simpl; auto.
      specialize (B da va va' p). specialize (IH acts' cur E').
      destruct (f (mkact da va) p) as [u|]; destruct (f (mkact da va') p) as [u'|];
        simpl; try tauto.
      destruct (per_object f acts cur) as [us|]; destruct (per_object f acts' cur) as [us'|];
        simpl; try tauto. constructor; auto.
  Qed.

  Lemma step_flag_blind f inv c s a a' :
    blind f -> map a_data a = map a_data a' ->
    env_step (mkdyn (per_object (S := S) f) inv) c s a
    = env_step (mkdyn (per_object f) inv) c s a'.
  Proof.
    intros B E. unfold env_step. destruct (env_control_mask s c) as [mask|]; simpl; auto.
    assert (L : length a = length a').
    { rewrite <- (map_length a_data a), E, map_length. reflexivity. }
    unfold forward. rewrite L. destruct (guard _ _); simpl; auto.
    destruct (dynamic_index (s_sim s) (s_t s)) as [cur|]; simpl; auto.
    pose proof (per_object_blind f B a a' cur E) as K.
    destruct (per_object f a cur); destruct (per_object f a' cur); simpl; try tauto.
    - rewrite (apply_flag _ _ (s_sim s) (s_log s) mask (s_t s) (c_allow_new_objects c) K).
      reflexivity.
    - rewrite K. reflexivity.
  Qed.

  Lemma state_blind : blind state_update.
  Proof.
    intros data v v' p. unfold state_update; simpl.
    destruct data as [|x [|y [|yaw [|vx [|vy l]]]]]; simpl; auto.
    unfold upd_agree; simpl; auto 10.
  Qed.
  Lemma delta_global_blind q : blind (delta_global_update q).
  Proof.
    intros data v v' p. unfold delta_global_update; simpl.
    destruct data as [|x [|y [|yaw [|]]]]; simpl; auto. unfold upd_agree; simpl; auto 10.
  Qed.
  Lemma delta_local_blind q : blind (delta_local_update q).
  Proof.
    intros data v v' p. unfold delta_local_update, delta_global_update; simpl.
    destruct data as [|x [|y [|yaw l]]]; simpl; auto. unfold upd_agree; simpl; auto 10.
  Qed.
  Lemma bicycle_blind q : blind (bicycle_update q).
  Proof.
    intros data v v' p. unfold bicycle_update; simpl.
    destruct data as [|x [|y l]]; simpl; auto. unfold upd_agree; simpl; auto 10.
  Qed.

  (** use_fallback=True: controlled objects with an invalid update continue at
      constant velocity, the others are as without fallback. *)
  Lemma fallback_lemma n T us sim ref mask (t : nat) inj sim' i cur nxt u b :
    rect n T sim -> rect n T ref -> t + 1 < T ->
    apply_trajectory_update_to_state us sim ref mask (Z.of_nat t) inj true = Ok sim' ->
    nth_error us i = Some u -> nth_error mask i = Some b ->
    at2 sim i t = Some cur -> at2 ref i (t + 1) = Some nxt ->
    exists p, at2 sim' i (t + 1) = Some p /\
      (b = true -> u_valid u = false ->
         p_x p = (p_x cur + p_vx cur * time_interval)%F /\
         p_y p = (p_y cur + p_vy cur * time_interval)%F /\
         p_vx p = p_vx cur /\ p_vy p = p_vy cur /\
         p_yaw p = fatan2 (p_vy cur) (p_vx cur)) /\
      (b = true -> u_valid u = true ->
         p_x p = u_x u /\ p_y p = u_y u /\ p_vx p = u_vx u /\ p_vy p = u_vy u /\
         p_yaw p = u_yaw u) /\
      (b = false -> same_pose p nxt).
  Proof.
    intros R Q Ht H Eu Em Ec En.
    destruct (apply_Ok n T _ _ _ _ _ _ _ _ R Q ltac:(lia) H)
      as (Lu & Lm & _ & pc & pn & Lc & Ln & Hc & Hn & Hs).
    assert (Hi : i < n) by (apply nth_error_Some_lt in Eu; lia).
    assert (E1 : nth_error pc i = Some cur).
    { rewrite Hc by auto. rewrite norm_start_of_nat by lia. auto. }
    assert (E2 : nth_error pn i = Some nxt).
    { rewrite Hn by auto. replace (Z.of_nat t + 1)%Z with (Z.of_nat (t + 1)) by lia.
      rewrite norm_start_of_nat by lia. auto. }
    eexists. split.
    { rewrite Hs by auto. replace (Z.of_nat t + 1)%Z with (Z.of_nat (t + 1)) by lia.
      rewrite norm_start_of_nat by lia. rewrite Nat.eqb_refl.
      rewrite nth_error_map4, Eu, E1, E2, Em. reflexivity. }
    split; [|split].
    - intros -> E; simpl. rewrite E. auto 10.
    - intros -> E; simpl. rewrite E. auto 10.
    - intros ->. unfold same_pose; simpl. auto 10.
  Qed.
End P.
