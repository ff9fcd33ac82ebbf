(** Planning episodes with sim agents in another coordinate frame (C73): the environment. *)
From Coq Require Import Reals ZArith List Bool Lia Lra.
From Verif.Lib Require Import Base JaxIndex Scalar XR.
From Verif.Model Require Import Operations State Dynamics BaseEnv Geometry Dyn_State Dyn_Delta
  Dyn_Bicycle Discretizer Comfort Metrics Observation Actor PlanningEnv.
From Verif.Spec Require Import StateSpec GeomSpec DynSpec MetricSpec ObsSpec MovedSpec MovedPlanSpec.
From Verif.Proofs Require Import Core P_Angles P_Pose P_Overlap P_Delta P_Bicycle P_Metrics P_Moved P_MovedMetrics P_MovedObs.
Import ListNotations.
Open Scope R_scope.

Lemma alike_Ok {A} (R : A -> A -> Prop) r r' a : alike R r r' -> r = Ok a -> exists a', r' = Ok a' /\ R a a'.
Proof. intros H ->. destruct r' as [a'|]; [eauto|contradiction]. Qed.

(* ---------------- objects on record ---------------- *)

Lemma dyn_index_In {A} t (l : list A) a : dyn_index t l = Ok a -> In a l.
Proof.
  unfold dyn_index. destruct (nth_error l _) eqn:E; [|discriminate]. intros H. apply Ok_inj in H. subst.
  eapply nth_error_In; eauto.
Qed.
Lemma dyn_slice_In {A} t k (l m : list A) a : dyn_slice t k l = Ok m -> In a m -> In a l.
Proof.
  unfold dyn_slice. destruct (_ <=? _)%nat; [|discriminate]. intros H. apply Ok_inj in H. subst.
  intros H. rewrite <- (firstn_skipn (norm_start t (length l) k) l). apply in_or_app. right.
  rewrite <- (firstn_skipn k (skipn _ _)). apply in_or_app. now left.
Qed.
Lemma dyn_update_In {A} t (u l m : list A) a : dyn_update t u l = Ok m -> In a m -> In a u \/ In a l.
Proof.
  unfold dyn_update. destruct (_ <=? _)%nat; [|discriminate]. intros H. apply Ok_inj in H. subst. unfold splice.
  intros H. apply in_app_or in H as [H|H].
  - right. rewrite <- (firstn_skipn (norm_start t (length l) (length u)) l). apply in_or_app. now left.
  - apply in_app_or in H as [H|H]; [now left|]. right.
    rewrite <- (firstn_skipn (norm_start t (length l) (length u) + length u) l). apply in_or_app. now right.
Qed.
Lemma update_rows_In {A} o x y (m u m' : list (list A)) : update_rows o x y m u = Ok m' ->
  forall i r', nth_error m' i = Some r' -> exists r, nth_error m i = Some r /\
    forall a, In a r' -> In a r \/ exists v, nth_error u i = Some v /\ In a v.
Proof.
  revert u m'. induction m as [|r m IH]; intros [|v u] m' H i r' Hi; cbn [update_rows] in H;
    try (apply Ok_inj in H; subst m'; exists r'; split; [exact Hi|]; auto; fail); [discriminate|].
  apply bind_Ok in H as (r1 & H1 & H). apply bind_Ok in H as (rs & H2 & H). apply Ok_inj in H. subst m'.
  destruct i as [|i].
  - cbn in Hi. apply Some_inj in Hi. subst r1. exists r. split; [reflexivity|]. intros a Ha.
    unfold update_row in H1. apply bind_Ok in H1 as (w & Hw & H1).
    destruct (dyn_update_In _ _ _ _ _ H1 Ha) as [K|K]; [|auto]. right. exists v. split; [reflexivity|].
    destruct o; [eapply dyn_slice_In; eauto|]. apply Ok_inj in Hw. now subst.
  - cbn in Hi. destruct (IH _ _ H2 i r' Hi) as (r0 & E & B). exists r0. split; [exact E|exact B].
Qed.

Lemma on_record_reset c s s0 : env_reset (S := XR) c s = Ok s0 -> on_record s0 /\ s_log s0 = s_log s.
Proof.
  intros H. unfold env_reset in H. apply bind_Ok in H as (_ & _ & H). unfold update_state_by_log in H.
  cbn [s_sim s_log s_t s_tls s_meta s_paths s_rg] in H. apply bind_Ok in H as (sim & H1 & H). apply Ok_inj in H. subst s0.
  split; [|reflexivity]. intros i r l Hr Hl (p & Hp & V). cbn [s_sim s_log] in *.
  unfold update_by_slice_in_dim in H1. destruct (update_rows_In _ _ _ _ _ _ H1 _ _ Hr) as (r0 & E0 & B).
  destruct (B p Hp) as [K|(v & Ev & K)].
  - unfold fill_invalid_trajectory in E0. rewrite nth_error_map in E0. rewrite Hl in E0. cbn in E0. apply Some_inj in E0. subst r0.
    apply in_map_iff in K as (q & <- & _). discriminate.
  - rewrite Hl in Ev. apply Some_inj in Ev. subst v. eauto.
Qed.

Lemma dynamic_index_row {A} (m : list (list A)) t f i a : dynamic_index m t = Ok f -> nth_error f i = Some a ->
  exists r, nth_error m i = Some r /\ In a r.
Proof.
  intros H Ha. destruct (nth_error_lt_Some m i) as [r Hr].
  { rewrite <- (mapM_length _ _ _ H). eapply nth_error_Some_lt; eauto. }
  destruct (mapM_nth _ _ _ _ _ H Hr) as (b & E & Hb). rewrite Ha in Hb. apply Some_inj in Hb. subst b.
  exists r. split; [exact Hr|]. eapply dyn_index_In; eauto.
Qed.

Lemma on_record_forward d acts (s : state (S := XR)) mask sim :
  forward d acts (s_sim s) (s_log s) mask (s_t s) false = Ok sim -> on_record s ->
  forall i r l, nth_error sim i = Some r -> nth_error (s_log s) i = Some l ->
    (exists p, In p r /\ p_valid p = true) -> exists q, In q l /\ p_valid q = true.
Proof.
  intros H OR i r l Hr Hl (p & Hp & V). unfold forward in H.
  apply bind_Ok in H as (_ & _ & H). apply bind_Ok in H as (cur & Hc & H). apply bind_Ok in H as (us & _ & H).
  unfold apply_trajectory_update_to_state in H. rewrite Hc in H. cbn [bind] in H.
  apply bind_Ok in H as (nx & Hn & H). apply bind_Ok in H as (_ & _ & H).
  unfold update_by_slice_in_dim in H. destruct (update_rows_In _ _ _ _ _ _ H _ _ Hr) as (r0 & E0 & B).
  destruct (B p Hp) as [K|(v & Ev & K)]; [eapply OR; eauto|].
  rewrite nth_error_map, nth_error_map4 in Ev.
  destruct (nth_error us i) as [u|]; [|discriminate]. destruct (nth_error cur i) as [c|] eqn:Ec; [|discriminate].
  destruct (nth_error nx i) as [n|] eqn:En; [|discriminate]. destruct (nth_error mask i) as [b|]; [|discriminate].
  cbn in Ev. apply Some_inj in Ev. subst v. destruct K as [<-|[]]. cbn [next_pt p_valid] in V.
  assert (Vc : p_valid c = true).
  { unfold next_valid in V. destruct b; cbn [andb] in V; destruct (p_valid c); try reflexivity; discriminate. }
  destruct (dynamic_index_row _ _ _ _ _ Hc Ec) as (rc & Erc & Ic).
  apply (OR i rc l Erc Hl). eauto.
Qed.

Lemma penv_step_on_record {P X K} split (e : penv (S := XR) P X K) ps a rng ps1 :
  c_allow_new_objects (pe_cfg e) = false -> penv_step split e ps a rng = Ok ps1 -> on_record (ps_state ps) ->
  on_record (ps_state ps1) /\ s_log (ps_state ps1) = s_log (ps_state ps) /\ s_meta (ps_state ps1) = s_meta (ps_state ps).
Proof.
  intros CI H OR. unfold penv_step in H. rewrite CI in H.
  apply bind_Ok in H as (cur & _ & H). apply bind_Ok in H as (us & _ & H). apply bind_Ok in H as (ov & _ & H).
  apply bind_Ok in H as (_ & _ & H). apply bind_Ok in H as ([[act ctrl] xs] & _ & H).
  apply bind_Ok in H as (sim & Hf & H). apply Ok_inj in H. subst ps1. cbn [ps_state s_log s_meta]. split; [|auto].
  intros i r l. cbn [s_sim s_log]. eapply on_record_forward; eauto.
Qed.

Section G.
  Variable g : motion.

  (* ---------------- updates and actions of five columns ---------------- *)

  (** Five columns with the two descriptions of a pose, for an object in the scene. *)
  Definition acts5 (cur : list (pt (S := XR))) (al al' : list (act (S := XR))) : Prop :=
    length al' = length al /\ Forall (fun a => length (a_data a) = 5%nat) al /\
    Forall (fun a => length (a_data a) = 5%nat) al' /\
    forall i c a a', nth_error cur i = Some c -> p_valid c = true -> nth_error al i = Some a ->
      nth_error al' i = Some a' -> exists k k', moved_kin g k k' /\
        a_data a = [Fin (kx k); Fin (ky k); Fin (kyaw k); Fin (kvx k); Fin (kvy k)] /\
        a_data a' = [Fin (kx k'); Fin (ky k'); Fin (kyaw k'); Fin (kvx k'); Fin (kvy k')].

  Lemma five {A} (l : list A) : length l = 5%nat -> exists a b c d e, l = [a; b; c; d; e].
  Proof. intros H. destruct l as [|a [|b [|c [|d [|e [|]]]]]]; try discriminate. eauto 7. Qed.

  Definition five_rel (p : pt (S := XR)) (a a' : act (S := XR)) : Prop :=
    length (a_data a) = 5%nat /\ length (a_data a') = 5%nat /\
    (p_valid p = true -> exists k k', moved_kin g k k' /\
        a_data a = [Fin (kx k); Fin (ky k); Fin (kyaw k); Fin (kvx k); Fin (kvy k)] /\
        a_data a' = [Fin (kx k'); Fin (ky k'); Fin (kyaw k'); Fin (kvx k'); Fin (kvy k')]).

  Lemma five_equivariant : equivariant g five_rel StateDynamics.
  Proof.
    apply alike_per_object. intros p p' a a' _ (L & L' & M). unfold state_update.
    destruct (five _ L) as (x & y & w & vx & vy & D), (five _ L') as (x' & y' & w' & vx' & vy' & D').
    rewrite D, D'. cbn [alike]. intros Vp.
    destruct (M Vp) as (k & k' & MK & E & E'). rewrite D in E. rewrite D' in E'.
    injection E as -> -> -> -> ->. injection E' as -> -> -> -> ->.
    exists k, k'. repeat split; auto; apply MK.
  Qed.

  Lemma as_actions5 cur us us' : length us' = length us ->
    (forall i p u u', nth_error cur i = Some p -> nth_error us i = Some u -> nth_error us' i = Some u' -> moved_upd g p u u') ->
    acts5 cur (map as_action us) (map as_action us').
  Proof.
    intros L H. split; [now rewrite !map_length|].
    split; [apply Forall_forall; intros a Ha; apply in_map_iff in Ha as (u & <- & _); reflexivity|].
    split; [apply Forall_forall; intros a Ha; apply in_map_iff in Ha as (u & <- & _); reflexivity|].
    intros i c a a' Hc Vc Ha Ha'. rewrite nth_error_map in Ha, Ha'.
    destruct (nth_error us i) as [u|] eqn:Eu; [|discriminate]. destruct (nth_error us' i) as [u'|] eqn:Eu'; [|discriminate].
    cbn in Ha, Ha'. apply Some_inj in Ha, Ha'. subst a a'.
    destruct (H i c u u' Hc Eu Eu' Vc) as (k & k' & (A1 & A2 & A3 & A4 & A5) & (B1 & B2 & B3 & B4 & B5) & M).
    exists k, k'. split; [exact M|]. unfold as_action; cbn [a_data]. now rewrite A1, A2, A3, A4, A5, B1, B2, B3, B4, B5.
  Qed.

  (* ---------------- boxes at the first step ---------------- *)

  Lemma init_overlap_alike s s' : moved_state g s s' -> markers_alike s s' ->
    alike eq (initialized_overlap (s_log s)) (initialized_overlap (s_log s')).
  Proof.
    intros (_ & Hl & _) MA. unfold initialized_overlap.
    pose proof (alike_dynamic_index (moved_pt g) 0 _ _ Hl) as HC. unfold markers_alike in MA.
    destruct (dynamic_index (s_log s) 0) as [f|], (dynamic_index (s_log s') 0) as [f'|]; cbn in HC; try contradiction;
      [|now cbn; subst]. cbn [bind alike]. f_equal. unfold compute_pairwise_overlaps.
    pose proof (Forall2_len _ _ _ HC) as L.
    apply nth_error_ext_eq. intros i. rewrite !nth_error_mapi, !nth_error_map.
    destruct (nth_error f i) as [p|] eqn:Ep.
    2:{ cbn. apply nth_error_None in Ep. rewrite (proj2 (nth_error_None f' i)) by lia. reflexivity. }
    destruct (Forall2_nth1 _ _ _ _ _ HC Ep) as (p' & Ep' & Mp). rewrite Ep'. cbn [option_map]. f_equal.
    apply nth_error_ext_eq. intros j. rewrite !nth_error_mapi, !nth_error_map.
    destruct (nth_error f j) as [q|] eqn:Eq.
    2:{ cbn. apply nth_error_None in Eq. rewrite (proj2 (nth_error_None f' j)) by lia. reflexivity. }
    destruct (Forall2_nth1 _ _ _ _ _ HC Eq) as (q' & Eq' & Mq). rewrite Eq'. cbn [option_map]. f_equal.
    destruct (i =? j)%nat; [reflexivity|].
    destruct (p_valid p && p_valid q) eqn:V; [|symmetry; eapply (MA f f' i j); eauto].
    apply andb_true_iff in V as [V1 V2]. symmetry. now apply moved_has_overlap with (g := g).
  Qed.

  (* ---------------- merging ---------------- *)

  Lemma same_dims5 (x y : list (act (S := XR))) : Forall (fun a => length (a_data a) = 5%nat) x ->
    Forall (fun a => length (a_data a) = 5%nat) y -> same_dims x y = (length x =? length y)%nat.
  Proof.
    intros Hx. revert y. induction Hx as [|a x Ha Hx IH]; intros y Hy.
    - destruct y; reflexivity.
    - destruct Hy as [|b y Hb Hy]; [reflexivity|]. specialize (IH y Hy). unfold same_dims in *. cbn [length map2 forallb].
      rewrite Ha, Hb. cbn [Nat.eqb andb]. exact IH.
  Qed.

  Lemma where5 cur mask x x' y y' :
    length x' = length x -> Forall (fun a => length (a_data a) = 5%nat) x -> Forall (fun a => length (a_data a) = 5%nat) x' ->
    (forall i c a a', nth_error cur i = Some c -> p_valid c = true -> nth_error mask i = Some true -> nth_error x i = Some a ->
       nth_error x' i = Some a' -> moved_action g a a') ->
    acts5 cur y y' -> alike (acts5 cur) (where_actions mask x y) (where_actions mask x' y').
  Proof.
    intros Lx Fx Fx' Hx (Ly & Fy & Fy' & Hy). unfold where_actions. rewrite !same_dims5, Lx, Ly by assumption.
    destruct ((length mask =? length x)%nat && _) eqn:G; [|reflexivity]. cbn [guard bind alike].
    apply andb_true_iff in G as [G1 G2]. apply Nat.eqb_eq in G1, G2.
    assert (F3 : forall u v : list (act (S := XR)), Forall (fun a => length (a_data a) = 5%nat) u ->
      Forall (fun a => length (a_data a) = 5%nat) v ->
      Forall (fun a => length (a_data a) = 5%nat) (map3 (fun (m : bool) a b => if m then a else b) mask u v)).
    { intros u v Hu Hv. apply Forall_forall. intros a Ha. apply In_nth_error in Ha as [j Ha]. rewrite nth_error_map3 in Ha.
      destruct (nth_error mask j) as [m|]; [|discriminate]. destruct (nth_error u j) eqn:Eu; [|discriminate].
      destruct (nth_error v j) eqn:Ev; [|discriminate]. apply Some_inj in Ha. rewrite Forall_forall in Hu, Hv.
      destruct m; subst a; [apply Hu|apply Hv]; eapply nth_error_In; eauto. }
    split; [rewrite !map3_length; lia|]. split; [now apply F3|]. split; [now apply F3|].
    intros i c a a' Hc Vc Ha Ha'. rewrite nth_error_map3 in Ha, Ha'.
    destruct (nth_error mask i) as [m|] eqn:Em; [|discriminate].
    destruct (nth_error x i) as [b|] eqn:Eb; [|discriminate]. destruct (nth_error y i) as [d|] eqn:Ed; [|discriminate].
    destruct (nth_error x' i) as [b'|] eqn:Eb'; [|discriminate]. destruct (nth_error y' i) as [d'|] eqn:Ed'; [|discriminate].
    apply Some_inj in Ha, Ha'. subst a a'. destruct m; [|now apply (Hy i c)].
    destruct (Hx i c b b' Hc Vc Em Eb Eb') as (k & k' & M & D & D' & _). eauto 6.
  Qed.

  Definition merged {X} (cur : list (pt (S := XR))) (r r' : list (act (S := XR)) * list bool * list X) : Prop :=
    acts5 cur (fst (fst r)) (fst (fst r')) /\ snd (fst r') = snd (fst r) /\ snd r' = snd r.

  Lemma merge_alike {P X K} (ok : traj (S := XR) -> Prop) s s' cur (able : list bool) : moved_state g s s' -> on_record s -> ok (s_log s) ->
    current_sim s = Ok cur ->
    forall (ags : list (actor P X K)), Forall (frame_free g ok) ags -> forall xs ps ks act act' ctrl, acts5 cur act act' ->
    alike (merged cur) (merge_sim_agents s able ags xs ps ks act ctrl) (merge_sim_agents s' able ags xs ps ks act' ctrl).
  Proof.
    intros MS OR HO Ec ags FF. induction FF as [|ag ags [_ Fa] FF IH]; intros xs ps ks act act' ctrl HA.
    { cbn. repeat split; auto; apply HA. }
    destruct xs as [|x xs]; [cbn; repeat split; auto; apply HA|]. destruct ps as [|p ps]; [cbn; repeat split; auto; apply HA|].
    destruct ks as [|k ks]; [cbn; repeat split; auto; apply HA|]. cbn [merge_sim_agents].
    eapply alike_bind; [apply (Fa p s s' x k MS OR HO)|].
    intros o o' (E1 & E2 & E3 & F1 & F2 & HM). rewrite E2.
    apply alike_bind with (R := eq); [apply alike_guard|]. intros _ _ _.
    eapply alike_bind.
    { apply where5 with (cur := cur); [exact E3|exact F1|exact F2| |exact HA].
      intros i c a a' Hc Vc Hm Ha Ha'. apply (HM cur i c a a' Ec Hc Vc); auto.
      rewrite nth_error_map2 in Hm. destruct (nth_error (o_controlled o) i) as [[|]|]; [reflexivity| |discriminate].
      destruct (nth_error able i); discriminate. }
    intros y y' Hy. eapply alike_bind; [apply IH, Hy|].
    intros [[r1 r2] r3] [[r1' r2'] r3'] (A & B & C). cbn [fst snd] in *. cbn [alike]. subst.
    split; [exact A|]. cbn [fst snd]. split; [reflexivity|congruence].
  Qed.

  (* ---------------- step, reset, episode ---------------- *)

  Lemma planned_equivariant d A : planned g d A -> exists B, equivariant g B d /\ forall p a a', A a a' -> B p a a'.
  Proof.
    intros H. destruct H as [|dt mx my myaw Hd|dt mx my myaw Hd|dt ma ms nrm H1 H2].
    - eexists. split; [apply state_equivariant|]. intros p a a' M. pose proof M as (k & k' & _ & E & E' & _).
      split; [repeat eexists; exact E|]. split; [repeat eexists; exact E'|auto].
    - eexists. split; [now apply (global_equivariant g dt mx my myaw)|]. auto.
    - eexists. split; [now apply (local_equivariant g dt mx my myaw)|]. intros. now apply same_same.
    - eexists. split; [now apply (bicycle_equivariant g dt ma ms nrm)|]. intros. now apply same_same.
  Qed.

  Section Env.
    Context {P X K : Type}.
    Variable split : K -> nat -> nat -> K.
    Variable e : penv (S := XR) P X K.
    Variable ok : traj (S := XR) -> Prop.
    Variable A : act (S := XR) -> act -> Prop.
    Hypothesis HD : planned g (pe_dyn e) A.
    Hypothesis HA : Forall (frame_free g ok) (pe_agents e).
    Hypothesis CI : c_allow_new_objects (pe_cfg e) = false.

    Lemma moved_penv_step ps ps' a a' rng : moved_pstate g ps ps' -> on_record (ps_state ps) ->
      ok (s_log (ps_state ps)) -> markers_alike (ps_state ps) (ps_state ps') -> A a a' ->
      alike (moved_pstate g) (penv_step split e ps a rng) (penv_step split e ps' a' rng).
    Proof.
      intros (MS & EX) OR HO MA Ha. unfold penv_step. rewrite EX, CI.
      destruct (planned_equivariant _ _ HD) as (B & EB & AB).
      pose proof MS as (Hs & Hl & Htl & Hm & Hti & Hp & Hr).
      pose proof (alike_dynamic_index (moved_pt g) (s_t (ps_state ps)) _ _ Hs) as HC.
      unfold current_sim. rewrite Hti.
      destruct (dynamic_index (s_sim (ps_state ps)) _) as [cur|] eqn:Ec,
               (dynamic_index (s_sim (ps_state ps')) _) as [cur'|] eqn:Ec'; cbn in HC; try contradiction; [|now subst].
      cbn [bind]. pose proof (Forall2_len _ _ _ HC) as Lc.
      eapply alike_bind.
      { unfold planning_update. apply (EB _ _ _ _ HC).
        - intros _. split; [now rewrite !repeat_length|].
          intros i p b b' _ Hb Hb'. apply nth_error_In, repeat_spec in Hb, Hb'. subst. now apply AB.
        - apply repeat_length. }
      intros us us' (L1 & L2 & HU).
      apply alike_bind with (R := eq); [now apply init_overlap_alike|]. intros ov _ <-.
      apply alike_bind with (R := eq); [apply alike_guard|]. intros _ _ _. rewrite Hm.
      eapply alike_bind.
      { apply (merge_alike ok) with (cur := cur); auto. apply as_actions5; [exact L2|exact HU]. }
      intros [[act ctrl] xs] [[act' ctrl'] xs'] ((La & F1 & F2 & HK) & E1 & E2). cbn [fst snd] in *. subst ctrl' xs'.
      eapply alike_bind.
      { rewrite <- Hti at 2. apply moved_forward with (A := five_rel); [apply five_equivariant|exact MS|].
        split; [exact La|]. intros cur0 i p b b' E0 Hc Hb Hb'. unfold current_sim in E0. rewrite Ec in E0. apply Ok_inj in E0.
        subst cur0. rewrite Forall_forall in F1, F2.
        split; [apply F1; eapply nth_error_In; eauto|]. split; [apply F2; eapply nth_error_In; eauto|].
        intros V. eapply HK; eauto. }
      intros sim sim' Hsim. cbn [alike]. split; [|reflexivity]. cbn [ps_state].
      unfold moved_state; cbn [s_sim s_log s_tls s_meta s_t s_paths s_rg]. auto 10.
    Qed.

    Lemma moved_penv_reset s s' rng : moved_state g s s' ->
      alike (moved_pstate g) (penv_reset split e s rng) (penv_reset split e s' rng).
    Proof.
      intros MS. unfold penv_reset. eapply alike_bind; [apply (moved_reset g (pe_cfg e)), MS|].
      intros s0 s0' MS0. apply alike_bind with (R := eq); [|intros xs _ <-; split; [exact MS0|reflexivity]].
      assert (G : forall l, Forall (fun ka : option K * actor P X K => frame_free g ok (snd ka)) l ->
        alike eq (mapM (fun ka => ac_init (snd ka) (fst ka) s0) l) (mapM (fun ka => ac_init (snd ka) (fst ka) s0') l)).
      { intros l F. induction F as [|ka l [Fi _] F IH]; [reflexivity|]. cbn [mapM].
        apply alike_bind with (R := eq); [now apply Fi|]. intros x _ <-.
        apply alike_bind with (R := eq); [exact IH|]. intros y _ <-. reflexivity. }
      apply G. apply Forall_forall. intros [k a] Hin. apply in_combine_r in Hin. rewrite Forall_forall in HA. now apply HA.
    Qed.

    Lemma markers_log s s' t t' : s_log t = s_log s -> s_log t' = s_log s' -> markers_alike s s' -> markers_alike t t'.
    Proof. unfold markers_alike. intros -> ->. auto. Qed.

    Lemma moved_penv_steps al al' : Forall2 (fun x x' => A (fst x) (fst x') /\ snd x' = snd x) al al' ->
      forall ps ps', moved_pstate g ps ps' -> on_record (ps_state ps) ->
      ok (s_log (ps_state ps)) -> markers_alike (ps_state ps) (ps_state ps') ->
      alike (moved_pstate g) (penv_steps split e ps al) (penv_steps split e ps' al').
    Proof.
      intros H. induction H as [|[a k] [a' k'] al al' [Ha Hk] H IH]; intros ps ps' MP OR HO MA; [exact MP|].
      cbn [fst snd] in *. subst k'. cbn [penv_steps].
      pose proof (moved_penv_step ps ps' a a' k MP OR HO MA Ha) as ST.
      destruct (penv_step split e ps a k) as [p1|] eqn:E, (penv_step split e ps' a' k) as [p1'|] eqn:E'; cbn in ST; try contradiction;
        [|now subst]. cbn [bind].
      destruct (penv_step_on_record _ _ _ _ _ _ CI E OR) as (O1 & L1 & _).
      assert (L1' : s_log (ps_state p1') = s_log (ps_state ps')).
      { clear - E'. unfold penv_step in E'.
        apply bind_Ok in E' as (cur & _ & H). apply bind_Ok in H as (us & _ & H). apply bind_Ok in H as (ov & _ & H).
        apply bind_Ok in H as (_ & _ & H). apply bind_Ok in H as ([[act ctrl] xs] & _ & H).
        apply bind_Ok in H as (sim & Hf & H). apply Ok_inj in H. now subst p1'. }
      apply IH; auto; [congruence|]. eapply markers_log; eauto.
    Qed.
  End Env.
End G.
