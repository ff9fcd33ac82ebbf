(** The planning environment's expert action, metrics and reward (C52, C54). *)
From Coq Require Import String.
From Coq Require Import Reals ZArith List Lia Lra Bool.
From Verif.Lib Require Import Base JaxIndex Scalar XR.
From Verif.Model Require Import Operations State Dynamics BaseEnv Dyn_State Geometry
  Discretizer Comfort Metrics Expert Actor PlanningEnv.
From Verif.Spec Require Import StateSpec GeomSpec DynSpec MetricSpec RewardSpec PlanSpec AgentSpec.
From Verif.Proofs Require Import Core Episode P_Step P_Expert P_Overlap P_Actor P_Plan P_PlanRun
  P_Metrics P_Route P_Reward P_Masked.
Import ListNotations.

Lemma nth_map2_default {A B} (f : A -> B) (l : list A) (j : nat) (d : B) (x : A) :
  nth_error l j = Some x -> nth j (map f l) d = f x.
Proof. revert j. induction l; intros [|j] H; try discriminate; simpl; [injection H as ->|]; auto. Qed.

(** One-hot selection of a row of finite numbers. *)
Lemma select_action_spec (acts : list (act (S := XR))) ms k a :
  length acts = length ms -> the_sdc ms k -> nth_error acts k = Some a ->
  Forall (fun b => length (a_data b) = length (a_data a) /\ Forall finite (a_data b)) acts ->
  select_action_by_onehot acts (map m_is_sdc ms) = Ok a.
Proof.
  intros L U Ea HF. unfold select_action_by_onehot. rewrite map_length, L, Nat.eqb_refl.
  cbn [guard bind].
  assert (D : match acts with b :: _ => length (a_data b) | [] => 0%nat end = length (a_data a)).
  { destruct acts as [|b acts]; [destruct k; discriminate|]. inversion HF as [|? ? [H _] _]. exact H. }
  rewrite D.
  assert (M : mapM (fun j => select_by_onehot (map (fun b : act => nth j (a_data b) f0) acts)
                               (map m_is_sdc ms)) (seq 0 (length (a_data a))) = Ok (a_data a)).
  { assert (G : forall (js : list nat) (xs : list xr), length js = length xs ->
        (forall m j x, nth_error js m = Some j -> nth_error xs m = Some x ->
           select_by_onehot (S := XR) (map (fun b : act => nth j (a_data b) f0) acts)
             (map m_is_sdc ms) = Ok x) ->
        mapM (fun j => select_by_onehot (S := XR) (map (fun b : act => nth j (a_data b) f0) acts)
                         (map m_is_sdc ms)) js = Ok xs).
    { induction js as [|j js IH]; intros [|x xs] Lj HH; try discriminate; [reflexivity|].
      cbn [mapM]. rewrite (HH 0%nat j x eq_refl eq_refl). cbn [bind].
      rewrite (IH xs); [reflexivity|now injection Lj|]. intros m; apply (HH (S m)). }
    apply G; [apply seq_length|]. intros m j x Hm Hx.
    pose proof (nth_error_Some_lt _ _ _ Hm) as Hlt. rewrite seq_length in Hlt.
    assert (j = m) as ->.
    { apply (nth_error_nth _ _ 0%nat) in Hm. rewrite seq_nth in Hm by auto. lia. }
    pose proof (proj1 (Forall_forall _ _) HF) as HFa.
    assert (Fx : finite x).
    { destruct (HFa a (nth_error_In _ _ Ea)) as [_ Fa].
      rewrite Forall_forall in Fa. apply Fa. eapply nth_error_In; eauto. }
    destruct Fx as [r ->]. apply select_onehot_Fin with k; auto.
    - rewrite map_length. exact L.
    - intros y Hy. apply in_map_iff in Hy as (b & <- & Hb). destruct (HFa b Hb) as [Lb Fb].
      rewrite Forall_forall in Fb. apply Fb. apply nth_In.
      rewrite Lb. exact Hlt.
    - rewrite nth_error_map, Ea. cbn [option_map]. f_equal.
      apply (nth_error_nth (a_data a) m). exact Hx. }
  rewrite M. cbn [bind].
  rewrite (select_onehot_b (map a_valid acts) ms k (a_valid a)); auto.
  - cbn [bind]. destruct a; reflexivity.
  - now rewrite map_length.
  - rewrite nth_error_map, Ea. reflexivity.
Qed.

(** The planning expert's action is the SDC's entry of the multi-agent expert
    action of the wrapped dynamics. *)
Lemma planning_expert_spec (d : dynamics (S := XR)) s acts k a :
  infer_expert_action d s = Ok acts -> length acts = length (s_meta s) ->
  the_sdc (s_meta s) k -> nth_error acts k = Some a ->
  Forall (fun b => length (a_data b) = length (a_data a) /\ Forall finite (a_data b)) acts ->
  planning_expert d s = Ok a.
Proof.
  intros H L U Ea HF. unfold infer_expert_action in H.
  apply bind_Ok in H as (p & Hp & H). apply bind_Ok in H as (q & Hq & H).
  unfold planning_expert, planning_inverse. rewrite Hp, Hq. cbn [bind]. rewrite H. cbn [bind].
  now apply select_action_spec with k.
Qed.

(* ---------------- metrics ---------------- *)

Definition mfinite (v : mval (S := XR)) : Prop :=
  match v with PerObject l => Forall (fun m => finite (mr_value m)) l | Scalar0 _ => True end.

Lemma select_metric_spec l ms k m :
  length l = length ms -> the_sdc ms k -> Forall (fun m => finite (mr_value m)) l ->
  nth_error l k = Some m ->
  select_metric (S := XR) (PerObject l) (map m_is_sdc ms) = Ok (Scalar0 m).
Proof.
  intros L U HF Em. cbn [select_metric].
  assert (Fm : finite (mr_value m)).
  { rewrite Forall_forall in HF. apply HF. eapply nth_error_In; eauto. }
  destruct Fm as [r Er].
  rewrite (select_onehot_Fin (map mr_value l) ms k r); auto.
  - cbn [bind]. rewrite (select_onehot_b (map mr_valid l) ms k (mr_valid m)); auto.
    + cbn [bind]. rewrite <- Er. destruct m; reflexivity.
    + now rewrite map_length.
    + now rewrite nth_error_map, Em.
  - now rewrite map_length.
  - intros y Hy. apply in_map_iff in Hy as (m' & <- & Hm').
    rewrite Forall_forall in HF. exact (HF m' Hm').
  - rewrite nth_error_map, Em. cbn [option_map]. now rewrite Er.
Qed.

(** What a per-object result becomes. *)
Lemma select_entry_other {S : Scalar} sel name name' dct dct' :
  select_entry (S := S) sel name dct = Ok dct' -> name' <> name ->
  lookup name' dct' = lookup name' dct.
Proof.
  unfold select_entry. destruct (lookup name dct) as [v|].
  - intros H N. apply bind_Ok in H as (v' & _ & H).
    assert (dct' = dict_set name v' dct) as -> by congruence.
    rewrite lookup_dict_set. apply String.eqb_neq in N. now rewrite N.
  - intros H _. congruence.
Qed.
Lemma select_entry_same {S : Scalar} sel name dct dct' v :
  select_entry (S := S) sel name dct = Ok dct' -> lookup name dct = Some v ->
  exists v', select_metric v sel = Ok v' /\ lookup name dct' = Some v'.
Proof.
  unfold select_entry. intros H E. rewrite E in H. apply bind_Ok in H as (v' & Hv & H).
  exists v'. split; auto. assert (dct' = dict_set name v' dct) as -> by congruence.
  now rewrite lookup_dict_set, String.eqb_refl.
Qed.

(** Selection works exactly on results with one entry per object, and its only error
    is an AssertionError. *)
Lemma select_metric_defined {S : Scalar} (v : mval (S := S)) sel :
  (one_per_object (length sel) v -> exists m, select_metric v sel = Ok (Scalar0 m)) /\
  (~ one_per_object (length sel) v -> select_metric v sel = Err AssertionError).
Proof.
  unfold select_metric, select_by_onehot, select_by_onehot_b. split.
  - intros (l & -> & L). rewrite !map_length, L, Nat.eqb_refl. cbn [guard bind]. eauto.
  - intros N. destruct v as [l|m]; [|reflexivity]. rewrite map_length.
    destruct (Nat.eqb_spec (length l) (length sel)) as [L|L]; [|reflexivity].
    destruct N. exists l. auto.
Qed.
Lemma one_per_object_dec {S : Scalar} n (v : mval (S := S)) :
  {one_per_object n v} + {~ one_per_object n v}.
Proof.
  destruct v as [l|m].
  - destruct (Nat.eq_dec (length l) n) as [L|L]; [left; exists l; auto|].
    right. intros (l' & H & L'). injection H as <-. auto.
  - right. intros (l' & H & _). discriminate.
Qed.
Lemma one_per_object_mask {S : Scalar} n b (v : mval (S := S)) :
  one_per_object n (mask_metric b v) <-> one_per_object n v.
Proof.
  split.
  - destruct v as [l|m]; intros (l' & H & L); [|discriminate]. injection H as <-.
    rewrite map_length in L. exists l. auto.
  - intros (l & -> & L). eexists. split; [reflexivity|]. now rewrite map_length.
Qed.
Lemma select_entry_defined {S : Scalar} sel name dct :
  match lookup name dct with
  | Some v => if one_per_object_dec (length sel) v
              then exists m, select_entry (S := S) sel name dct = Ok (dict_set name (Scalar0 m) dct)
              else select_entry (S := S) sel name dct = Err AssertionError
  | None => select_entry (S := S) sel name dct = Ok dct
  end.
Proof.
  unfold select_entry. destruct (lookup name dct) as [v|]; [|reflexivity].
  destruct (one_per_object_dec (length sel) v) as [D|D].
  - destruct (proj1 (select_metric_defined v sel) D) as [m ->]. exists m. reflexivity.
  - now rewrite (proj2 (select_metric_defined v sel) D).
Qed.
Lemma select_entry_cases {S : Scalar} sel name (dct : list (string * mval (S := S))) :
  ((forall v, lookup name dct = Some v -> one_per_object (length sel) v) /\
    exists dct', select_entry sel name dct = Ok dct' /\
      forall name', name' <> name -> lookup name' dct' = lookup name' dct) \/
  ((exists v, lookup name dct = Some v /\ ~ one_per_object (length sel) v) /\
    select_entry sel name dct = Err AssertionError).
Proof.
  pose proof (select_entry_defined sel name dct) as H.
  destruct (lookup name dct) as [v|] eqn:E.
  - destruct (one_per_object_dec (length sel) v) as [D|D].
    + left. split; [intros v' Hv; assert (v' = v) as -> by congruence; exact D|].
      destruct H as [m H]. eexists. split; [exact H|]. intros name' N.
      exact (select_entry_other sel name name' dct _ H N).
    + right. eauto.
  - left. split; [discriminate|]. exists dct. split; [exact H|]. auto.
Qed.

Section PM.
  Context {P X K : Type}.

  (** The metrics are defined exactly when each of the four is one per object. *)
  Lemma penv_metrics_defined {S : Scalar} reg (e : penv (S := S) P X K) ps d0 :
    run_metrics reg (ps_state ps) (pe_metrics e) = Ok d0 ->
    let n := length (s_meta (ps_state ps)) in
    let names := "kinematic_infeasibility"%string :: per_object_names in
    ((forall name v, In name names -> lookup name d0 = Some v -> one_per_object n v) ->
       exists d3, penv_metrics reg e ps = Ok d3) /\
    ((exists name v, In name names /\ lookup name d0 = Some v /\ ~ one_per_object n v) ->
       penv_metrics reg e ps = Err AssertionError).
  Proof.
    intros H0 n names. unfold penv_metrics. rewrite H0. cbn [bind].
    set (sel := map m_is_sdc (s_meta (ps_state ps))).
    assert (Ls : length sel = n) by apply map_length. rewrite <- Ls. clearbody n.
    destruct (select_entry_cases sel "log_divergence" d0) as [(A1 & d1 & E1 & O1)|[(v & L & B) E1]]; rewrite E1;
      [|split; [intros H; destruct B; apply (H "log_divergence"%string); [cbn; auto|auto]|reflexivity]].
    cbn [bind].
    destruct (select_entry_cases sel "overlap" d1) as [(A2 & d2 & E2 & O2)|[(v & L & B) E2]]; rewrite E2;
      [|rewrite O1 in L by discriminate;
        split; [intros H; destruct B; apply (H "overlap"%string); [cbn; auto|auto]|reflexivity]].
    rewrite O1 in A2 by discriminate. cbn [bind].
    destruct (select_entry_cases sel "offroad" d2) as [(A3 & d3 & E3 & O3)|[(v & L & B) E3]]; rewrite E3;
      [|rewrite O2, O1 in L by discriminate;
        split; [intros H; destruct B; apply (H "offroad"%string); [cbn; auto|auto]|reflexivity]].
    rewrite O2, O1 in A3 by discriminate. cbn [bind].
    assert (Lk : lookup "kinematic_infeasibility" d3 = lookup "kinematic_infeasibility" d0).
    { rewrite O3, O2, O1 by discriminate. reflexivity. }
    rewrite Lk. destruct (run_metrics_Ok _ _ _ _ H0) as [D V].
    destruct (existsb (String.eqb "kinematic_infeasibility") (pe_metrics e)) eqn:Ex.
    - apply existsb_exists in Ex as (nm & Hin & Hn). apply String.eqb_eq in Hn. subst nm.
      destruct (V _ Hin) as (_ & v & _ & _ & Lv). rewrite Lv. cbn zeta.
      set (b := (_ <? _)%Z).
      destruct (one_per_object_dec (length sel) v) as [Dv|Dv].
      + destruct (proj1 (select_metric_defined (mask_metric b v) sel)) as [m Em].
        { now apply one_per_object_mask. }
        rewrite Em. cbn [bind]. split; [eauto|].
        intros (name & w & [<-|[<-|[<-|[<-|[]]]]] & Lw & Nw); exfalso; apply Nw; auto. congruence.
      + rewrite (proj2 (select_metric_defined (mask_metric b v) sel)) by (now rewrite one_per_object_mask).
        cbn [bind]. split; [|reflexivity].
        intros H. destruct Dv. apply (H "kinematic_infeasibility"%string); [cbn; auto|exact Lv].
    - split; [eauto|].
      intros (name & w & [<-|[<-|[<-|[<-|[]]]]] & Lw & Nw); exfalso; try (apply Nw; auto; fail).
      assert (Hd : In "kinematic_infeasibility"%string (pe_metrics e)).
      { apply distinct_In. rewrite <- D. apply lookup_In. eauto. }
      assert (Hx : existsb (String.eqb "kinematic_infeasibility") (pe_metrics e) = true).
      { apply existsb_exists. eexists. split; [exact Hd|]. apply String.eqb_refl. }
      congruence.
  Qed.

  Lemma penv_metrics_other {S : Scalar} reg (e : penv (S := S) P X K) ps d0 d3 name :
    run_metrics reg (ps_state ps) (pe_metrics e) = Ok d0 -> penv_metrics reg e ps = Ok d3 ->
    ~ In name per_object_names -> name <> "kinematic_infeasibility"%string ->
    lookup name d3 = lookup name d0.
  Proof.
    intros H0 H N1 N2. unfold penv_metrics in H. rewrite H0 in H. cbn [bind] in H.
    apply bind_Ok in H as (d1 & H1 & H). apply bind_Ok in H as (d2 & H2 & H).
    apply bind_Ok in H as (d2' & H3 & H).
    assert (E : lookup name d2' = lookup name d0).
    { simpl in N1.
      rewrite (select_entry_other _ _ _ _ _ H3) by (intros ->; tauto).
      rewrite (select_entry_other _ _ _ _ _ H2) by (intros ->; tauto).
      apply (select_entry_other _ _ _ _ _ H1). intros ->; tauto. }
    destruct (existsb _ _) in H; [|congruence].
    destruct (lookup "kinematic_infeasibility" d2') as [v|] in H; [|discriminate].
    apply bind_Ok in H as (v' & _ & H).
    assert (d3 = dict_set "kinematic_infeasibility" v' d2') as -> by congruence.
    rewrite lookup_dict_set. apply String.eqb_neq in N2. now rewrite N2.
  Qed.

  Lemma penv_metrics_select {S : Scalar} reg (e : penv (S := S) P X K) ps d0 d3 name v :
    run_metrics reg (ps_state ps) (pe_metrics e) = Ok d0 -> penv_metrics reg e ps = Ok d3 ->
    In name per_object_names -> lookup name d0 = Some v ->
    exists v', select_metric v (map m_is_sdc (s_meta (ps_state ps))) = Ok v' /\ lookup name d3 = Some v'.
  Proof.
    intros H0 H N E. unfold penv_metrics in H. rewrite H0 in H. cbn [bind] in H.
    apply bind_Ok in H as (d1 & H1 & H). apply bind_Ok in H as (d2 & H2 & H).
    apply bind_Ok in H as (d2' & H3 & H).
    assert (G : exists v', select_metric v (map m_is_sdc (s_meta (ps_state ps))) = Ok v' /\ lookup name d2' = Some v').
    { destruct N as [<-|[<-|[<-|[]]]].
      - destruct (select_entry_same _ _ _ _ _ H1 E) as (v' & Hv & Ev). exists v'. split; [exact Hv|].
        now rewrite (select_entry_other _ _ _ _ _ H3), (select_entry_other _ _ _ _ _ H2) by discriminate.
      - rewrite <- (select_entry_other _ _ _ _ _ H1) in E by discriminate.
        destruct (select_entry_same _ _ _ _ _ H2 E) as (v' & Hv & Ev). exists v'. split; [exact Hv|].
        now rewrite (select_entry_other _ _ _ _ _ H3) by discriminate.
      - rewrite <- (select_entry_other _ _ _ _ _ H1) in E by discriminate.
        rewrite <- (select_entry_other _ _ _ _ _ H2) in E by discriminate.
        exact (select_entry_same _ _ _ _ _ H3 E). }
    destruct G as (v' & Hv & Ev). exists v'. split; [exact Hv|].
    destruct (existsb _ _) in H; [|congruence].
    destruct (lookup "kinematic_infeasibility" d2') as [w|] in H; [|discriminate].
    apply bind_Ok in H as (w' & _ & H).
    assert (d3 = dict_set "kinematic_infeasibility" w' d2') as -> by congruence.
    rewrite lookup_dict_set.
    destruct (String.eqb_spec name "kinematic_infeasibility") as [->|_]; auto.
    simpl in N. destruct N as [N|[N|[N|[]]]]; discriminate.
  Qed.

  Lemma penv_metrics_poisoned reg (e : penv (S := XR) P X K) ps d0 d3 name l j x m :
    run_metrics reg (ps_state ps) (pe_metrics e) = Ok d0 -> penv_metrics reg e ps = Ok d3 ->
    In name per_object_names -> lookup name d0 = Some (PerObject l) ->
    length l = length (s_meta (ps_state ps)) ->
    nth_error (s_meta (ps_state ps)) j = Some x -> m_is_sdc x = false ->
    nth_error l j = Some m -> ~ finite (mr_value m) ->
    exists b, lookup name d3 = Some (Scalar0 (mkmres (S := XR) NaN b)).
  Proof.
    intros H0 H N E L Ex Sx Em NF.
    destruct (penv_metrics_select _ _ _ _ _ _ _ H0 H N E) as (v' & Hv & Ev). rewrite Ev.
    cbn [select_metric] in Hv.
    rewrite (select_poisoned (map mr_value l) (map m_is_sdc (s_meta (ps_state ps))) j (mr_value m)) in Hv.
    - cbn [bind] in Hv. apply bind_Ok in Hv as (b & _ & Hb). exists b. congruence.
    - now rewrite !map_length.
    - rewrite nth_error_map, Ex. cbn [option_map]. now rewrite Sx.
    - rewrite nth_error_map, Em. reflexivity.
    - intros a Ha. apply NF. exists a. exact Ha.
  Qed.

  Lemma penv_metrics_sdc reg (e : penv (S := XR) P X K) ps d0 d3 name l k m :
    run_metrics reg (ps_state ps) (pe_metrics e) = Ok d0 -> penv_metrics reg e ps = Ok d3 ->
    In name per_object_names -> lookup name d0 = Some (PerObject l) ->
    length l = length (s_meta (ps_state ps)) -> the_sdc (s_meta (ps_state ps)) k ->
    Forall (fun m => finite (mr_value m)) l -> nth_error l k = Some m ->
    lookup name d3 = Some (Scalar0 m).
  Proof.
    intros H0 H N E L U HF Em. unfold penv_metrics in H. rewrite H0 in H. cbn [bind] in H.
    apply bind_Ok in H as (d1 & H1 & H). apply bind_Ok in H as (d2 & H2 & H).
    apply bind_Ok in H as (d2' & H3 & H).
    assert (G : lookup name d2' = Some (Scalar0 m)).
    { destruct N as [<-|[<-|[<-|[]]]].
      - destruct (select_entry_same _ _ _ _ _ H1 E) as (v & Hv & Ev).
        rewrite (select_entry_other _ _ _ _ _ H3), (select_entry_other _ _ _ _ _ H2) by discriminate.
        rewrite Ev, <- Hv || rewrite Ev. f_equal.
        erewrite select_metric_spec in Hv by eauto. congruence.
      - rewrite <- (select_entry_other _ _ _ _ _ H1) in E by discriminate.
        destruct (select_entry_same _ _ _ _ _ H2 E) as (v & Hv & Ev).
        rewrite (select_entry_other _ _ _ _ _ H3) by discriminate.
        rewrite Ev. f_equal. erewrite select_metric_spec in Hv by eauto. congruence.
      - rewrite <- (select_entry_other _ _ _ _ _ H1) in E by discriminate.
        rewrite <- (select_entry_other _ _ _ _ _ H2) in E by discriminate.
        destruct (select_entry_same _ _ _ _ _ H3 E) as (v & Hv & Ev).
        rewrite Ev. f_equal. erewrite select_metric_spec in Hv by eauto. congruence. }
    destruct (existsb _ _) in H; [|congruence].
    destruct (lookup "kinematic_infeasibility" d2') as [v|] in H; [|discriminate].
    apply bind_Ok in H as (v' & _ & H).
    assert (d3 = dict_set "kinematic_infeasibility" v' d2') as -> by congruence.
    rewrite lookup_dict_set.
    destruct (String.eqb_spec name "kinematic_infeasibility") as [->|_]; auto.
    simpl in N. destruct N as [N|[N|[N|[]]]]; discriminate.
  Qed.

  (** The kinematic metric: masked until the first simulated step. *)
  Lemma penv_metrics_kim reg (e : penv (S := XR) P X K) ps d0 d3 l k m r :
    run_metrics reg (ps_state ps) (pe_metrics e) = Ok d0 -> penv_metrics reg e ps = Ok d3 ->
    In "kinematic_infeasibility"%string (pe_metrics e) ->
    lookup "kinematic_infeasibility" d0 = Some (PerObject l) ->
    length l = length (s_meta (ps_state ps)) -> the_sdc (s_meta (ps_state ps)) k ->
    Forall (fun m => finite (mr_value m)) l -> nth_error l k = Some m -> mr_value m = Fin r ->
    lookup "kinematic_infeasibility" d3 =
      Some (Scalar0 (if (Z.of_nat (c_init_steps (pe_cfg e)) <=? s_t (ps_state ps))%Z
                     then m else mkmres (S := XR) (Fin 0) false)).
  Proof.
    intros H0 H N E L U HF Em Er. unfold penv_metrics in H. rewrite H0 in H. cbn [bind] in H.
    apply bind_Ok in H as (d1 & H1 & H). apply bind_Ok in H as (d2 & H2 & H).
    apply bind_Ok in H as (d2' & H3 & H).
    rewrite <- (select_entry_other _ _ _ _ _ H1) in E by discriminate.
    rewrite <- (select_entry_other _ _ _ _ _ H2) in E by discriminate.
    rewrite <- (select_entry_other _ _ _ _ _ H3) in E by discriminate.
    assert (Ex : existsb (String.eqb "kinematic_infeasibility") (pe_metrics e) = true).
    { apply existsb_exists. eexists; split; [exact N|apply String.eqb_refl]. }
    rewrite Ex, E in H. apply bind_Ok in H as (v' & Hv & H).
    assert (d3 = dict_set "kinematic_infeasibility" v' d2') as -> by congruence.
    rewrite lookup_dict_set, String.eqb_refl. f_equal.
    set (b := (_ <? _)%Z) in Hv.
    assert (Eb : (Z.of_nat (c_init_steps (pe_cfg e)) <=? s_t (ps_state ps))%Z = b).
    { unfold b. apply eq_true_iff_eq. rewrite Z.leb_le, Z.ltb_lt. lia. }
    rewrite Eb. cbn [mask_metric] in Hv.
    set (m1 := fun m => mkmres _ _) in Hv.
    assert (F1 : forall m', finite (mr_value m') -> m1 m' =
              if b then m' else mkmres (S := XR) (Fin 0) false).
    { intros [x y] [r' Hr']. cbn [mr_value] in Hr'. subst x. unfold m1, fbool. cbn [mr_value mr_valid].
      destruct b.
      - rewrite f1_Fin, fmul_Fin, Rmult_1_r, andb_true_r. reflexivity.
      - rewrite f0_Fin, fmul_Fin, Rmult_0_r, andb_false_r. reflexivity. }
    erewrite (select_metric_spec (map m1 l) _ k (m1 m)) in Hv.
    - rewrite F1 in Hv by (exists r; auto). congruence.
    - now rewrite map_length.
    - auto.
    - apply Forall_forall. intros m' Hm'. apply in_map_iff in Hm' as (m0 & <- & Hm0).
      rewrite Forall_forall in HF. rewrite (F1 m0 (HF m0 Hm0)).
      destruct b; [exact (HF m0 Hm0)|exists 0%R; reflexivity].
    - now rewrite nth_error_map, Em.
  Qed.

  (** The reward of the planning environment is the SDC's entry. *)
  Lemma penv_reward_spec reg (e : penv (S := XR) P X K) ps k
    (wt : string -> R) (val : string -> nat -> R) names :
    let s := ps_state ps in
    let n := length (s_meta s) in
    pe_compute_reward e = true -> c_controlled (pe_cfg e) = SDC ->
    pe_rewards e = map (fun name => (name, Fin (wt name))) names ->
    the_sdc (s_meta s) k ->
    (forall name, In name names -> exists m v, lookup name reg = Some m /\ m s = Ok v /\ shaped n v /\
       forall i, (i < n)%nat -> contributes v i (val name i)) ->
    penv_reward reg e ps = Ok (Fin (Rsum (map (fun name => wt name * val name k)%R names))).
  Proof.
    intros s n Cr Cc Ew U HN. unfold penv_reward. rewrite Cr, Cc, Ew. cbn [get_control_mask bind].
    fold s.
    destruct (linear_reward_spec n reg s (map m_is_sdc (s_meta s)) wt val names) as (r & Er & Lr & Nr);
      [now rewrite map_length|exact HN|].
    assert (Em : map fbool (map m_is_sdc (s_meta s)) = fmask (map m_is_sdc (s_meta s))).
    { unfold fmask. apply map_ext. intros []; [apply f1_Fin|apply f0_Fin]. }
    rewrite Em, Er. cbn [bind].
    destruct U as [(m & Hm & Sm) U0].
    apply select_onehot_Fin with k.
    - exact Lr.
    - split; eauto.
    - intros y Hy. apply In_nth_error in Hy as (i & Hi).
      assert (Hlt : (i < n)%nat) by (rewrite <- Lr; eapply nth_error_Some_lt; eauto).
      destruct (nth_error_lt_Some (map m_is_sdc (s_meta s)) i) as [b Eb]; [now rewrite map_length|].
      pose proof (Nr i b Eb) as Hr. eexists. apply Some_inj. etransitivity; [symmetry; exact Hi|exact Hr].
    - apply (Nr k true). now rewrite nth_error_map, Hm, <- Sm.
  Qed.

  Lemma penv_reward_off {S : Scalar} reg (e : penv (S := S) P X K) ps :
    pe_compute_reward e = false -> penv_reward reg e ps = Ok f0.
  Proof. intros H. unfold penv_reward. now rewrite H. Qed.
End PM.

(* ---------------- expert replay in the planning environment ---------------- *)

Section Replay.
  Context {P X K : Type}.
  Variable split : K -> nat -> nat -> K.
  Open Scope nat_scope.

  Lemma expert_total_state {S : Scalar} n T (s : state) (t : nat) :
    wf_state n T s -> s_t s = Z.of_nat t -> t + 1 < T ->
    exists acts, infer_expert_action StateDynamics s = Ok acts /\ length acts = n /\
      forall i p, i < n -> at2 (s_log s) i (t + 1) = Some p ->
        nth_error acts i = Some (mkact [p_x p; p_y p; p_yaw p; p_vx p; p_vy p] (p_valid p)).
  Proof.
    intros W Et Ht. destruct (expert_frames n T StateDynamics s t W Et Ht) as (comb & E & R & F).
    destruct (state_inverse_Ok n 2 comb (s_meta s) 0 R ltac:(lia)) as (acts & Ea & La & Na).
    exists acts. rewrite E. split; [exact Ea|]. split; auto.
    intros i p Hi Ep. apply Na; auto. destruct (F i Hi) as [_ F1]. simpl. now rewrite F1.
  Qed.

  Lemma planning_state_expert n T (s : state (S := XR)) (t k : nat) :
    wf_state n T s -> s_t s = Z.of_nat t -> t + 1 < T -> the_sdc (s_meta s) k ->
    (forall i p, at2 (s_log s) i (t + 1) = Some p -> kin_finite p) ->
    exists a q, planning_expert StateDynamics s = Ok a /\
      at2 (s_log s) k (t + 1) = Some q /\
      a = mkact [p_x q; p_y q; p_yaw q; p_vx q; p_vy q] (p_valid q).
  Proof.
    intros W Et Ht U HF.
    destruct (expert_total_state n T s t W Et Ht) as (acts & Ha & La & Na).
    assert (Hk : k < n).
    { destruct U as [(m & Hm & _) _]. destruct W as (_ & _ & <- & _).
      eapply nth_error_Some_lt; eauto. }
    destruct W as (R1 & R2 & Lm & Hn & HT).
    destruct (rect_at2 _ _ _ k (t + 1) R2 Hk Ht) as [q Eq].
    eexists _, q. split; [|split; [exact Eq|reflexivity]].
    apply planning_expert_spec with acts k; auto; try lia.
    - apply Forall_forall. intros b Hb. apply In_nth_error in Hb as (i & Hi).
      assert (Hin : i < n) by (rewrite <- La; eapply nth_error_Some_lt; eauto).
      destruct (rect_at2 _ _ _ i (t + 1) R2 Hin Ht) as [p Ep].
      rewrite (Na i p Hin Ep) in Hi. injection Hi as <-.
      destruct (HF i p Ep) as (A & B & C & D & E). split; [reflexivity|]. cbn [a_data].
      repeat constructor; auto.
  Qed.

  (** A planner that always plays the planning expert of a StateDynamics
      environment, with sim agents that never claim the SDC, replays the SDC's
      log. *)
  Lemma planning_expert_replay n T (e : penv (S := XR) P X K) s rng acts ps' (k j : nat) :
    length (pe_params e) = length (pe_agents e) -> pe_dyn e = StateDynamics ->
    wf_scenario n T s -> 1 <= c_init_steps (pe_cfg e) ->
    c_init_steps (pe_cfg e) + length acts <= T -> j < length acts ->
    run_planning split e s rng acts = Ok ps' ->
    the_sdc (s_meta s) k ->
    (forall i t p, c_init_steps (pe_cfg e) <= t -> at2 (s_log s) i t = Some p -> kin_finite p) ->
    (forall ag p st x key o, In ag (pe_agents e) -> ac_select ag p st x key = Ok o -> ~ claims o k) ->
    (forall m ps a key, run_planning split e s rng (firstn m acts) = Ok ps ->
       nth_error acts m = Some (a, key) -> planning_expert StateDynamics (ps_state ps) = Ok a) ->
    exists p l, at2 (s_sim (ps_state ps')) k (c_init_steps (pe_cfg e) + j) = Some p /\
      at2 (s_log s) k (c_init_steps (pe_cfg e) + j) = Some l /\ same_pose p l /\ p_ts p = p_ts l.
  Proof.
    intros Lp Ed W Hi Hl Hj H U HF Ncl Exp.
    destruct (planning_split split n T e s rng acts ps' j Lp W Hi Hl Hj H)
      as (ps1 & ps2 & a & key & R1 & Ea & St & _ & Fr & _).
    assert (Lf : length (firstn j acts) = j) by (apply firstn_length_le; lia).
    destruct (planning_basic split n T e s rng (firstn j acts) ps1 Lp W Hi) as (SC & W1 & E1 & _);
      auto; try lia.
    rewrite Lf in E1. set (h := c_init_steps (pe_cfg e)) in *.
    assert (Et : s_t (ps_state ps1) = Z.of_nat (h + j - 1)) by lia.
    pose proof SC as (SL & _ & SM & _).
    assert (U1 : the_sdc (s_meta (ps_state ps1)) k) by now rewrite SM.
    destruct (planning_state_expert n T (ps_state ps1) (h + j - 1) k W1 Et ltac:(lia) U1)
      as (a' & q & Ha' & Eq & Va).
    { intros i p Ep. rewrite SL in Ep. apply (HF i (h + j - 1 + 1) p); auto. lia. }
    rewrite (Exp j ps1 a key R1 Ea) in Ha'. injection Ha' as ->.
    destruct (planning_step split n T e ps1 _ key ps2 (h + j - 1) Lp W1 Et ltac:(lia) St)
      as (_ & _ & _ & _ & outs & cur & us & AO & _ & Lc & Lu & Hc & Hu & Sp).
    replace (h + j - 1 + 1) with (h + j) in * by lia.
    assert (Hk : k < n).
    { destruct U as [(m & Hm & _) _]. destruct W as (_ & <- & _). eapply nth_error_Some_lt; eauto. }
    destruct (Sp k Hk) as (p & c & l & Ep & Ec & El & _ & Sd & _ & _ & _ & _ & _ & _ & _ & Ts).
    destruct Sd as (u & Eu & Pu).
    { intros [(o & Ho & Co) _]. apply In_nth_error in Ho as (m & Hm).
      destruct AO as [Lo AO]. destruct (nth_error_lt_Some (pe_agents e) m) as [ag Eag].
      { rewrite <- Lo. eapply nth_error_Some_lt; eauto. }
      destruct (AO m ag Eag) as (x & pp & o' & _ & _ & Eo & Sel).
      rewrite Hm in Eo. injection Eo as <-.
      exact (Ncl ag pp _ x _ o (nth_error_In _ _ Eag) Sel Co). }
    { destruct U1 as [U1 _]. exact U1. }
    exists p, l. rewrite Fr by lia. split; auto. rewrite SL in El. split; auto. split; [|exact Ts].
    rewrite SL in Eq. assert (q = l) as -> by congruence.
    rewrite Ed in Hu. destruct (per_object_Ok _ _ _ _ Hu) as (_ & _ & PO).
    destruct (nth_error_lt_Some cur k) as [c' Ec']; [lia|].
    destruct (PO k a' c') as (u' & Eu' & Nu'); [| exact Ec' |].
    { rewrite Va. apply nth_error_repeat. exact Hk. }
    assert (u' = u) as -> by congruence.
    unfold state_update in Eu'. rewrite Va in Eu'. cbn [a_data a_valid] in Eu'.
    assert (u = mkupd (p_x l) (p_y l) (p_yaw l) (p_vx l) (p_vy l) (p_valid l)) as -> by congruence.
    exact Pu.
  Qed.
End Replay.
