(** Batched rewards (C60). *)
From Coq Require Import String.
From Coq Require Import List ZArith Bool Lia.
From Verif.Lib Require Import Base JaxIndex Scalar.
From Verif.Model Require Import Operations State Dynamics BaseEnv Geometry Discretizer
  Comfort Metrics Batch BatchMetrics.
From Verif.Spec Require Import StateSpec BatchSpec.
From Verif.Proofs Require Import Core P_Batch P_BatchMetrics P_BatchSdc P_Discretizer P_Reward.
Import ListNotations.
Local Open Scope nat_scope.

Section Reward.
  Context {S : Scalar}.

  Definition object_result (B : list nat) (n : nat) (s : bstate)
    (f : bstate -> res (arr mres)) (g : state -> res mval) : Prop :=
    exists m, f s = Ok m /\ dims m = B ++ [n] /\
      forall b, inside B b -> g (scenario s b) = Ok (PerObject (vector m b)).

  Definition named_object B n s (breg : b_registry) (reg : registry) (name : string) : Prop :=
    exists f g, lookup name breg = Some f /\ lookup name reg = Some g /\ object_result B n s f g.

  Definition at_index (b : list nat) (l : list (string * arr mres)) : list (string * mval) :=
    map (fun p => (fst p, PerObject (vector (snd p) b))) l.

  Lemma at_index_set b name v l :
    at_index b (dict_set name v l) = dict_set name (PerObject (vector v b)) (at_index b l).
  Proof.
    induction l as [|[m a] l IH]; [reflexivity|]. cbn [dict_set at_index map fst snd].
    destruct (String.eqb name m); cbn [map fst snd]; [reflexivity|]. f_equal. exact IH.
  Qed.
  Lemma at_index_lookup b name l :
    lookup name (at_index b l) = option_map (fun v => PerObject (vector v b)) (lookup name l).
  Proof.
    induction l as [|[m a] l IH]; [reflexivity|]. cbn [lookup at_index map fst snd].
    destruct (String.eqb name m); [reflexivity|]. exact IH.
  Qed.

  Lemma b_run_metrics_eq B n s breg reg names :
    Forall (named_object B n s breg reg) names ->
    exists all, b_run_metrics breg s names = Ok all /\
      (forall name v, lookup name all = Some v -> dims v = B ++ [n]) /\
      (forall name, In name names -> exists v, lookup name all = Some v) /\
      forall b, inside B b -> run_metrics reg (scenario s b) names = Ok (at_index b all).
  Proof.
    unfold b_run_metrics, run_metrics. intros H.
    assert (G : forall acc, (forall name v, lookup name acc = Some v -> dims v = B ++ [n]) ->
      exists all,
        fold_left (fun acc name => let* results := acc in
          match lookup name breg with
          | Some m => let* v := m s in Ok (dict_set name v results)
          | None => Err ValueError end) names (Ok acc) = Ok all /\
        (forall name v, lookup name all = Some v -> dims v = B ++ [n]) /\
        (forall name, In name names \/ (exists v, lookup name acc = Some v) -> exists v, lookup name all = Some v) /\
        forall b, inside B b ->
          fold_left (fun acc name => let* results := acc in
            match lookup name reg with
            | Some m => let* v := m (scenario s b) in Ok (dict_set name v results)
            | None => Err ValueError end) names (Ok (at_index b acc)) = Ok (at_index b all)).
    { induction H as [|name names (f & g & Lf & Lg & m & Hf & Dm & Hg) H IH]; intros acc Ha.
      - exists acc. cbn [fold_left]. split; [reflexivity|]. split; [exact Ha|]. split; [|reflexivity].
        intros name [[]|X]; exact X.
      - cbn [fold_left]. rewrite Lf, Lg. cbn [bind]. rewrite Hf. cbn [bind].
        destruct (IH (dict_set name m acc)) as (all & H1 & H2 & H3 & H4).
        { intros name' v. rewrite lookup_dict_set. destruct (String.eqb name' name); [|apply Ha].
          intros E. injection E as <-. exact Dm. }
        exists all. split; [exact H1|]. split; [exact H2|]. split.
        + intros name' [[E|X]|X].
          * subst name'. apply H3. right. exists m. rewrite lookup_dict_set, String.eqb_refl. reflexivity.
          * apply H3. now left.
          * apply H3. right. rewrite lookup_dict_set. destruct (String.eqb name' name); eauto.
        + intros b I. rewrite Hg by auto. cbn [bind]. rewrite <- at_index_set. apply H4, I. }
    destruct (G [] ltac:(discriminate)) as (all & H1 & H2 & H3 & H4).
    exists all. split; [exact H1|]. split; [exact H2|]. split; [|exact H4]. intros name X. apply H3. now left.
  Qed.

  Lemma b_reward_eq B n s breg reg rewards mask :
    Forall (named_object B n s breg reg) (map fst rewards) -> dims mask = B ++ [n] ->
    exists r, b_linear_reward breg rewards s mask = Ok r /\ dims r = B ++ [n] /\
      forall b, inside B b ->
        linear_reward reg rewards (scenario s b) (vector mask b) = Ok (vector r b).
  Proof.
    intros H Dm. destruct (b_run_metrics_eq B n s breg reg _ H) as (all & H1 & H2 & H3 & H4).
    unfold b_linear_reward, linear_reward. rewrite H1. cbn [bind].
    assert (G : forall rs acc, (forall r, In r rs -> exists v, lookup (fst r) all = Some v) ->
      dims acc = B ++ [n] ->
      exists r,
        fold_left (fun acc r => let* reward := acc in
          match lookup (fst r) all with
          | None => Err KeyError
          | Some v => let* metric := amap2 fmul (amap masked_value v) mask in
                      amap2 fadd reward (amap (fun m => fmul m (snd r)) metric)
          end) rs (Ok acc) = Ok r /\ dims r = B ++ [n] /\
        forall b, inside B b ->
          fold_left (fun acc r => let* reward := acc in
            match lookup (fst r) (at_index b all) with
            | None => Err KeyError
            | Some v => let* metric := metric_times_mask v (vector mask b) in
                        bcast2 fadd reward (map (fun m => fmul m (snd r)) metric)
            end) rs (Ok (vector acc b)) = Ok (vector r b)).
    { induction rs as [|r rs IH]; intros acc Hl Da.
      - exists acc. cbn [fold_left]. auto.
      - cbn [fold_left]. destruct (Hl r (or_introl eq_refl)) as [v Lv]. rewrite Lv. cbn [bind].
        pose proof (H2 _ _ Lv) as Dv.
        destruct (amap2_same fmul (amap masked_value v) mask B [n] Dv Dm) as (me & G1 & D1 & _).
        rewrite G1. cbn [bind].
        set (me' := amap (fun m => fmul m (snd r)) me).
        assert (D1' : dims me' = B ++ [n]) by exact D1.
        destruct (amap2_same fadd acc me' B [n] Da D1') as (acc' & G2 & D2 & _).
        rewrite G2. destruct (IH acc' (fun q Hq => Hl q (or_intror Hq)) D2) as (rr & G3 & D3 & G4).
        exists rr. split; [exact G3|]. split; [exact D3|]. intros b I.
        rewrite at_index_lookup, Lv. cbn [option_map bind metric_times_mask].
        rewrite bcast2_eq by now rewrite (vector_length v B n b Dv I), (vector_length mask B n b Dm I).
        cbn [bind].
        assert (E1 : map2 (fun m a => fmul (masked_value m) a) (vector v b) (vector mask b) = vector me b).
        { rewrite (vector_amap2 fmul (amap masked_value v) mask me B n b Dv Dm G1 I), vector_amap.
          generalize (vector v b) (vector mask b). clear. induction l as [|x l IH]; intros [|y m]; simpl; congruence. }
        rewrite E1, <- vector_amap. fold me'.
        rewrite bcast2_eq by now rewrite (vector_length acc B n b Da I), (vector_length me' B n b D1' I).
        rewrite <- (vector_amap2 fadd acc me' acc' B n b Da D1' G2 I). apply G4, I. }
    destruct (G rewards (amap (fun _ => f0) mask)) as (r & G1 & D1 & G2).
    { intros r Hr. apply H3, in_map, Hr. } { exact Dm. }
    exists r. split; [exact G1|]. split; [exact D1|]. intros b I.
    rewrite H4 by auto. cbn [bind]. rewrite <- G2 by auto. now rewrite vector_amap.
  Qed.

  (** One SDC metric. *)
  Lemma b_reward_single breg s name w f (m : arr mres) mask :
    lookup name breg = Some f -> f s = Ok m ->
    b_linear_reward breg [(name, w)] s mask
    = let* metric := amap2 fmul (amap masked_value m) mask in
      amap2 fadd (amap (fun _ => f0) mask) (amap (fun x => fmul x w) metric).
  Proof.
    intros L H. unfold b_linear_reward, b_run_metrics. cbn [map fst fold_left bind].
    rewrite L, H. cbn [bind dict_set lookup]. rewrite String.eqb_refl. reflexivity.
  Qed.

  Lemma bdims_k_kn k n : k <> 1 -> n <> 1 -> k <> n -> bdims [k] [k; n] = None.
  Proof.
    intros H1 H2 H3. unfold bdims. cbn [rev app bdims_rev].
    rewrite (proj2 (Nat.eqb_neq _ _) H1), (proj2 (Nat.eqb_neq _ _) H2), (proj2 (Nat.eqb_neq _ _) H3). reflexivity.
  Qed.

  Lemma amap2_k_kn {A A' C} (op : A -> A' -> C) x y k n :
    dims x = [k] -> dims y = [k; n] -> k <> 1 -> n <> 1 -> k <> n -> amap2 op x y = Err TypeError.
  Proof. intros Dx Dy H1 H2 H3. unfold amap2. now rewrite Dx, Dy, bdims_k_kn. Qed.

  Lemma amap2_n_nn {A A' C} (op : A -> A' -> C) x y n :
    dims x = [n] -> dims y = [n; n] ->
    exists z, amap2 op x y = Ok z /\ dims z = [n; n] /\
      forall i j, i < n -> j < n -> cell z [i; j] = op (cell x [j]) (cell y [i; j]).
  Proof.
    intros Dx Dy. unfold amap2. rewrite Dx, Dy. unfold bdims. cbn [rev app bdims_rev]. rewrite Nat.eqb_refl.
    cbn [option_map rev app].
    eexists. split; [reflexivity|]. cbn [dims cell]. split; [reflexivity|]. intros i j Hi Hj.
    unfold bidx. cbn [length Nat.sub skipn map2]. f_equal; [f_equal|f_equal].
    - destruct (Nat.eqb_spec n 1); [|reflexivity]. f_equal. lia.
    - destruct (Nat.eqb_spec n 1); [|reflexivity]. f_equal; [lia|]. f_equal. lia.
  Qed.

  Lemma amap2_k_k1 {A A' C} (op : A -> A' -> C) x y k :
    dims x = [k] -> dims y = [k; 1] ->
    exists z, amap2 op x y = Ok z /\ dims z = [k; k].
  Proof.
    intros Dx Dy. unfold amap2. rewrite Dx, Dy. unfold bdims. cbn [rev app bdims_rev Nat.eqb].
    destruct (Nat.eqb_spec k 1) as [->|N]; cbn; eexists; split; reflexivity.
  Qed.
  Lemma amap2_k1_kk {A A' C} (op : A -> A' -> C) x y k :
    dims x = [k; 1] -> dims y = [k; k] ->
    exists z, amap2 op x y = Ok z /\ dims z = [k; k].
  Proof.
    intros Dx Dy. unfold amap2. rewrite Dx, Dy. unfold bdims. cbn [rev app bdims_rev].
    rewrite Nat.eqb_refl. destruct k as [|[|k]]; cbn; eexists; split; reflexivity.
  Qed.

  Lemma amap2_one {A A' C} (op : A -> A' -> C) x y B n :
    B = [] \/ B = [1] -> dims x = B -> dims y = B ++ [n] ->
    exists z, amap2 op x y = Ok z /\ dims z = B ++ [n] /\
      forall b j, inside B b -> j < n -> cell z (b ++ [j]) = op (cell x b) (cell y (b ++ [j])).
  Proof.
    intros HB Dx Dy. unfold amap2. rewrite Dx, Dy. destruct HB as [->| ->].
    - unfold bdims. cbn [rev app bdims_rev option_map]. eexists. split; [reflexivity|].
      split; [reflexivity|]. intros b j I Hj. inversion I; subst. cbn [app cell].
      change (bidx [] [j]) with (@nil nat). now rewrite (bidx_self [n] [j]) by now apply inside1.
    - assert (E : bdims [1] ([1] ++ [n]) = Some [1; n]) by (unfold bdims; cbn; destruct n as [|[|n]]; reflexivity).
      rewrite E. eexists. split; [reflexivity|]. split; [reflexivity|]. intros b j I Hj.
      inversion I as [|? i ? l Hi I' ]; subst. inversion I'; subst. cbn [app cell].
      assert (i = 0) by lia. subst i.
      rewrite (bidx_self [1; n] [0; j]) by (apply inside2; split; [lia|exact Hj]). reflexivity.
  Qed.
End Reward.
