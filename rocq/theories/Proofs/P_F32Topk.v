(** Proofs for C81: the top-k map filter in float32. *)
From Coq Require Import List ZArith Reals Lra Lia Bool Permutation Sorting.Sorted.
From Flocq Require Import Core.Raux IEEE754.BinarySingleNaN.
From Verif.Lib Require Import Base JaxIndex Scalar F32.
From Verif.Model Require Import Operations State Geometry Metrics Roadgraph.
From Verif.Spec Require Import StateSpec GeomSpec MetricSpec ObsSpec F32Spec F32ObsSpec.
From Verif.Proofs Require Import Core P_Metrics P_Roadgraph P_Waypoint P_F32 P_F32Route.
Import ListNotations.
Open Scope nat_scope.

Section Sort.
  Context {S : Scalar}.
  Variable ok : F -> Prop.
  Hypothesis Hir : forall x, ok x -> fltb x x = false.
  Hypothesis Htr : forall x y z, ok x -> ok y -> ok z -> fltb x y = true -> fltb y z = true -> fltb x z = true.
  Hypothesis Hle : forall x y z, ok x -> ok y -> ok z -> fltb x y = false -> fltb y z = false -> fltb x z = false.

  Definition befS (a b : F * nat) : Prop :=
    fltb (fst a) (fst b) = false /\ (fltb (fst b) (fst a) = true \/ snd a < snd b).

  Lemma insert_permS (x : F * nat) (l : list (F * nat)) : Permutation (x :: l) (topk_insert x l).
  Proof.
    induction l as [|y l IH]; cbn [topk_insert]; [apply Permutation_refl|].
    destruct (fltb (fst x) (fst y)); [|apply Permutation_refl].
    eapply perm_trans; [apply perm_swap|]. apply perm_skip. exact IH.
  Qed.

  Lemma insert_sortedS (x : F * nat) (l : list (F * nat)) : ok (fst x) -> Forall (fun y => ok (fst y) /\ snd x < snd y) l ->
    StronglySorted befS l -> StronglySorted befS (topk_insert x l).
  Proof.
    intros Ox. induction l as [|y l IH]; intros Hl Hs; cbn [topk_insert].
    - constructor; constructor.
    - inversion Hl as [|? ? [Oy Iy] Hl']; subst. inversion Hs as [|? ? Hs' Hy]; subst.
      destruct (fltb (fst x) (fst y)) eqn:E.
      + constructor; [apply IH; auto|].
        eapply Permutation_Forall; [apply insert_permS|]. constructor; auto.
        split; [|left; auto]. destruct (fltb (fst y) (fst x)) eqn:E2; auto.
        rewrite <- (Hir (fst x) Ox). symmetry. exact (Htr _ _ _ Ox Oy Ox E E2).
      + constructor; auto. constructor; [split; auto|].
        rewrite Forall_forall in *. intros z Hz. destruct (Hl' z Hz) as [Oz Iz].
        destruct (Hy z Hz) as [A _]. split; [apply (Hle _ (fst y)); auto | right; auto].
  Qed.

  Lemma sort_sortedS (l : list (F * nat)) : Forall (fun y => ok (fst y)) l ->
    StronglySorted (fun a b => snd a < snd b) l ->
    Permutation l (fold_right topk_insert [] l) /\ StronglySorted befS (fold_right topk_insert [] l).
  Proof.
    induction l as [|x l IH]; intros Ho Hs; cbn [fold_right]; [split; constructor|].
    inversion Ho; subst. inversion Hs; subst. destruct IH as [P Q]; auto. split.
    - eapply perm_trans; [|apply insert_permS]. constructor; auto.
    - apply insert_sortedS; auto. eapply Permutation_Forall; [exact P|].
      rewrite Forall_forall in *. auto.
  Qed.

  Lemma top_k_specS (keys : list F) k idx : Forall ok keys -> top_k keys k = Ok idx ->
    exists all, length all = length keys /\ NoDup all /\ idx = firstn k all /\ k <= length keys /\
      (forall i, In i all <-> i < length keys) /\
      forall a b i j x y, a < b -> nth_error all a = Some i -> nth_error all b = Some j ->
        nth_error keys i = Some x -> nth_error keys j = Some y ->
        fltb x y = false /\ (fltb y x = true \/ i < j).
  Proof.
    intros Ho H. unfold top_k in H. apply bind_Ok in H as (u & Hg & H). apply guard_Ok in Hg.
    apply Nat.leb_le in Hg. apply Ok_inj in H.
    set (prs := mapi (fun i v => (v, i)) keys) in *.
    assert (Nth : forall i x, In (x, i) prs <-> nth_error keys i = Some x).
    { intros i x. split.
      - intros Hin. apply In_nth_error in Hin as [j Hj]. unfold prs in Hj. rewrite nth_error_mapi in Hj.
        destruct (nth_error keys j) eqn:E; [|discriminate]. injection Hj as <- <-. auto.
      - intros E. apply (nth_error_In _ i). unfold prs. rewrite nth_error_mapi, E. reflexivity. }
    destruct (sort_sortedS prs) as [P Q].
    { apply Forall_forall. intros [x i] Hin. apply Nth in Hin. rewrite Forall_forall in Ho. apply Ho.
      eapply nth_error_In; eauto. }
    { apply indexed_sorted. }
    set (srt := fold_right _ _ _) in *.
    assert (Snd : map snd prs = seq 0 (length keys)).
    { apply nth_error_ext_eq. intros i. unfold prs. rewrite nth_error_map, nth_error_mapi.
      destruct (nth_error keys i) eqn:E; cbn [option_map snd].
      - symmetry. apply nth_error_Some_lt in E. rewrite (nth_error_nth' _ 0) by (rewrite seq_length; auto).
        rewrite seq_nth by auto. reflexivity.
      - symmetry. apply nth_error_None. rewrite seq_length. apply nth_error_None; auto. }
    exists (map snd srt).
    assert (PS : Permutation (seq 0 (length keys)) (map snd srt)) by (rewrite <- Snd; apply Permutation_map; auto).
    split; [rewrite <- (Permutation_length PS), seq_length; auto|].
    split; [eapply Permutation_NoDup; [exact PS | apply seq_NoDup]|].
    split; [rewrite <- H, firstn_map; reflexivity|]. split; auto. split.
    - intros i. split; intros Hi.
      + eapply Permutation_in in Hi; [|symmetry; exact PS]. apply in_seq in Hi. lia.
      + eapply Permutation_in; [exact PS|]. apply in_seq. lia.
    - intros a b i j x y Hab Ha Hb Hx Hy.
      rewrite nth_error_map in Ha, Hb.
      destruct (nth_error srt a) as [[x' i']|] eqn:Ea; [|discriminate].
      destruct (nth_error srt b) as [[y' j']|] eqn:Eb; [|discriminate].
      cbn [option_map snd] in Ha, Hb. injection Ha as ->. injection Hb as ->.
      pose proof (StronglySorted_nth _ _ Q a b _ _ Hab Ea Eb) as B.
      assert (E1 : nth_error keys i = Some x').
      { apply Nth. eapply Permutation_in; [symmetry; exact P|]. eapply nth_error_In; eauto. }
      assert (E2 : nth_error keys j = Some y').
      { apply Nth. eapply Permutation_in; [symmetry; exact P|]. eapply nth_error_In; eauto. }
      rewrite E1 in Hx. rewrite E2 in Hy. injection Hx as ->. injection Hy as ->. exact B.
  Qed.
End Sort.

Open Scope R_scope.

(** Keys: minus infinity or a finite number. *)
Definition key32 (x : f32) (v : option R) : Prop :=
  match v with None => x = B754_infinity true | Some r => fin x r end.
Definition kltb (a b : option R) : bool :=
  match a, b with _, None => false | None, Some _ => true | Some r, Some q => Rlt_bool r q end.
Lemma key_lt x y a b : key32 x a -> key32 y b -> Bltb x y = kltb a b.
Proof.
  destruct a as [a|], b as [b|]; cbn [key32 kltb]; intros X Y.
  - exact (ltb_fin _ _ _ _ X Y).
  - rewrite Y. destruct X as [X _]. destruct x as [s|s| |s m e H]; try discriminate; reflexivity.
  - rewrite X. destruct Y as [Y _]. destruct y as [s|s| |s m e H]; try discriminate; reflexivity.
  - rewrite X, Y. reflexivity.
Qed.
Lemma kltb_irr a : kltb a a = false.
Proof. destruct a; cbn; [apply Rlt_bool_false; lra | reflexivity]. Qed.
Lemma kltb_tr a b c : kltb a b = true -> kltb b c = true -> kltb a c = true.
Proof.
  destruct a, b, c; cbn; try congruence; intros H1 H2.
  revert H1 H2. destruct (Rlt_bool_spec r r0), (Rlt_bool_spec r0 r1); try discriminate. intros _ _. apply Rlt_bool_true. lra.
Qed.
Lemma kltb_le a b c : kltb a b = false -> kltb b c = false -> kltb a c = false.
Proof.
  destruct a, b, c; cbn; try congruence; intros H1 H2.
  revert H1 H2. destruct (Rlt_bool_spec r r0), (Rlt_bool_spec r0 r1); try discriminate. intros _ _. apply Rlt_bool_false. lra.
Qed.

Section Topk.
  Variable lm : libm.
  Notation S32 := (F32 lm).

  Lemma filter_topk32 P (rg : list (rgpt (S := S32))) pos (rx ry : f32) ref k out :
    1 <= P <= 2 ^ 45 -> map32 P rg pos -> at32 P rx ry ref -> (k < length rg)%nat ->
    filter_topk_roadgraph_points (S := S32) rg (rx, ry) k = Ok out ->
    length out = k /\
    exists keep : list nat, length keep = k /\ NoDup keep /\
      (forall a i, nth_error keep a = Some i ->
         exists p q, nth_error rg i = Some p /\ nth_error out a = Some q /\ same_sample32 p q) /\
      (forall a b i j, (a < b)%nat -> nth_error keep a = Some i -> nth_error keep b = Some j ->
         ranks_before32 (P / 2 ^ 17) rg pos ref i j) /\
      (forall i j, In i keep -> (j < length rg)%nat -> ~ In j keep -> ranks_before32 (P / 2 ^ 17) rg pos ref i j).
  Proof.
    intros HP Hr (Frx & Fry & Brx & Bry) Hk H. unfold filter_topk_roadgraph_points in H. cbv zeta in H.
    destruct (Nat.ltb_spec (length rg) k); [lia|]. destruct (Nat.ltb_spec k (length rg)); [|lia].
    apply bind_Ok in H as (idx & Hi & H). apply bind_Ok in H as (kept & Hkp & H). apply Ok_inj in H.
    match type of Hi with top_k ?ks _ = _ => set (keys := ks) in * end.
    assert (Keys : forall i p, nth_error rg i = Some p -> exists x, nth_error keys i = Some x /\
              if rg_valid p then exists r, key32 x (Some (- r)) /\ Rabs (r - dist ref (pos i)) <= 60 * (P / 16777216)
              else key32 x None).
    { intros i p E. unfold keys. rewrite nth_error_map, nth_error_map2, nth_error_map, E. cbn [option_map].
      destruct (rg_valid p) eqn:V; (eexists; split; [reflexivity|]); [|vm_compute; reflexivity].
      destruct (Hr i p E V) as (Fx & Fy & Bx & By).
      destruct (way_dist32 lm P HP (rg_x p) (rg_y p) rx ry _ _ _ _ Fx Fy Frx Fry ltac:(lra) ltac:(lra) Brx Bry) as (r & Fr & Er).
      exists r. split; [exact (opp_fin _ _ Fr)|].
      rewrite (P_Waypoint.dist_sym ref (pos i)). rewrite <- !surjective_pairing in Er. exact Er. }
    assert (Lk : length keys = length rg).
    { unfold keys. rewrite map_length, map2_length, map_length. lia. }
    destruct (top_k_specS (S := S32) (fun x => exists v, key32 x v)) with (keys := keys) (k := k) (idx := idx)
      as (all & La & Nd & Eidx & _ & In_all & Ord).
    { intros x (a & Ka). change (Bltb x x = false). rewrite (key_lt _ _ _ _ Ka Ka). apply kltb_irr. }
    { intros x y z (a & Ka) (b & Kb) (c & Kc). change (Bltb x y = true -> Bltb y z = true -> Bltb x z = true).
      rewrite (key_lt _ _ _ _ Ka Kb), (key_lt _ _ _ _ Kb Kc), (key_lt _ _ _ _ Ka Kc). apply kltb_tr. }
    { intros x y z (a & Ka) (b & Kb) (c & Kc). change (Bltb x y = false -> Bltb y z = false -> Bltb x z = false).
      rewrite (key_lt _ _ _ _ Ka Kb), (key_lt _ _ _ _ Kb Kc), (key_lt _ _ _ _ Ka Kc). apply kltb_le. }
    { apply Forall_forall. intros x Hx. apply In_nth_error in Hx as [i Hx].
      assert (Li : (i < length rg)%nat) by (rewrite <- Lk; eapply nth_error_Some_lt; eauto).
      destruct (nth_error_lt_Some rg i Li) as [p Ep]. destruct (Keys i p Ep) as (x' & Ex & K).
      assert (x' = x) by congruence. subst x'. destruct (rg_valid p); [destruct K as (r & K & _); eexists; exact K | eexists; exact K]. }
    { exact Hi. }
    subst idx.
    assert (Lkeep : length (firstn k all) = k) by (rewrite firstn_length, La, Lk; lia).
    assert (Rank : forall a b i j, (a < b)%nat -> nth_error all a = Some i -> nth_error all b = Some j ->
              ranks_before32 (P / 2 ^ 17) rg pos ref i j).
    { intros a b i j Hab Ha Hb.
      assert (Hi' : (i < length rg)%nat) by (rewrite <- Lk; apply In_all; eapply nth_error_In; eauto).
      assert (Hj' : (j < length rg)%nat) by (rewrite <- Lk; apply In_all; eapply nth_error_In; eauto).
      destruct (nth_error_lt_Some rg i Hi') as [p Ep]. destruct (nth_error_lt_Some rg j Hj') as [q Eq].
      exists p, q. split; [exact Ep|]. split; [exact Eq|].
      destruct (Keys i p Ep) as (x & Ex & Kx). destruct (Keys j q Eq) as (y & Ey & Ky).
      destruct (Ord a b i j x y Hab Ha Hb Ex Ey) as [O1 O2].
      change (Bltb x y = false) in O1. change (Bltb y x = true \/ (i < j)%nat) in O2.
      destruct (rg_valid p), (rg_valid q).
      - right; left. split; [reflexivity|]. split; [reflexivity|].
        destruct Kx as (r & Kx & Er). destruct Ky as (w & Ky & Ew). rewrite (key_lt _ _ _ _ Kx Ky) in O1. cbn [kltb] in O1.
        destruct (Rlt_bool_spec (- r) (- w)); [discriminate|].
        apply Rabs_le_inv in Er, Ew. simpl. lra.
      - left; auto.
      - destruct Ky as (w & Ky & Ew). rewrite (key_lt _ _ _ _ Kx Ky) in O1. discriminate.
      - right; right. split; [reflexivity|]. split; [reflexivity|]. rewrite (key_lt _ _ _ _ Ky Kx) in O2.
        destruct O2; [discriminate | assumption]. }
    split.
    { rewrite <- H, map_length. apply mapM_length in Hkp. congruence. }
    exists (firstn k all). split; [exact Lkeep|].
    split; [apply NoDup_firstn; auto|].
    assert (NF : forall a i, nth_error (firstn k all) a = Some i -> nth_error all a = Some i /\ (a < k)%nat).
    { intros a i Ha. assert (a < k)%nat by (apply nth_error_Some_lt in Ha; lia). split; auto.
      rewrite <- Ha. symmetry. apply nth_error_firstn_lt; auto. }
    split; [|split].
    - intros a i Ha. destruct (mapM_nth _ _ _ a i Hkp Ha) as (p & Ep & Np).
      destruct (nth_error rg i) as [p'|] eqn:E; [|discriminate]. apply Ok_inj in Ep. subst p'.
      exists p, (restacked p). split; [reflexivity|]. split; [rewrite <- H, nth_error_map, Np; reflexivity|].
      unfold same_sample32, restacked; cbn [rg_x rg_y rg_z rg_dx rg_dy rg_dz rg_valid rg_type rg_id].
      do 7 (split; [reflexivity|]). split; apply float32_nearest.
    - intros a b i j Hab Ha Hb. apply NF in Ha, Hb. apply (Rank a b); tauto.
    - intros i j Hin Hj Hnot. apply In_nth_error in Hin as [a Ha]. apply NF in Ha.
      assert (Hja : In j all) by (apply In_all; lia). apply In_nth_error in Hja as [b Hb].
      apply (Rank a b); try tauto. destruct (Nat.lt_ge_cases a b); auto. exfalso. apply Hnot.
      apply (nth_error_In _ b). rewrite <- Hb. apply nth_error_firstn_lt. lia.
  Qed.
End Topk.
