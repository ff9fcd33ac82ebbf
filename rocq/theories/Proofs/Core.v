(** Characterisation of the array operations on whole trajectories. *)
From Coq Require Import List ZArith Lia Bool.
From Verif.Lib Require Import Base JaxIndex Scalar.
From Verif.Model Require Import Operations State Dynamics BaseEnv.
From Verif.Spec Require Import StateSpec.
Import ListNotations.

Section Rows.
  Context {A : Type}.
  Implicit Types m u : list (list A).

  Lemma dynamic_index_Ok n T m k c :
    rect n T m -> dynamic_index m k = Ok c ->
    length c = n /\
    (forall i, i < n -> nth_error c i = at2 m i (norm_start k T 1)).
  Proof.
    intros R H. unfold dynamic_index in H.
    pose proof (mapM_length _ _ _ H) as L. destruct R as [R1 R2].
    split; [congruence|]. intros i Hi.
    destruct (nth_error_lt_Some m i) as [r Hr]; [lia|].
    destruct (mapM_nth _ _ _ _ _ H Hr) as (b & Hb & Hn).
    apply dyn_index_Ok in Hb as [_ Hb]. unfold at2. rewrite Hr, Hn.
    rewrite (R2 r) in Hb by (eapply nth_error_In; eauto). auto.
  Qed.

  Lemma dynamic_index_total n T m k :
    rect n T m -> 0 < T -> exists c, dynamic_index m k = Ok c.
  Proof.
    intros R H. apply mapM_total. intros r Hr. apply dyn_index_total.
    destruct R as [_ R]. rewrite (R r Hr). auto.
  Qed.

  Lemma dynamic_slice_Ok n T m k size s :
    rect n T m -> dynamic_slice m k size = Ok s ->
    rect n size s /\
    (forall i t, i < n -> t < size ->
       at2 s i t = at2 m i (norm_start k T size + t)).
  Proof.
    intros R H. unfold dynamic_slice in H.
    pose proof (mapM_length _ _ _ H) as L. destruct R as [R1 R2].
    split.
    - split; [congruence|]. intros r Hr. apply In_nth_error in Hr as [i Hi].
      destruct (nth_error_lt_Some m i) as [r0 Hr0].
      { apply nth_error_Some_lt in Hi; lia. }
      destruct (mapM_nth _ _ _ _ _ H Hr0) as (b & Hb & Hn).
      apply dyn_slice_Ok in Hb as (_ & Hb & _). congruence.
    - intros i t Hi Ht.
      destruct (nth_error_lt_Some m i) as [r Hr]; [lia|].
      destruct (mapM_nth _ _ _ _ _ H Hr) as (b & Hb & Hn).
      apply dyn_slice_Ok in Hb as (_ & _ & Hb). unfold at2. rewrite Hr, Hn.
      rewrite (R2 r) in Hb by (eapply nth_error_In; eauto). auto.
  Qed.

  Lemma dynamic_slice_total n T m k size :
    rect n T m -> size <= T -> exists s, dynamic_slice m k size = Ok s.
  Proof.
    intros R H. apply mapM_total. intros r Hr. apply dyn_slice_total.
    destruct R as [_ R]. rewrite (R r Hr). auto.
  Qed.

  Lemma update_rows_Ok sz ki ku m u r :
    update_rows sz ki ku m u = Ok r ->
    length r = length m /\ length u <= length m /\
    (forall i row, nth_error m i = Some row ->
       match nth_error u i with
       | Some ur => exists row', update_row sz ki ku row ur = Ok row' /\
                                 nth_error r i = Some row'
       | None => nth_error r i = Some row
       end).
  Proof.
    revert u r; induction m as [|row m IH]; intros [|ur u] r H; simpl in H.
    - inversion H; subst; simpl. repeat split; auto. intros [|i] row; discriminate.
    - discriminate.
    - inversion H; subst; simpl. repeat split; auto; try lia.
      intros i row' Hr. destruct (nth_error [] i) eqn:E; auto.
      destruct i; discriminate.
    - apply bind_Ok in H as (row' & H1 & H). apply bind_Ok in H as (rs' & H2 & H).
      inversion H; subst; clear H. destruct (IH _ _ H2) as (L1 & L2 & L3).
      simpl. repeat split; try lia. intros [|i] row0 Hr; simpl in *.
      + inversion Hr; subst. eauto.
      + apply L3; auto.
  Qed.

  Lemma update_rows_total sz ki ku m u :
    length u <= length m ->
    (forall i row ur, nth_error m i = Some row -> nth_error u i = Some ur ->
       exists row', update_row sz ki ku row ur = Ok row') ->
    exists r, update_rows sz ki ku m u = Ok r.
  Proof.
    revert u; induction m as [|row m IH]; intros [|ur u] L H; simpl in *; eauto; try lia.
    destruct (H 0 row ur) as [row' Hr]; auto. rewrite Hr; simpl.
    destruct (IH u) as [rs Hrs]; [lia | intros i; exact (H (S i)) |].
    rewrite Hrs; simpl; eauto.
  Qed.

  (** Writing one column. *)
  Lemma update_column_Ok n T m (col : list A) k r :
    rect n T m -> length col = n -> 0 < T ->
    update_by_slice_in_dim m (map (fun p => [p]) col) k (Some 0%Z) (Some 1%nat) = Ok r ->
    rect n T r /\
    (forall i t, i < n ->
       at2 r i t = if t =? norm_start k T 1 then nth_error col i else at2 m i t).
  Proof.
    intros [R1 R2] L HT H. unfold update_by_slice_in_dim in H.
    apply update_rows_Ok in H as (L1 & L2 & H).
    assert (K : forall i row, nth_error m i = Some row ->
              exists p row', nth_error col i = Some p /\ nth_error r i = Some row' /\
              row' = splice (norm_start k T 1) [p] row).
    { intros i row Hr. specialize (H i row Hr). rewrite nth_error_map in H.
      destruct (nth_error_lt_Some col i) as [p Hp].
      { apply nth_error_Some_lt in Hr; lia. }
      rewrite Hp in H; simpl in H. destruct H as (row' & Hu & Hn).
      unfold update_row in Hu. simpl in Hu. apply dyn_update_Ok in Hu as [_ Hu].
      rewrite (R2 row) in Hu by (eapply nth_error_In; eauto). simpl in Hu.
      exists p, row'. auto. }
    pose proof (norm_start_fit k T 1 HT) as Fit.
    split.
    - split; [congruence|]. intros r' Hr'. apply In_nth_error in Hr' as [i Hi].
      destruct (nth_error_lt_Some m i) as [row Hrow].
      { apply nth_error_Some_lt in Hi; lia. }
      destruct (K i row Hrow) as (p & row' & _ & E & E'). rewrite Hi in E.
      inversion E; subst. rewrite splice_length.
      + apply R2. eapply nth_error_In; eauto.
      + simpl. rewrite (R2 row) by (eapply nth_error_In; eauto). auto.
    - intros i t Hi. destruct (nth_error_lt_Some m i) as [row Hrow]; [lia|].
      destruct (K i row Hrow) as (p & row' & E1 & E2 & E3). unfold at2.
      rewrite E2, Hrow, E1, E3.
      rewrite nth_error_splice
        by (simpl; rewrite (R2 row) by (eapply nth_error_In; eauto); auto).
      simpl. destruct (Nat.eqb_spec t (norm_start k T 1)) as [Et|Et].
      + subst t. rewrite Nat.leb_refl.
        destruct (Nat.ltb_spec (norm_start k T 1) (norm_start k T 1 + 1)); [|lia].
        simpl. now rewrite Nat.sub_diag.
      + destruct (Nat.leb_spec (norm_start k T 1) t); simpl; auto.
        destruct (Nat.ltb_spec t (norm_start k T 1 + 1)); auto. lia.
  Qed.

  Lemma update_column_total n T m (col : list A) k :
    rect n T m -> length col = n -> 0 < T ->
    exists r, update_by_slice_in_dim m (map (fun p => [p]) col) k (Some 0%Z) (Some 1%nat)
              = Ok r.
  Proof.
    intros [R1 R2] L HT. unfold update_by_slice_in_dim.
    apply update_rows_total; [rewrite map_length; lia|].
    intros i row ur Hr Hu. rewrite nth_error_map in Hu.
    destruct (nth_error col i); [|discriminate]. simpl in Hu. inversion Hu; subst.
    unfold update_row; simpl. apply dyn_update_total. simpl.
    rewrite (R2 row) by (eapply nth_error_In; eauto). lia.
  Qed.

  (** Copying a window between two equally shaped matrices. *)
  Lemma update_window_Ok n T m u k size r :
    rect n T m -> rect n T u -> size <= T ->
    update_by_slice_in_dim m u k None (Some size) = Ok r ->
    rect n T r /\
    (forall i t, i < n ->
       at2 r i t
       = if (norm_start k T size <=? t) && (t <? norm_start k T size + size)
         then at2 u i t else at2 m i t).
  Proof.
    intros [R1 R2] [Q1 Q2] HT H. unfold update_by_slice_in_dim in H.
    apply update_rows_Ok in H as (L1 & L2 & H).
    assert (K : forall i row, nth_error m i = Some row ->
              exists ur w row', nth_error u i = Some ur /\ nth_error r i = Some row' /\
              length w = size /\ length ur = T /\ length row = T /\
              (forall j, j < size -> nth_error w j = nth_error ur (norm_start k T size + j)) /\
              row' = splice (norm_start k T size) w row).
    { intros i row Hr. specialize (H i row Hr).
      destruct (nth_error_lt_Some u i) as [ur Hur].
      { apply nth_error_Some_lt in Hr; lia. }
      rewrite Hur in H. destruct H as (row' & Hu & Hn).
      unfold update_row in Hu. apply bind_Ok in Hu as (w & Hw & Hu).
      apply dyn_slice_Ok in Hw as (_ & Lw & Hw).
      apply dyn_update_Ok in Hu as [_ Hu].
      assert (length row = T) by (apply R2; eapply nth_error_In; eauto).
      assert (length ur = T) by (apply Q2; eapply nth_error_In; eauto).
      rewrite H, Lw in Hu. rewrite H0 in Hw.
      exists ur, w, row'. auto 10. }
    pose proof (norm_start_fit k T size HT) as Fit.
    split.
    - split; [congruence|]. intros r' Hr'. apply In_nth_error in Hr' as [i Hi].
      destruct (nth_error_lt_Some m i) as [row Hrow].
      { apply nth_error_Some_lt in Hi; lia. }
      destruct (K i row Hrow) as (ur & w & row' & _ & E & Lw & Lu & Lr & _ & E').
      rewrite Hi in E. inversion E as [E0]. rewrite E', splice_length; lia.
    - intros i t Hi. destruct (nth_error_lt_Some m i) as [row Hrow]; [lia|].
      destruct (K i row Hrow) as (ur & w & row' & E1 & E2 & Lw & Lu & Lr & Hw & E3).
      unfold at2. rewrite E2, Hrow, E1, E3.
      rewrite nth_error_splice by lia. rewrite Lw.
      destruct (Nat.leb_spec (norm_start k T size) t); simpl; auto.
      destruct (Nat.ltb_spec t (norm_start k T size + size)); auto.
      rewrite Hw by lia. f_equal. lia.
  Qed.

  Lemma update_window_total n T m u k size :
    rect n T m -> rect n T u -> size <= T ->
    exists r, update_by_slice_in_dim m u k None (Some size) = Ok r.
  Proof.
    intros [R1 R2] [Q1 Q2] HT. unfold update_by_slice_in_dim.
    apply update_rows_total; [lia|].
    intros i row ur Hr Hu. unfold update_row.
    destruct (dyn_slice_total k size ur) as [w Hw].
    { rewrite (Q2 ur) by (eapply nth_error_In; eauto). auto. }
    rewrite Hw; simpl. apply dyn_update_total.
    apply dyn_slice_Ok in Hw as (_ & Lw & _).
    rewrite (R2 row) by (eapply nth_error_In; eauto). lia.
  Qed.
End Rows.

Section Env.
  Context {S : Scalar}.

  Lemma rect_num_timesteps n T (tr : traj) :
    rect n T tr -> 0 < n -> num_timesteps tr = T.
  Proof.
    intros [H1 H2] Hn. destruct tr as [|r tr]; simpl in *; [lia|].
    apply H2; now left.
  Qed.

  Lemma rect_map n T {A B} (f : A -> B) (m : list (list A)) :
    rect n T m -> rect n T (map (map f) m).
  Proof.
    intros [H1 H2]. split; [now rewrite map_length|].
    intros r Hr. apply in_map_iff in Hr as (r0 & <- & Hr0). rewrite map_length. auto.
  Qed.

  Lemma at2_map {A B} (f : A -> B) (m : list (list A)) i t :
    at2 (map (map f) m) i t = option_map f (at2 m i t).
  Proof.
    unfold at2. rewrite nth_error_map. destruct (nth_error m i) as [r|]; simpl; auto.
    apply nth_error_map.
  Qed.

  Lemma control_mask_length n T s c mask :
    wf_state n T s -> env_control_mask s c = Ok mask -> length mask = n.
  Proof.
    intros (R1 & R2 & Lm & Hn & HT) H. unfold env_control_mask in H.
    assert (G : forall ty, get_control_mask (s_meta s) ty = Ok mask -> length mask = n).
    { intros ty Hg. destruct ty; simpl in Hg; inversion Hg; now rewrite map_length. }
    destruct (c_controlled c); eauto.
    destruct (c_allow_new_objects c); eauto.
    eapply dynamic_index_Ok in H; [apply H|]. apply rect_map; eauto.
  Qed.

  (** One apply_trajectory_update_to_state. *)
  Lemma apply_Ok n T us (sim ref sim' : traj) mask t inj fb :
    rect n T sim -> rect n T ref -> 0 < T ->
    apply_trajectory_update_to_state us sim ref mask t inj fb = Ok sim' ->
    length us = n /\ length mask = n /\ rect n T sim' /\
    exists cur nxt,
      length cur = n /\ length nxt = n /\
      (forall i, i < n -> nth_error cur i = at2 sim i (norm_start t T 1)) /\
      (forall i, i < n -> nth_error nxt i = at2 ref i (norm_start (t + 1) T 1)) /\
      (forall i k, i < n ->
         at2 sim' i k
         = if k =? norm_start (t + 1) T 1
           then nth_error (map4 (next_pt inj fb) us cur nxt mask) i
           else at2 sim i k).
  Proof.
    intros R1 R2 HT H. unfold apply_trajectory_update_to_state in H.
    apply bind_Ok in H as (cur & Hc & H). apply bind_Ok in H as (nxt & Hn & H).
    apply bind_Ok in H as (u & Hg & H). apply guard_Ok in Hg.
    apply andb_true_iff in Hg as [G1 G2]. apply Nat.eqb_eq in G1, G2.
    eapply dynamic_index_Ok in Hc as [Lc Hc]; [|eauto].
    eapply dynamic_index_Ok in Hn as [Ln Hn]; [|eauto].
    eapply update_column_Ok in H as [R3 H]; eauto.
    - split; [lia|]. split; [lia|]. split; auto. exists cur, nxt. auto 10.
    - rewrite map4_length. lia.
  Qed.

  Lemma apply_total n T us (sim ref : traj) mask t inj fb :
    rect n T sim -> rect n T ref -> 0 < T -> length us = n -> length mask = n ->
    exists sim', apply_trajectory_update_to_state us sim ref mask t inj fb = Ok sim'.
  Proof.
    intros R1 R2 HT Lu Lm. unfold apply_trajectory_update_to_state.
    destruct (dynamic_index_total n T sim t R1 HT) as [cur Hc]. rewrite Hc; simpl.
    destruct (dynamic_index_total n T ref (t + 1) R2 HT) as [nxt Hn]. rewrite Hn; simpl.
    eapply dynamic_index_Ok in Hc as [Lc _]; [|eauto].
    eapply dynamic_index_Ok in Hn as [Ln _]; [|eauto].
    unfold guard. rewrite Lm, Lu, Ln, Nat.eqb_refl; simpl.
    eapply update_column_total; eauto. rewrite map4_length. lia.
  Qed.

  (** One forward. *)
  Lemma forward_Ok n T d a (sim ref sim' : traj) mask t inj :
    rect n T sim -> rect n T ref -> 0 < T ->
    forward d a sim ref mask t inj = Ok sim' ->
    exists cur us,
      length a = n /\ length mask = n /\ length cur = n /\
      (forall i, i < n -> nth_error cur i = at2 sim i (norm_start t T 1)) /\
      d_update d a cur = Ok us /\
      apply_trajectory_update_to_state us sim ref mask t inj false = Ok sim'.
  Proof.
    intros R1 R2 HT H. unfold forward in H.
    apply bind_Ok in H as (u & Hg & H). apply guard_Ok in Hg.
    apply bind_Ok in H as (cur & Hc & H). apply bind_Ok in H as (us & Hu & H).
    rewrite !andb_true_iff, !Nat.eqb_eq in Hg. destruct Hg as [[G1 G2] G3].
    eapply dynamic_index_Ok in Hc as [Lc Hc]; [|eauto].
    destruct R1 as [R1 _]. exists cur, us. repeat split; auto; lia.
  Qed.

  (** One environment step, frame by frame. *)
  Lemma env_step_Ok n T d c s a s' :
    wf_state n T s -> env_step d c s a = Ok s' ->
    exists mask cur us nxt,
      env_control_mask s c = Ok mask /\
      length a = n /\ length mask = n /\ length cur = n /\ length us = n /\ length nxt = n /\
      (forall i, i < n -> nth_error cur i = at2 (s_sim s) i (norm_start (s_t s) T 1)) /\
      (forall i, i < n -> nth_error nxt i = at2 (s_log s) i (norm_start (s_t s + 1) T 1)) /\
      d_update d a cur = Ok us /\
      rect n T (s_sim s') /\
      (forall i k, i < n ->
         at2 (s_sim s') i k
         = if k =? norm_start (s_t s + 1) T 1
           then nth_error (map4 (next_pt (c_allow_new_objects c) false) us cur nxt mask) i
           else at2 (s_sim s) i k) /\
      same_scenario s s' /\ s_t s' = (s_t s + 1)%Z.
  Proof.
    intros W H. destruct W as (R1 & R2 & Lm & Hn & HT).
    unfold env_step in H. apply bind_Ok in H as (mask & Hm & H).
    apply bind_Ok in H as (sim' & Hf & H). inversion H; subst s'; simpl; clear H.
    destruct (forward_Ok _ _ _ _ _ _ _ _ _ _ R1 R2 HT Hf)
      as (cur & us & La & Lmask & Lc & Hc & Hu & Ha).
    destruct (apply_Ok _ _ _ _ _ _ _ _ _ _ R1 R2 HT Ha)
      as (Lu & _ & R3 & cur' & nxt & Lc' & Ln & Hc' & Hnx & Hs).
    assert (cur' = cur) as ->.
    { apply nth_error_ext_eq. intros i. destruct (Nat.lt_ge_cases i n).
      - rewrite Hc', Hc; auto.
      - rewrite !(proj2 (nth_error_None _ i)) by lia. auto. }
    exists mask, cur, us, nxt. unfold same_scenario; simpl. auto 20.
  Qed.

  Lemma env_step_wf n T d c s a s' :
    wf_state n T s -> env_step d c s a = Ok s' -> wf_state n T s'.
  Proof.
    intros W H. destruct (env_step_Ok _ _ _ _ _ _ _ W H)
      as (mask & cur & us & nxt & _ & _ & _ & _ & _ & _ & _ & _ & _ & R & _ & SC & _).
    destruct W as (R1 & R2 & Lm & Hn & HT). destruct SC as (E1 & E2 & E3 & _).
    unfold wf_state. rewrite E1, E3. auto.
  Qed.

  Lemma control_mask_total n T s c :
    wf_state n T s -> c_controlled c <> NON_SDC ->
    exists mask, env_control_mask s c = Ok mask.
  Proof.
    intros (R1 & R2 & Lm & Hn & HT) H. unfold env_control_mask.
    destruct (c_controlled c); simpl; eauto; try congruence.
    destruct (c_allow_new_objects c); simpl; eauto.
    eapply dynamic_index_total; [apply rect_map; eauto | auto].
  Qed.

  Lemma env_step_total n T d c s a ok :
    wf_state n T s -> c_controlled c <> NON_SDC -> dyn_total d ok ->
    length a = n -> Forall ok a -> exists s', env_step d c s a = Ok s'.
  Proof.
    intros W Hc D La Fa. destruct (control_mask_total _ _ _ _ W Hc) as [mask Hm].
    pose proof (control_mask_length _ _ _ _ _ W Hm) as Lmask.
    destruct W as (R1 & R2 & Lm & Hn & HT). unfold env_step. rewrite Hm; simpl.
    unfold forward. destruct (proj1 R1). destruct R2 as [R2 R2'].
    unfold guard. rewrite La, R2, Lmask, Nat.eqb_refl. simpl.
    destruct (dynamic_index_total _ T (s_sim s) (s_t s) R1 HT) as [cur Hcur].
    rewrite Hcur; simpl.
    pose proof (proj1 (dynamic_index_Ok _ _ _ _ _ R1 Hcur)) as Lcur.
    destruct (D a cur) as (us & Hu & Lu); auto; [congruence|].
    rewrite Hu; simpl.
    destruct (apply_total (length (s_sim s)) T us (s_sim s) (s_log s) mask (s_t s)
                (c_allow_new_objects c) false) as [sim' Hs]; auto; try congruence.
    { split; auto. }
    rewrite Hs; simpl. eauto.
  Qed.

  (** reset. *)
  Lemma env_reset_Ok n T c s s' :
    rect n T (s_log s) -> 0 < n -> env_reset c s = Ok s' ->
    c_max_num_objects c = n /\ c_init_steps c <= T /\
    rect n T (s_sim s') /\ same_scenario s s' /\
    s_t s' = (Z.of_nat (c_init_steps c) - 1)%Z /\
    (forall i t, i < n -> t < T ->
       at2 (s_sim s') i t
       = if t <? c_init_steps c then at2 (s_log s) i t else Some invalid_pt).
  Proof.
    intros R Hn H. unfold env_reset in H.
    apply bind_Ok in H as (u & Hg & H). apply guard_Ok, Nat.eqb_eq in Hg.
    unfold update_state_by_log in H. cbn [s_sim s_log s_tls s_meta s_t s_paths s_rg] in H.
    apply bind_Ok in H as (sim' & Hs & H).
    match type of H with Ok ?x = _ => assert (E0 : s' = x) by congruence end.
    clear H; subst s'. cbn [s_sim s_log s_tls s_meta s_t s_paths s_rg].
    assert (Rf : rect n T (fill_invalid_trajectory (s_log s))) by (apply rect_map; auto).
    assert (Hi : c_init_steps c <= T).
    { change (-1 + 1)%Z with 0%Z in Hs. unfold update_by_slice_in_dim in Hs.
      apply update_rows_Ok in Hs as (_ & _ & Hs).
      destruct R as [R R'].
      destruct (s_log s) as [|r0 rs] eqn:E; simpl in R; [lia|].
      specialize (Hs 0 _ eq_refl). simpl in Hs. destruct Hs as (row' & Hr & _).
      unfold update_row in Hr. apply bind_Ok in Hr as (w & Hw & _).
      apply dyn_slice_Ok in Hw as (L & _). rewrite (R' r0) in L by now left. auto. }
    destruct (update_window_Ok _ _ _ _ _ _ _ Rf R Hi Hs) as [R' H'].
    split; [destruct R; congruence|].
    split; [auto|]. split; [auto|]. split; [unfold same_scenario; simpl; auto 10|].
    split; [cbn [s_t]; lia|].
    intros i t Hi' Ht. rewrite H' by auto. simpl (-1 + 1)%Z.
    unfold norm_start at 1 2. simpl.
    replace (Z.to_nat (Z.min (Z.max 0 0) (Z.of_nat T - Z.of_nat (c_init_steps c)))) with 0 by lia.
    simpl. destruct (t <? c_init_steps c); auto.
    unfold fill_invalid_trajectory. rewrite at2_map.
    destruct (rect_at2 _ _ _ i t R Hi' Ht) as [p ->]. reflexivity.
  Qed.

  Lemma env_reset_total n T c s :
    rect n T (s_log s) -> c_max_num_objects c = n -> c_init_steps c <= T ->
    exists s', env_reset c s = Ok s'.
  Proof.
    intros R E Hi. unfold env_reset. rewrite E.
    unfold guard. rewrite (proj1 R), Nat.eqb_refl; simpl.
    unfold update_state_by_log. simpl.
    destruct (update_window_total n T (fill_invalid_trajectory (s_log s)) (s_log s)
                0 (c_init_steps c)) as [r Hr]; auto.
    { apply rect_map; auto. }
    rewrite Hr; simpl. eauto.
  Qed.

  Lemma env_reset_wf n T c s s' :
    rect n T (s_log s) -> length (s_meta s) = n -> 0 < n -> 0 < T ->
    env_reset c s = Ok s' -> wf_state n T s'.
  Proof.
    intros R L Hn HT H. destruct (env_reset_Ok _ _ _ _ _ R Hn H)
      as (_ & _ & R' & (E1 & E2 & E3 & _) & _).
    unfold wf_state. rewrite E1, E3. auto.
  Qed.

  Lemma env_steps_app d c s l1 l2 :
    env_steps d c s (l1 ++ l2)
    = bind (env_steps d c s l1) (fun s' => env_steps d c s' l2).
  Proof.
    revert s; induction l1 as [|a l1 IH]; intros s; simpl; auto.
    destruct (env_step d c s a); simpl; auto.
  Qed.

  Lemma env_steps_wf n T d c s l s' :
    wf_state n T s -> env_steps d c s l = Ok s' -> wf_state n T s'.
  Proof.
    revert s; induction l as [|a l IH]; intros s W H; simpl in H.
    - inversion H; subst; auto.
    - apply bind_Ok in H as (s1 & H1 & H). eauto using env_step_wf.
  Qed.
End Env.
