(** Proofs for C38: what an observation contains, for every number type. *)
From Coq Require Import List ZArith Lia Bool.
From Verif.Lib Require Import Base JaxIndex Scalar.
From Verif.Model Require Import Operations State Geometry Pose Roadgraph Observation Dynamics BaseEnv.
From Verif.Spec Require Import StateSpec DynSpec ObsSpec.
From Verif.Proofs Require Import Core Episode P_Expert P_Roadgraph.
Import ListNotations.
Local Open Scope nat_scope.

Section Obs.
  Context {S : Scalar}.

  Definition zero_pose : pose2d := from_center_and_yaw (f0, f0) f0 true.
  Definition no_paths : list path := [mkpath [mkpp f0 f0 f0 0 false f0] false].

  Lemma nth_error_repeat_lt {A} (x : A) n i : i < n -> nth_error (repeat x n) i = Some x.
  Proof. revert i; induction n as [|n IH]; intros [|i] H; simpl; auto; try lia. apply IH; lia. Qed.

  Lemma window_start (t k T : nat) : k <= t + 1 -> t < T ->
    norm_start (Z.of_nat t - Z.of_nat k + 1) T k = t + 1 - k.
  Proof. intros. rewrite norm_start_in; lia. Qed.

  Lemma slice_agree {A} n T1 T2 (m1 m2 : list (list A)) t k :
    rect n T1 m1 -> rect n T2 m2 -> t < T1 -> t < T2 -> k <= t + 1 -> same_until t m1 m2 ->
    dynamic_slice m1 (Z.of_nat t - Z.of_nat k + 1) k = dynamic_slice m2 (Z.of_nat t - Z.of_nat k + 1) k.
  Proof.
    intros R1 R2 H1 H2 Hk E.
    destruct (dynamic_slice_total n T1 m1 (Z.of_nat t - Z.of_nat k + 1) k R1) as [w1 W1]; [lia|].
    destruct (dynamic_slice_total n T2 m2 (Z.of_nat t - Z.of_nat k + 1) k R2) as [w2 W2]; [lia|].
    rewrite W1, W2. f_equal.
    destruct (dynamic_slice_Ok _ _ _ _ _ _ R1 W1) as [Q1 F1].
    destruct (dynamic_slice_Ok _ _ _ _ _ _ R2 W2) as [Q2 F2].
    apply (rect_ext n k); auto. intros i x Hi Hx. rewrite F1, F2 by auto.
    rewrite !window_start by lia. apply E. lia.
  Qed.

  Lemma index_agree {A} n T1 T2 (m1 m2 : list (list A)) t :
    rect n T1 m1 -> rect n T2 m2 -> t < T1 -> t < T2 -> same_until t m1 m2 ->
    dynamic_index m1 (Z.of_nat t) = dynamic_index m2 (Z.of_nat t).
  Proof.
    intros R1 R2 H1 H2 E.
    destruct (dynamic_index_total n T1 m1 (Z.of_nat t) R1) as [w1 W1]; [lia|].
    destruct (dynamic_index_total n T2 m2 (Z.of_nat t) R2) as [w2 W2]; [lia|].
    rewrite W1, W2. f_equal.
    destruct (dynamic_index_Ok _ _ _ _ _ R1 W1) as [Q1 F1].
    destruct (dynamic_index_Ok _ _ _ _ _ R2 W2) as [Q2 F2].
    apply nth_error_ext_eq. intros i. destruct (Nat.lt_ge_cases i n).
    - rewrite F1, F2 by auto. rewrite !norm_start_of_nat by lia. apply E; auto.
    - rewrite (proj2 (nth_error_None w1 i)), (proj2 (nth_error_None w2 i)) by lia. reflexivity.
  Qed.

  Lemma observation_causal n L T1 T2 t s1 s2 k topk fr :
    obs_wf n L T1 t s1 -> obs_wf n L T2 t s2 -> k <= t + 1 ->
    same_until t (s_sim s1) (s_sim s2) -> same_until t (s_tls s1) (s_tls s2) ->
    s_meta s1 = s_meta s2 -> s_rg s1 = s_rg s2 ->
    observation_from_state s1 k topk fr = observation_from_state s2 k topk fr.
  Proof.
    intros ((A1 & A2 & A3 & A4 & A5) & A6 & A7 & A8) ((B1 & B2 & B3 & B4 & B5) & B6 & B7 & B8) Hk Es El Em Er.
    unfold observation_from_state, current_sim, global_observation_from_state. cbv zeta.
    rewrite A7, B7, Em, Er.
    rewrite (index_agree n T1 T2 (s_sim s1) (s_sim s2) t) by auto.
    rewrite (slice_agree n T1 T2 (s_sim s1) (s_sim s2) t k) by auto.
    rewrite (slice_agree L T1 T2 (s_tls s1) (s_tls s2) t k) by auto.
    destruct A1 as [-> _]. destruct B1 as [-> _]. reflexivity.
  Qed.

  Lemma sdc_observation_causal n L T1 T2 t s1 s2 k topk fr :
    obs_wf n L T1 t s1 -> obs_wf n L T2 t s2 -> k <= t + 1 ->
    same_until t (s_sim s1) (s_sim s2) -> same_until t (s_tls s1) (s_tls s2) ->
    s_meta s1 = s_meta s2 -> s_rg s1 = s_rg s2 -> s_paths s1 = s_paths s2 ->
    sdc_observation_from_state s1 k topk fr = sdc_observation_from_state s2 k topk fr.
  Proof.
    intros ((A1 & A2 & A3 & A4 & A5) & A6 & A7 & A8) ((B1 & B2 & B3 & B4 & B5) & B6 & B7 & B8) Hk Es El Em Er Ep.
    unfold sdc_observation_from_state, current_sim, global_observation_from_state. cbv zeta.
    rewrite A7, B7, Em, Er, Ep.
    rewrite (index_agree n T1 T2 (s_sim s1) (s_sim s2) t) by auto.
    rewrite (slice_agree n T1 T2 (s_sim s1) (s_sim s2) t k) by auto.
    rewrite (slice_agree L T1 T2 (s_tls s1) (s_tls s2) t k) by auto.
    reflexivity.
  Qed.

  (** The pose each observer's frame is attached to. *)
  Definition frame_view (fr : coordinate_frame) (psdc p : pt) (v : view) : view :=
    match fr with
    | FRAME_GLOBAL => v
    | FRAME_OBJECT => transform_view v (pose_of_pt p)
    | FRAME_SDC => transform_view v (pose_of_pt psdc)
    end.

  Lemma first_sdc_lt k ms i : first_sdc k ms = Some i -> i < k + length ms.
  Proof.
    revert k; induction ms as [|m ms IH]; intros k H; simpl in *; [discriminate|].
    destruct (m_is_sdc m); [injection H as <-; lia|]. apply IH in H. lia.
  Qed.

  Lemma sdc_index_lt ms : ms <> [] -> exists i, sdc_index ms = Ok i /\ i < length ms.
  Proof.
    intros N. unfold sdc_index. destruct ms as [|m ms]; [congruence|].
    destruct (first_sdc 0 (m :: ms)) eqn:E; eexists; split; eauto; [|simpl; lia].
    exact (first_sdc_lt 0 (m :: ms) _ E).
  Qed.

  Lemma combine_nth_error {A B} (l : list A) (m : list B) i a b :
    nth_error l i = Some a -> nth_error m i = Some b -> nth_error (combine l m) i = Some (a, b).
  Proof.
    revert m i; induction l as [|x l IH]; intros [|y m] [|i] Ha Hb; simpl in *; try discriminate; auto.
    congruence.
  Qed.

  Lemma nth_error_seq0 n i : i < n -> nth_error (seq 0 n) i = Some i.
  Proof. intros. rewrite (nth_error_nth' _ 0) by (rewrite seq_length; auto). now rewrite seq_nth. Qed.

  (** Full description of observation_from_state. *)
  Lemma observation_spec n L T t s k topk fr rg :
    obs_wf n L T t s -> k <= t + 1 -> s_rg s = Some rg -> topk <= length rg ->
    exists o win tlw isdc psdc,
      observation_from_state s k topk fr = Ok o /\ length o = n /\
      rect n k win /\ rect L k tlw /\
      (forall j x, j < n -> x < k -> at2 win j x = at2 (s_sim s) j (t + 1 - k + x)) /\
      (forall j x, j < L -> x < k -> at2 tlw j x = at2 (s_tls s) j (t + 1 - k + x)) /\
      sdc_index (s_meta s) = Ok isdc /\ isdc < n /\ at2 (s_sim s) isdc t = Some psdc /\
      forall i, i < n -> exists p rgf,
        at2 (s_sim s) i t = Some p /\
        filter_topk_roadgraph_points rg (p_x p, p_y p) topk = Ok rgf /\
        nth_error o i = Some (frame_view fr psdc p
          (mkview win (is_ego_row n i) zero_pose (s_meta s) rgf tlw no_paths)).
  Proof.
    intros ((A1 & A2 & A3 & A4 & A5) & A6 & A7 & A8) Hk Hr Hkk.
    destruct (dynamic_slice_total n T (s_sim s) (s_t s - Z.of_nat k + 1) k A1) as [win Hw]; [lia|].
    destruct (dynamic_slice_total L T (s_tls s) (s_t s - Z.of_nat k + 1) k A6) as [tlw Ht]; [lia|].
    destruct (dynamic_index_total n T (s_sim s) (s_t s) A1) as [cur Hc]; [lia|].
    destruct (dynamic_slice_Ok _ _ _ _ _ _ A1 Hw) as [Q1 F1].
    destruct (dynamic_slice_Ok _ _ _ _ _ _ A6 Ht) as [Q2 F2].
    destruct (dynamic_index_Ok _ _ _ _ _ A1 Hc) as [Lc F3].
    rewrite A7 in F1, F2, F3. rewrite norm_start_of_nat in F3 by lia. rewrite window_start in F1, F2 by lia.
    destruct (sdc_index_lt (s_meta s)) as (isdc & Hi & Li); [intros E; rewrite E in A3; simpl in A3; lia|].
    rewrite A3 in Li. destruct (nth_error_lt_Some cur isdc) as [psdc Hp]; [lia|].
    set (g := mkview win (map (fun _ => false) (s_meta s)) zero_pose (s_meta s) rg tlw no_paths).
    set (xs := combine (seq 0 n) (combine (repeat g n) cur)).
    assert (Nx : forall i p, nth_error cur i = Some p -> nth_error xs i = Some (i, (g, p))).
    { intros i p Ep. assert (i < n) by (apply nth_error_Some_lt in Ep; lia).
      apply combine_nth_error; [apply nth_error_seq0; auto|].
      apply combine_nth_error; [apply nth_error_repeat_lt; auto | auto]. }
    assert (Lx : length xs = n).
    { unfold xs. rewrite combine_length, seq_length, combine_length, repeat_length. lia. }
    destruct (mapM_total (filter_view n topk) xs) as [gf Hgf].
    { intros [i [v p]] Hin.
      assert (v = g).
      { apply in_combine_r in Hin. apply in_combine_l in Hin. apply repeat_spec in Hin. auto. }
      subst v. unfold filter_view. simpl.
      destruct (filter_topk_cases rg (p_x p, p_y p) topk) as [Hcases _].
      destruct (Hcases Hkk) as (out & -> & _). simpl. eauto. }
    pose proof (mapM_length _ _ _ Hgf) as Lgf.
    assert (Ngf : forall i, i < n -> exists p rgf, at2 (s_sim s) i t = Some p /\ nth_error cur i = Some p /\
              filter_topk_roadgraph_points rg (p_x p, p_y p) topk = Ok rgf /\
              nth_error gf i = Some (mkview win (is_ego_row n i) zero_pose (s_meta s) rgf tlw no_paths)).
    { intros i Hin. destruct (nth_error_lt_Some cur i) as [p Ep]; [lia|].
      destruct (mapM_nth _ _ _ i _ Hgf (Nx i p Ep)) as (v & Hv & Nv).
      unfold filter_view in Hv. apply bind_Ok in Hv as (rgf & Hf & Hv). simpl in Hf, Hv.
      exists p, rgf. rewrite <- F3, Ep by auto. injection Hv as <-. auto. }
    assert (Tr : forall ps, length ps = n -> transform_observation gf ps = Ok (map2 transform_view gf ps)).
    { intros ps Lps. unfold transform_observation. rewrite Lgf, Lx, Lps, Nat.eqb_refl. reflexivity. }
    assert (Common : observation_from_state s k topk fr =
      match fr with
      | FRAME_OBJECT => Ok (map2 transform_view gf (map pose_of_pt cur))
      | FRAME_GLOBAL => Ok gf
      | FRAME_SDC => Ok (map2 transform_view gf (repeat (pose_of_pt psdc) n))
      end).
    { unfold observation_from_state, current_sim. rewrite Hc. simpl.
      unfold global_observation_from_state. rewrite Hw. simpl. rewrite Ht. simpl. rewrite Hr. simpl.
      destruct A1 as [-> _]. fold zero_pose. fold no_paths. fold g. fold xs. rewrite Hgf. simpl.
      destruct fr.
      - rewrite Hi. simpl. rewrite Hp. simpl. apply Tr. apply repeat_length.
      - apply Tr. rewrite map_length; auto.
      - reflexivity. }
    exists (match fr with
      | FRAME_OBJECT => map2 transform_view gf (map pose_of_pt cur)
      | FRAME_GLOBAL => gf
      | FRAME_SDC => map2 transform_view gf (repeat (pose_of_pt psdc) n)
      end), win, tlw, isdc, psdc.
    split; [rewrite Common; destruct fr; reflexivity|].
    split; [destruct fr; rewrite ?map2_length, ?repeat_length, ?map_length, ?Lgf, ?Lx, ?Lc; lia|].
    split; auto. split; auto. split; auto. split; auto. split; auto. split; auto.
    split; [rewrite <- F3 by auto; auto|].
    intros i Hin. destruct (Ngf i Hin) as (p & rgf & E1 & E2 & E3 & E4). exists p, rgf.
    split; auto. split; auto. destruct fr; simpl.
    - rewrite nth_error_map2, E4, nth_error_repeat_lt by auto. reflexivity.
    - rewrite nth_error_map2, E4, nth_error_map, E2. reflexivity.
    - exact E4.
  Qed.

  (** Full description of sdc_observation_from_state. *)
  Lemma sdc_observation_spec n L T t s k topk fr rg :
    obs_wf n L T t s -> k <= t + 1 -> s_rg s = Some rg -> topk <= length rg ->
    exists win tlw isdc psdc rgf,
      rect n k win /\ rect L k tlw /\
      (forall j x, j < n -> x < k -> at2 win j x = at2 (s_sim s) j (t + 1 - k + x)) /\
      (forall j x, j < L -> x < k -> at2 tlw j x = at2 (s_tls s) j (t + 1 - k + x)) /\
      sdc_index (s_meta s) = Ok isdc /\ isdc < n /\ at2 (s_sim s) isdc t = Some psdc /\
      filter_topk_roadgraph_points rg (p_x psdc, p_y psdc) topk = Ok rgf /\
      sdc_observation_from_state s k topk fr = Ok [frame_view fr psdc psdc
          (mkview win (map m_is_sdc (s_meta s)) zero_pose (s_meta s) rgf tlw
             (match s_paths s with Some ps => ps | None => no_paths end))].
  Proof.
    intros ((A1 & A2 & A3 & A4 & A5) & A6 & A7 & A8) Hk Hr Hkk.
    destruct (dynamic_slice_total n T (s_sim s) (s_t s - Z.of_nat k + 1) k A1) as [win Hw]; [lia|].
    destruct (dynamic_slice_total L T (s_tls s) (s_t s - Z.of_nat k + 1) k A6) as [tlw Ht]; [lia|].
    destruct (dynamic_index_total n T (s_sim s) (s_t s) A1) as [cur Hc]; [lia|].
    destruct (dynamic_slice_Ok _ _ _ _ _ _ A1 Hw) as [Q1 F1].
    destruct (dynamic_slice_Ok _ _ _ _ _ _ A6 Ht) as [Q2 F2].
    destruct (dynamic_index_Ok _ _ _ _ _ A1 Hc) as [Lc F3].
    rewrite A7 in F1, F2, F3. rewrite norm_start_of_nat in F3 by lia. rewrite window_start in F1, F2 by lia.
    destruct (sdc_index_lt (s_meta s)) as (isdc & Hi & Li); [intros E; rewrite E in A3; simpl in A3; lia|].
    rewrite A3 in Li. destruct (nth_error_lt_Some cur isdc) as [psdc Hp]; [lia|].
    destruct (filter_topk_cases rg (p_x psdc, p_y psdc) topk) as [Hcases _].
    destruct (Hcases Hkk) as (rgf & Hrgf & _).
    exists win, tlw, isdc, psdc, rgf.
    split; auto. split; auto. split; auto. split; auto. split; auto. split; auto.
    split; [rewrite <- F3 by auto; auto|]. split; auto.
    unfold sdc_observation_from_state, current_sim. rewrite Hc. simpl. rewrite Hi. simpl. rewrite Hp. simpl.
    unfold global_observation_from_state. rewrite Hw. simpl. rewrite Ht. simpl. rewrite Hr. simpl.
    rewrite Hrgf. simpl. destruct fr; reflexivity.
  Qed.
End Obs.

Section Lookahead.
  Context {S : Scalar}.

  Lemma same_until_le {A} t t' (m1 m2 : list (list A)) : t' <= t -> same_until t m1 m2 -> same_until t' m1 m2.
  Proof. intros L H i k Hk. apply H. lia. Qed.

  Lemma reset_agree n T1 T2 c s1 s2 r1 r2 t :
    wf_scenario n T1 s1 -> wf_scenario n T2 s2 ->
    env_reset c s1 = Ok r1 -> env_reset c s2 = Ok r2 ->
    t < T1 -> t < T2 -> same_until (c_init_steps c - 1) (s_log s1) (s_log s2) ->
    1 <= c_init_steps c -> same_until t (s_sim r1) (s_sim r2).
  Proof.
    intros (A1 & A2 & A3 & A4) (B1 & B2 & B3 & B4) H1 H2 Ht1 Ht2 E Hi i k Hk.
    destruct (env_reset_Ok _ _ _ _ _ A1 A3 H1) as (_ & _ & R1 & _ & _ & F1).
    destruct (env_reset_Ok _ _ _ _ _ B1 B3 H2) as (_ & _ & R2 & _ & _ & F2).
    destruct (Nat.lt_ge_cases i n).
    - rewrite F1, F2 by lia. destruct (k <? c_init_steps c) eqn:EE; auto.
      apply Nat.ltb_lt in EE. apply E. lia.
    - unfold at2. rewrite (proj2 (nth_error_None (s_sim r1) i)), (proj2 (nth_error_None (s_sim r2) i));
        [reflexivity | destruct R2; lia | destruct R1; lia].
  Qed.

  Lemma step_agree n T1 T2 d c s1 s2 a r1 r2 t :
    wf_state n T1 s1 -> wf_state n T2 s2 ->
    s_t s1 = Z.of_nat t -> s_t s2 = Z.of_nat t -> t + 1 < T1 -> t + 1 < T2 ->
    env_step d c s1 a = Ok r1 -> env_step d c s2 a = Ok r2 ->
    1 <= c_init_steps c -> c_init_steps c - 1 <= t ->
    same_until t (s_sim s1) (s_sim s2) -> same_until (t + 1) (s_log s1) (s_log s2) ->
    s_meta s1 = s_meta s2 ->
    same_until (t + 1) (s_sim r1) (s_sim r2).
  Proof.
    intros W1 W2 E1 E2 L1 L2 H1 H2 Hi Ht Es El Em i k Hk.
    destruct (env_step_Ok _ _ _ _ _ _ _ W1 H1)
      as (m1 & cur1 & us1 & nxt1 & M1 & La1 & Lm1 & Lc1 & Lu1 & Ln1 & C1 & N1 & U1 & R1 & F1 & _).
    destruct (env_step_Ok _ _ _ _ _ _ _ W2 H2)
      as (m2 & cur2 & us2 & nxt2 & M2 & La2 & Lm2 & Lc2 & Lu2 & Ln2 & C2 & N2 & U2 & R2 & F2 & _).
    assert (Ec : cur1 = cur2).
    { apply nth_error_ext_eq. intros j. destruct (Nat.lt_ge_cases j n).
      - rewrite C1, C2 by auto. rewrite E1, E2, !norm_start_of_nat by lia. apply Es. lia.
      - rewrite (proj2 (nth_error_None cur1 j)), (proj2 (nth_error_None cur2 j)) by lia. reflexivity. }
    assert (En : nxt1 = nxt2).
    { apply nth_error_ext_eq. intros j. destruct (Nat.lt_ge_cases j n).
      - rewrite N1, N2 by auto. rewrite E1, E2.
        replace (Z.of_nat t + 1)%Z with (Z.of_nat (t + 1)) by lia.
        rewrite !norm_start_of_nat by lia. apply El. lia.
      - rewrite (proj2 (nth_error_None nxt1 j)), (proj2 (nth_error_None nxt2 j)) by lia. reflexivity. }
    assert (EM : m1 = m2).
    { assert (env_control_mask s1 c = env_control_mask s2 c); [|congruence].
      unfold env_control_mask. rewrite Em. destruct (c_controlled c); auto.
      destruct (c_allow_new_objects c); auto.
      replace (Z.of_nat (c_init_steps c) - 1)%Z with (Z.of_nat (c_init_steps c - 1)) by lia.
      apply (index_agree n T1 T2); try lia.
      - apply rect_map. apply W1.
      - apply rect_map. apply W2.
      - intros j x Hx. rewrite !at2_map. f_equal. apply Es. lia. }
    subst cur2 nxt2 m2. assert (us2 = us1) by congruence. subst us2.
    destruct (Nat.lt_ge_cases i n).
    - rewrite F1, F2 by auto. rewrite E1, E2.
      replace (Z.of_nat t + 1)%Z with (Z.of_nat (t + 1)) by lia.
      rewrite !norm_start_of_nat by lia. destruct (k =? t + 1) eqn:Ek; auto.
      apply Es. apply Nat.eqb_neq in Ek. lia.
    - unfold at2. rewrite (proj2 (nth_error_None (s_sim r1) i)), (proj2 (nth_error_None (s_sim r2) i));
        [reflexivity | destruct R2; lia | destruct R1; lia].
  Qed.

  (** Closed loop with a causal policy: the simulated past only depends on the
      logged past. *)
  Lemma lookahead n L T1 T2 d c pol s1 s2 k r1 r2 :
    wf_scenario n T1 s1 -> wf_scenario n T2 s2 -> rect L T1 (s_tls s1) -> rect L T2 (s_tls s2) ->
    1 <= c_init_steps c -> c_init_steps c + k <= T1 -> c_init_steps c + k <= T2 ->
    causal (c_init_steps c - 1) pol ->
    run_policy d c pol s1 k = Ok r1 -> run_policy d c pol s2 k = Ok r2 ->
    same_start (c_init_steps c + k - 1) s1 s2 ->
    same_past (c_init_steps c + k - 1) r1 r2.
  Proof.
    intros W1 W2 RL1 RL2 Hi. revert r1 r2.
    induction k as [|k IH]; intros r1 r2 L1 L2 Hp H1 H2 SS.
    - apply run_policy_0 in H1, H2.
      destruct W1 as (A1 & A2 & A3 & A4), W2 as (B1 & B2 & B3 & B4).
      destruct (env_reset_Ok _ _ _ _ _ A1 A3 H1) as (_ & _ & R1 & (C1 & C2 & C3 & C4 & C5) & E1 & _).
      destruct (env_reset_Ok _ _ _ _ _ B1 B3 H2) as (_ & _ & R2 & (D1 & D2 & D3 & D4 & D5) & E2 & _).
      destruct SS as (S1 & S2 & S3 & S4 & S5).
      unfold same_past. rewrite C1, C2, C3, C4, C5, D1, D2, D3, D4, D5.
      split; [lia|]. split; [lia|]. split; [|auto 10].
      apply (reset_agree n T1 T2 c s1 s2); try lia; try (split; auto); auto.
      replace (c_init_steps c + 0 - 1) with (c_init_steps c - 1) in S1 by lia. auto.
    - apply run_policy_snoc in H1 as (q1 & a1 & H1 & P1 & X1).
      apply run_policy_snoc in H2 as (q2 & a2 & H2 & P2 & X2).
      assert (SS' : same_start (c_init_steps c + k - 1) s1 s2).
      { destruct SS as (S1 & S2 & S3). split; [|split; [|exact S3]];
          (apply (same_until_le (c_init_steps c + Datatypes.S k - 1)); [lia|assumption]). }
      specialize (IH q1 q2 ltac:(lia) ltac:(lia) Hp H1 H2 SS').
      destruct (run_policy_episode _ _ _ _ _ _ H1) as (acts1 & Ll1 & HE1).
      destruct (run_policy_episode _ _ _ _ _ _ H2) as (acts2 & Ll2 & HE2).
      destruct (episode_basic _ _ _ _ _ _ _ W1 HE1 ltac:(lia)) as (WF1 & SC1 & _ & Et1 & _).
      destruct (episode_basic _ _ _ _ _ _ _ W2 HE2 ltac:(lia)) as (WF2 & SC2 & _ & Et2 & _).
      set (t := c_init_steps c + k - 1) in *.
      assert (Et1' : s_t q1 = Z.of_nat t) by (rewrite Et1; lia).
      assert (Et2' : s_t q2 = Z.of_nat t) by (rewrite Et2; lia).
      assert (a1 = a2).
      { assert (pol q1 = pol q2); [|congruence].
        apply (Hp n L T1 T2 t); auto; [lia| |].
        - split; auto. destruct SC1 as (_ & -> & _). split; [exact RL1|]. split; [exact Et1'|lia].
        - split; auto. destruct SC2 as (_ & -> & _). split; [exact RL2|]. split; [exact Et2'|lia]. }
      subst a2.
      destruct (env_step_Ok _ _ _ _ _ _ _ WF1 X1) as (? & ? & ? & ? & _ & _ & _ & _ & _ & _ & _ & _ & _ & _ & _ & SD1 & F1).
      destruct (env_step_Ok _ _ _ _ _ _ _ WF2 X2) as (? & ? & ? & ? & _ & _ & _ & _ & _ & _ & _ & _ & _ & _ & _ & SD2 & F2).
      pose proof (same_scenario_trans _ _ _ SC1 SD1) as (C1 & C2 & C3 & C4 & C5).
      pose proof (same_scenario_trans _ _ _ SC2 SD2) as (D1 & D2 & D3 & D4 & D5).
      destruct SS as (S1 & S2 & S3 & S4 & S5).
      unfold same_past. rewrite C1, C2, C3, C4, C5, D1, D2, D3, D4, D5.
      replace (c_init_steps c + Datatypes.S k - 1) with (t + 1) in * by lia.
      split; [lia|]. split; [lia|]. split; [|auto 10].
      apply (step_agree n T1 T2 d c q1 q2 a1); auto; try lia.
      + apply IH.
      + destruct SC1 as (-> & _). destruct SC2 as (-> & _). auto.
      + destruct SC1 as (_ & _ & -> & _). destruct SC2 as (_ & _ & -> & _). auto.
  Qed.

  Lemma observing_causal k topk fr f : causal (k - 1) (observing k topk fr f).
  Proof.
    intros n L T1 T2 t s1 s2 Ht W1 W2 (E1 & E2 & Es & El & Etl & Em & Ep & Er).
    unfold observing. rewrite (observation_causal n L T1 T2 t s1 s2); auto. lia.
  Qed.
End Lookahead.
