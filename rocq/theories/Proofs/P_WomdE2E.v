(** From a parsed example through preprocessing, loading, reset and export. *)
From Coq Require Import String.
From Coq Require Import List ZArith Bool Arith Lia.
From Verif.Lib Require Import Base JaxIndex Scalar.
From Verif.Model Require Import Operations State Geometry Metrics Masked Womd WomdState BaseEnv.
From Verif.Spec Require Import StateSpec WomdSpec DictSpec.
From Verif.Proofs Require Import Core P_Womd P_WomdState P_WomdExport P_WomdTrip.
Import ListNotations.
Local Open Scope nat_scope.

Section E2E.
  Context {S : Scalar}.

  Lemma current_features_keys (o : dict) kind : current_features o kind =
    flat_map (fun k => match strip (kind ++ "/current/") k with Some f => [f] | None => [] end) (map fst o).
  Proof. unfold current_features. induction o as [|[k v] o IH]; cbn; [reflexivity|]. f_equal. exact IH. Qed.

  (** Names under the two kinds of split features, with axes and types. *)
  Definition light_types : list (string * dtype) :=
    [("state", DInt); ("valid", DInt); ("id", DInt); ("x", DFloat); ("y", DFloat); ("z", DFloat)]%string.
  Definition time_steps : list (string * nat) := [("past", 10); ("current", 1); ("future", 80)]%string.

  Ltac standard H := unfold get_features_description in H;
    match type of H with context [if ?b then _ else _] => destruct b end;
    [match type of H with context [match ?p with Some _ => _ | None => _ end] => destruct p; [|discriminate H] end;
     match type of H with context [match ?k with Some _ => _ | None => _ end] => destruct k; [|discriminate H] end|];
    cbn [bind] in H; apply Ok_eq in H; subst.

  Lemma standard_light {paths} n N np nk L fd : get_features_description n N paths np nk L = Ok fd ->
    (forall time steps f dt, In (time, steps) time_steps -> In (f, dt) light_types ->
       In (light_key time f, mkfeat [steps; L] dt) fd) /\
    (forall time steps, In (time, steps) time_steps -> In (light_key time "timestamp_micros", mkfeat [steps] DInt) fd) /\
    (forall k c dt, In (k, c, dt) [("roadgraph_samples/xyz", 3, DFloat); ("roadgraph_samples/dir", 3, DFloat);
       ("roadgraph_samples/type", 1, DInt); ("roadgraph_samples/id", 1, DInt); ("roadgraph_samples/valid", 1, DInt)]%string ->
       In (k, mkfeat [N; c] dt) fd).
  Proof.
    intros H. standard H; (split; [|split]);
    first [intros time steps f dt Ht Hf;
      repeat (destruct Ht as [Ht|Ht]); try contradiction; injection Ht as <- <-;
        repeat (destruct Hf as [Hf|Hf]); try contradiction; injection Hf as <- <-; apply getf_In; reflexivity
    |intros time steps Ht; repeat (destruct Ht as [Ht|Ht]); try contradiction; injection Ht as <- <-; apply getf_In; reflexivity
    |intros k c dt Hk; repeat (destruct Hk as [Hk|Hk]); try contradiction; injection Hk as <- <- <-; apply getf_In; reflexivity].
  Qed.

  Lemma standard_features {paths} n N np nk L fd : get_features_description n N paths np nk L = Ok fd ->
    let at_ kind := flat_map (fun k => match strip (kind ++ "/current/") k with Some f => [f] | None => [] end) (map fst fd) in
    at_ "state"%string = map fst frame_types /\
    at_ "traffic_light_state"%string = map fst light_types ++ ["timestamp_micros"]%string.
  Proof. intros H. standard H; split; vm_compute; reflexivity. Qed.

  Lemma standard_no_all {paths} n N np nk L fd : get_features_description n N paths np nk L = Ok fd ->
    (forall f dt, In (f, dt) frame_types -> existsb (String.eqb (state_key "all" f)) (map fst fd) = false) /\
    (forall f dt, In (f, dt) light_types -> existsb (String.eqb (light_key "all" f)) (map fst fd) = false).
  Proof.
    intros H. standard H; split; intros f dt Hf;
      repeat (destruct Hf as [Hf|Hf]); try contradiction; injection Hf as <- _; vm_compute; reflexivity.
  Qed.

  Lemma has_inj (d : dict) k x y : has d k x -> has d k y -> x = y.
  Proof. intros (u & U & <-) (v & V & <-). congruence. Qed.

  Section Example.
    Context (paths : bool) (n N L : nat) (np nk : option nat) (fd : features) (o : dict).
    Hypothesis (Hfd : get_features_description n N paths np nk L = Ok fd) (Ho : parsed fd o).

    Lemma parsed_NoDup : NoDup (map fst o).
    Proof. rewrite (proj1 Ho). eapply standard_Ok; eauto. Qed.

    Lemma parsed_features :
      current_features o "state" = map fst frame_types /\
      current_features o "traffic_light_state" = map fst light_types ++ ["timestamp_micros"]%string.
    Proof.
      rewrite !current_features_keys, (proj1 Ho). exact (standard_features _ _ _ _ _ _ Hfd).
    Qed.

    Lemma parsed_no_key k : existsb (String.eqb k) (map fst fd) = false -> get o k = None.
    Proof.
      intros H. apply get_None. rewrite (proj1 Ho). intros Hin. apply existsb_key in Hin. congruence.
    Qed.

    Lemma parsed_get name ft : In (name, ft) fd -> exists a, get o name = Some a /\ dims a = ft_shape ft /\
      forall idx, typed (ft_dtype ft) (cell a idx).
    Proof. apply (proj2 Ho). Qed.

    Lemma parsed_state f dt time steps : In (time, steps) time_steps -> In (f, dt) frame_types ->
      exists a, get o (state_key time f) = Some a /\ dims a = [n; steps] /\ forall idx, typed dt (cell a idx).
    Proof.
      intros Ht Hf. destruct (standard_Ok _ _ _ _ _ _ Hfd) as (_ & Hk & _).
      apply (parsed_get _ (mkfeat [n; steps] dt)). now apply Hk.
    Qed.
    Lemma parsed_light f dt time steps : In (time, steps) time_steps -> In (f, dt) light_types ->
      exists a, get o (light_key time f) = Some a /\ dims a = [steps; L] /\ forall idx, typed dt (cell a idx).
    Proof.
      intros Ht Hf. destruct (standard_light _ _ _ _ _ _ Hfd) as (Hk & _).
      apply (parsed_get _ (mkfeat [steps; L] dt)). now apply Hk.
    Qed.
    Lemma parsed_stamp time steps : In (time, steps) time_steps ->
      exists a, get o (light_key time "timestamp_micros") = Some a /\ dims a = [steps].
    Proof.
      intros Ht. destruct (standard_light _ _ _ _ _ _ Hfd) as (_ & Hk & _).
      destruct (parsed_get _ _ (Hk _ _ Ht)) as (a & E & D & _). eauto.
    Qed.

    Ltac t3 := cbn; tauto.

    Lemma parsed_complete : complete o.
    Proof.
      destruct parsed_features as [Fs Fl]. split; [|split].
      - intros kind f Hk Hg. apply current_features_In in Hg. destruct Hk as [-> | ->].
        + rewrite Fs in Hg. apply in_map_iff in Hg as ([f' dt] & <- & Hf). cbn [fst].
          destruct (parsed_state f' dt "past" 10 ltac:(t3) Hf) as (p & P1 & P2 & _).
          destruct (parsed_state f' dt "current" 1 ltac:(t3) Hf) as (c & C1 & C2 & _).
          destruct (parsed_state f' dt "future" 80 ltac:(t3) Hf) as (u & U1 & U2 & _).
          exists p, c, u. repeat (split; [assumption|]). exists [n], 10, 1, 80, []. repeat split; assumption.
        + rewrite Fl in Hg. apply in_app_iff in Hg as [Hg|[<-|[]]].
          * apply in_map_iff in Hg as ([f' dt] & <- & Hf). cbn [fst].
            destruct (parsed_light f' dt "past" 10 ltac:(t3) Hf) as (p & P1 & P2 & _).
            destruct (parsed_light f' dt "current" 1 ltac:(t3) Hf) as (c & C1 & C2 & _).
            destruct (parsed_light f' dt "future" 80 ltac:(t3) Hf) as (u & U1 & U2 & _).
            exists p, c, u. repeat (split; [assumption|]). exists [], 10, 1, 80, [L].
            split; [|repeat split; assumption].
            repeat (destruct Hf as [Hf|Hf]); try contradiction; injection Hf as <- _; reflexivity.
          * destruct (parsed_stamp "past" 10 ltac:(t3)) as (p & P1 & P2).
            destruct (parsed_stamp "current" 1 ltac:(t3)) as (c & C1 & C2).
            destruct (parsed_stamp "future" 80 ltac:(t3)) as (u & U1 & U2).
            exists p, c, u. repeat (split; [assumption|]). exists [], 10, 1, 80, []. repeat split; assumption.
      - destruct (parsed_state "valid" DInt "past" 10) as (p & P1 & P2 & _); [t3|t3|]. exists p. rewrite P2. auto.
      - destruct (parsed_state "valid" DInt "future" 80) as (p & P1 & P2 & _); [t3|t3|]. exists p. rewrite P2. auto.
    Qed.

    Context (a : dict).
    Hypothesis (Ha : aggregate_time_tensors o = Ok a).

    (** Aggregated state features: 91 steps, the first 11 being past and current. *)
    Lemma agg_state f dt : In (f, dt) frame_types -> exists x, get a (state_key "all" f) = Some x /\ dims x = [n; 91] /\
      (forall i k, k < 10 -> value o (state_key "past" f) [i; k] = Some (cell x [i; k])) /\
      (forall i, value o (state_key "current" f) [i; 0] = Some (cell x [i; 10])) /\
      (forall i k, k < 80 -> value o (state_key "future" f) [i; k] = Some (cell x [i; 11 + k])).
    Proof.
      intros Hf. destruct (aggregate_spec o a parsed_NoDup Ha) as (_ & J & _).
      destruct (parsed_state f dt "past" 10 ltac:(t3) Hf) as (p & P1 & P2 & _).
      destruct (parsed_state f dt "current" 1 ltac:(t3) Hf) as (c & C1 & C2 & _).
      destruct (parsed_state f dt "future" 80 ltac:(t3) Hf) as (u & U1 & U2 & _).
      destruct (J "state"%string f) as (p' & c' & u' & x & P1' & C1' & U1' & X & Jn).
      - auto.
      - intros E. change (get o (state_key "current" f) = None) in E. congruence.
      - apply parsed_no_key. exact (proj1 (standard_no_all _ _ _ _ _ _ Hfd) f dt Hf).
      - change (get o (state_key "past" f) = Some p') in P1'. change (get o (state_key "current" f) = Some c') in C1'.
        change (get o (state_key "future" f) = Some u') in U1'.
        assert (p' = p) by congruence. assert (c' = c) by congruence. assert (u' = u) by congruence. subst p' c' u'.
        destruct Jn as (before & kp & kc & kf & behind & Lb & Dp & Dc & Du & Dx & Cx).
        cbn in Lb. destruct behind; [|discriminate].
        rewrite P2 in Dp. change [n; 10] with ([n] ++ [10]) in Dp. apply app_inj_tail in Dp as [<- <-].
        rewrite C2 in Dc. change [n; 1] with ([n] ++ [1]) in Dc. apply app_inj_tail in Dc as [_ <-].
        rewrite U2 in Du. change [n; 80] with ([n] ++ [80]) in Du. apply app_inj_tail in Du as [_ <-].
        exists x. split; [exact X|]. split; [exact Dx|]. unfold value. rewrite P1, C1, U1. cbn [option_map]. split; [|split].
        + intros i k Hk. f_equal. symmetry. etransitivity; [exact (Cx [i] k [] eq_refl)|].
          apply Nat.ltb_lt in Hk. rewrite Hk. reflexivity.
        + intros i. f_equal. symmetry. exact (Cx [i] 10 [] eq_refl).
        + intros i k Hk. f_equal. symmetry. etransitivity; [exact (Cx [i] (11 + k) [] eq_refl)|].
          replace (11 + k <? 10) with false by (symmetry; apply Nat.ltb_ge; lia).
          replace (11 + k <? 10 + 1) with false by (symmetry; apply Nat.ltb_ge; lia).
          replace (11 + k - 10 - 1) with k by lia. reflexivity.
    Qed.

    Lemma agg_light f dt : In (f, dt) light_types -> exists x, get a (light_key "all" f) = Some x /\ dims x = [91; L] /\
      (forall k l, k < 10 -> value o (light_key "past" f) [k; l] = Some (cell x [k; l])) /\
      (forall l, value o (light_key "current" f) [0; l] = Some (cell x [10; l])) /\
      (forall k l, k < 80 -> value o (light_key "future" f) [k; l] = Some (cell x [11 + k; l])).
    Proof.
      intros Hf. destruct (aggregate_spec o a parsed_NoDup Ha) as (_ & J & _).
      destruct (parsed_light f dt "past" 10 ltac:(t3) Hf) as (p & P1 & P2 & _).
      destruct (parsed_light f dt "current" 1 ltac:(t3) Hf) as (c & C1 & C2 & _).
      destruct (parsed_light f dt "future" 80 ltac:(t3) Hf) as (u & U1 & U2 & _).
      destruct (J "traffic_light_state"%string f) as (p' & c' & u' & x & P1' & C1' & U1' & X & Jn).
      - auto.
      - intros E. change (get o (light_key "current" f) = None) in E. congruence.
      - apply parsed_no_key. exact (proj2 (standard_no_all _ _ _ _ _ _ Hfd) f dt Hf).
      - change (get o (light_key "past" f) = Some p') in P1'. change (get o (light_key "current" f) = Some c') in C1'.
        change (get o (light_key "future" f) = Some u') in U1'.
        assert (p' = p) by congruence. assert (c' = c) by congruence. assert (u' = u) by congruence. subst p' c' u'.
        destruct Jn as (before & kp & kc & kf & behind & Lb & Dp & Dc & Du & Dx & Cx).
        replace (axes_behind_time "traffic_light_state" f) with 1 in Lb
          by (clear - Hf; repeat (destruct Hf as [Hf|Hf]); try contradiction; injection Hf as <- _; reflexivity).
        destruct behind as [|l0 [|]]; try discriminate.
        rewrite P2 in Dp. destruct before as [|b0 [|]]; try discriminate.
        2:{ destruct l; discriminate. }
        cbn in Dp. injection Dp as <- <-. rewrite C2 in Dc. cbn in Dc. injection Dc as <-.
        rewrite U2 in Du. cbn in Du. injection Du as <-.
        exists x. split; [exact X|]. split; [exact Dx|]. unfold value. rewrite P1, C1, U1. cbn [option_map]. split; [|split].
        + intros k l Hk. f_equal. symmetry. etransitivity; [exact (Cx [] k [l] eq_refl)|].
          apply Nat.ltb_lt in Hk. rewrite Hk. reflexivity.
        + intros l. f_equal. symmetry. exact (Cx [] 10 [l] eq_refl).
        + intros k l Hk. f_equal. symmetry. etransitivity; [exact (Cx [] (11 + k) [l] eq_refl)|].
          replace (11 + k <? 10) with false by (symmetry; apply Nat.ltb_ge; lia).
          replace (11 + k <? 10 + 1) with false by (symmetry; apply Nat.ltb_ge; lia).
          replace (11 + k - 10 - 1) with k by lia. reflexivity.
    Qed.

    (** Keys that are not split by time stay. *)
    Lemma agg_other k v : get o k = Some v ->
      (forall f, k <> ("state/past/" ++ f)%string /\ k <> ("state/current/" ++ f)%string /\ k <> ("state/future/" ++ f)%string /\
         k <> ("traffic_light_state/past/" ++ f)%string /\ k <> ("traffic_light_state/current/" ++ f)%string /\
         k <> ("traffic_light_state/future/" ++ f)%string) -> get a k = Some v.
    Proof.
      intros Hk Hn. destruct (aggregate_spec o a parsed_NoDup Ha) as (_ & _ & _ & K & _). apply K; auto.
      intros (kind & f & time & Hkind & Htime & -> & _). destruct (Hn f) as (N1 & N2 & N3 & N4 & N5 & N6).
      destruct Hkind as [-> | ->], Htime as [-> |[-> | ->]]; [apply N1|apply N2|apply N3|apply N4|apply N5|apply N6]; reflexivity.
    Qed.

    Lemma strip_ne p k : strip p k = None -> forall f, k <> (p ++ f)%string.
    Proof. intros H f ->. rewrite strip_app in H. discriminate. Qed.

    Lemma agg_keep k ft : In (k, ft) fd ->
      (forall p, In p ["state/past/"; "state/current/"; "state/future/"; "traffic_light_state/past/";
                       "traffic_light_state/current/"; "traffic_light_state/future/"]%string -> strip p k = None) ->
      get a k = get o k.
    Proof.
      intros Hin H. destruct (parsed_get _ _ Hin) as (v & Hv & _). rewrite Hv. apply agg_other; auto.
      intros f. repeat split; apply strip_ne; apply H; cbn; tauto.
    Qed.

    Context (r : dict).
    Hypothesis (Hr : preprocess_womd_example o true None = Ok r).

    Lemma pre_keep : aggregate_time_tensors o = Ok a /\
      (forall k, k <> "state/all/bbox_yaw"%string -> get r k = get a k) /\
      exists y w, get a "state/all/bbox_yaw" = Some y /\ get r "state/all/bbox_yaw" = Some w /\ dims w = dims y /\
        forall idx, cell w idx = wrap_val (cell y idx).
    Proof.
      destruct (preprocess_None o true r Hr) as (a' & y & w & A & Y & W & D & C & K).
      assert (a' = a) by congruence. subst a'. split; [exact A|]. split; [exact K|]. exists y, w. auto.
    Qed.

    Lemma pre_shapes : traj_shapes r "all" n 91 /\ road_shapes r N /\ light_shapes r "all" L 91 /\ meta_shapes r n.
    Proof.
      destruct pre_keep as (_ & K & y & w & Y & W & D & _).
      assert (St : traj_shapes r "all" n 91).
      { intros f Hf. assert (Q : exists dt, In (f, dt) frame_types).
        { cbn in Hf. repeat (destruct Hf as [<-|Hf]); try contradiction; eexists; cbn; tauto. }
        destruct Q as [dt Q]. destruct (agg_state f dt Q) as (x & X & Dx & _).
        destruct (String.eqb_spec f "bbox_yaw") as [->|Ne].
        - exists w. split; [exact W|]. rewrite D. change (get a "state/all/bbox_yaw" = Some x) in X. congruence.
        - exists x. split; [|exact Dx]. rewrite K; [exact X|]. intros E. apply Ne. exact (append_inj_l "state/all/" _ _ E). }
      assert (Kf : forall k ft, In (k, ft) fd -> k <> "state/all/bbox_yaw"%string ->
        (forall p, In p ["state/past/"; "state/current/"; "state/future/"; "traffic_light_state/past/";
                       "traffic_light_state/current/"; "traffic_light_state/future/"]%string -> strip p k = None) ->
        has r k (ft_shape ft)).
      { intros k ft Hin Ne Hs. destruct (parsed_get _ _ Hin) as (v & Hv & Dv & _). exists v. split; [|exact Dv].
        rewrite K by auto. rewrite (agg_keep k ft) by auto. exact Hv. }
      destruct (standard_Ok _ _ _ _ _ _ Hfd) as (_ & _ & Hm & _).
      destruct (standard_light _ _ _ _ _ _ Hfd) as (_ & _ & Hg).
      split; [exact St|split; [|split]].
      - assert (Q : forall k c dt, In (k, c, dt) [("roadgraph_samples/xyz", 3, DFloat); ("roadgraph_samples/dir", 3, DFloat);
           ("roadgraph_samples/type", 1, DInt); ("roadgraph_samples/id", 1, DInt); ("roadgraph_samples/valid", 1, DInt)]%string -> has r k [N; c]).
        { intros k c dt Hk. apply (Kf k (mkfeat [N; c] dt)); [now apply Hg| |];
          repeat (destruct Hk as [Hk|Hk]); try contradiction; injection Hk as <- _ _; try discriminate;
          intros p Hp; repeat (destruct Hp as [<-|Hp]); try contradiction; reflexivity. }
        repeat split; eapply Q; cbn; eauto 10.
      - intros f Hf. assert (Q : exists dt, In (f, dt) light_types).
        { cbn in Hf. repeat (destruct Hf as [<-|Hf]); try contradiction; eexists; cbn; tauto. }
        destruct Q as [dt Q]. destruct (agg_light f dt Q) as (x & X & Dx & _).
        exists x. split; [|exact Dx]. rewrite K; [exact X|]. intros E. discriminate E.
      - intros k Hk.
        assert (Q : exists dt, In (k, dt) [("state/id", DFloat); ("state/type", DFloat); ("state/is_sdc", DInt);
          ("state/tracks_to_predict", DInt); ("state/objects_of_interest", DInt)]%string).
        { repeat (destruct Hk as [<-|Hk]); try contradiction; eexists; cbn; tauto. }
        destruct Q as [dt Q]. apply (Kf k (mkfeat [n] dt)); [now apply Hm| |];
          repeat (destruct Hk as [<-|Hk]); try contradiction; try discriminate;
          intros p Hp; repeat (destruct Hp as [<-|Hp]); try contradiction; reflexivity.
    Qed.
  End Example.

  (** Parse, preprocess, load, reset to step 10 and export. *)
  Lemma end_to_end n N L np nk fd o ty inj :
    0 < n -> get_features_description n N false np nk L = Ok fd -> parsed fd o ->
    exists r s0 s out,
      preprocess_womd_example o true None = Ok r /\
      simulator_state_from_womd_dict r false "all" = Ok s0 /\
      env_reset (mkcfg n 11 ty inj) s0 = Ok s /\
      simulator_state_to_womd_dict s fd true = Ok out /\
      forall time steps, In (time, steps) [("past", 10); ("current", 1)]%string -> forall k, k < steps ->
        (forall f i, In f ["x"; "y"; "z"; "velocity_x"; "velocity_y"; "timestamp_micros"]%string -> i < n ->
           value out (state_key time f) [i; k] = value o (state_key time f) [i; k]) /\
        (forall i, i < n -> bool_at out (state_key time "valid") [i; k] = bool_at o (state_key time "valid") [i; k]) /\
        (forall i, i < n -> exists y, value o (state_key time "bbox_yaw") [i; k] = Some (VF y) /\
           value out (state_key time "bbox_yaw") [i; k] = Some (VF (wrap_yaws y))) /\
        (forall f l, In f ["x"; "y"; "z"; "state"; "id"]%string -> l < L ->
           value out (light_key time f) [k; l] = value o (light_key time f) [k; l]) /\
        (forall l, l < L -> bool_at out (light_key time "valid") [k; l] = bool_at o (light_key time "valid") [k; l]).
  Proof.
    intros Hn Hfd Ho.
    destruct (proj1 (aggregate_succeeds o) (parsed_complete false n N L np nk fd o Hfd Ho)) as (a & Ha).
    assert (Er : exists r, preprocess_womd_example o true None = Ok r).
    { unfold preprocess_womd_example. rewrite Ha. cbn [bind].
      destruct (agg_state false n N L np nk fd o Hfd Ho a Ha "bbox_yaw" DFloat) as (x & X & _); [cbn; tauto|].
      change (get a "state/all/bbox_yaw" = Some x) in X. unfold getk. rewrite X. cbn [bind]. eauto. }
    destruct Er as (r & Hr). exists r.
    destruct (pre_shapes false n N L np nk fd o Hfd Ho a Ha r Hr) as (Sh & Shr & Shl & Shm).
    assert (Ld : loadable r false "all").
    { split; [cbn; tauto|]. split; [eauto|]. split; [eauto|]. split; [eauto|].
      split; [exists n, 91; split; [exact Sh|lia]|discriminate]. }
    destruct (proj1 (load_iff r false "all") Ld) as (s0 & Hs0). exists s0.
    destruct (load_Ok _ _ _ _ Hs0) as (_ & _ & (n' & T' & Sh' & _ & Elog & _) & Htl & Hms & (rg & Erg & Hrg) & _).
    assert (En : n' = n /\ T' = 91).
    { assert (Q : [n'; T'] = [n; 91]) by (eapply has_inj; [apply (Sh' "x"%string)|apply (Sh "x"%string)]; cbn; tauto).
      injection Q as -> ->. auto. }
    destruct En as [-> ->]. clear Sh'.
    destruct (lights_from_Ok _ _ _ Htl) as (_ & L' & T' & Shl' & Rl & Pl).
    assert (El : L' = L /\ T' = 91).
    { assert (Q : [T'; L'] = [91; L]) by (eapply has_inj; [apply (Shl' "x"%string)|apply (Shl "x"%string)]; cbn; tauto).
      injection Q as -> ->. auto. }
    destruct El as [-> ->]. clear Shl'.
    destruct (meta_from_Ok _ _ Hms) as [Shm' _].
    assert (Lm : length (s_meta s0) = n).
    { assert (Q : [length (s_meta s0)] = [n]) by (eapply has_inj; [apply (Shm' "state/id"%string)|apply (Shm "state/id"%string)]; cbn; tauto).
      injection Q as ->. auto. }
    destruct (road_from_Ok _ _ Hrg) as [(Shr' & _) _]. destruct Shr as (Shr & _).
    assert (Ln : length rg = N) by (pose proof (has_inj _ _ _ _ Shr' Shr) as Q; congruence).
    assert (Rlog : rect n 91 (s_log s0)) by (rewrite Elog; apply rect_tab2).
    destruct (env_reset_total n 91 (mkcfg n 11 ty inj) s0 Rlog eq_refl) as (s & Hs); [cbn; lia|]. exists s.
    destruct (env_reset_Ok n 91 _ _ _ Rlog Hn Hs) as (_ & _ & Rs & (_ & Es2 & Es3 & _ & Es5) & Et & Esim).
    cbn [c_init_steps] in Et, Esim.
    assert (Sc : scene n L 91 10 s).
    { split; [exact Rs|]. split; [now rewrite Es2|]. split; [congruence|]. split; [exact Et|]. lia. }
    destruct (export_standard s n N np nk L 91 10 fd true rg Hfd Sc) as (out & Hout); try congruence; try lia.
    exists out. do 4 (split; [assumption|]).
    destruct (standard_Ok _ _ _ _ _ _ Hfd) as (Nd & Hkey & _ & Hyaw & _).
    destruct (standard_light _ _ _ _ _ _ Hfd) as (Hlk & _).
    destruct (export_all s fd true out n L 91 10 _ [n] 10 0 Nd Sc Hyaw eq_refl eq_refl Hout)
      as (_ & _ & _ & Xc & Xp & Yc & Yp & _).
    destruct (pre_keep o a Ha r Hr) as (_ & K & y & w & Y & W & Dw & Cw).
    intros time steps Hts k Hk.
    assert (Hts' : In (time, steps) time_steps) by (cbn in Hts |- *; tauto).
    (* the step in the simulated trajectory *)
    assert (J : exists j, j < 11 /\
      (forall f g dt i, In (f, g) frame_values -> In (f, dt) frame_types -> i < n ->
         value out (state_key time f) [i; k] = Some (cast dt (g (frame_of r "all" 91 i j)))) /\
      (forall f g dt l x, In (f, g) light_values -> In (f, dt) light_types -> at2 (s_tls s0) l j = Some x ->
         value out (light_key time f) [k; l] = Some (cast dt (g x))) /\
      (forall f dt, In (f, dt) frame_types -> exists x, get a (state_key "all" f) = Some x /\
         forall i, value o (state_key time f) [i; k] = Some (cell x [i; j])) /\
      (forall f dt, In (f, dt) light_types -> exists x, get a (light_key "all" f) = Some x /\
         forall l, value o (light_key time f) [k; l] = Some (cell x [j; l]))).
    { assert (At : forall i j, i < n -> j < 11 -> at2 (s_sim s) i j = Some (frame_of r "all" 91 i j)).
      { intros i j Hi Hj. rewrite Esim by lia. destruct (Nat.ltb_spec j 11); [|lia]. rewrite Elog, at2_tab2.
        destruct (Nat.ltb_spec i n), (Nat.ltb_spec j 91); try lia. reflexivity. }
      destruct Hts as [Hts|[Hts|[]]]; injection Hts as <- <-.
      - exists k. split; [lia|]. split; [|split; [|split]].
        + intros f g dt i Hf Hd Hi. apply (Xp f g dt i k); auto; try (apply Hkey; auto; fail); apply At; lia.
        + intros f g dt l x Hf Hd Hx. apply (Yp f g dt l k); auto; try (apply Hlk; auto; fail); rewrite Es2; exact Hx.
        + intros f dt Hf. destruct (agg_state false n N L np nk fd o Hfd Ho a Ha f dt Hf) as (x & X & _ & V & _).
          exists x. split; auto.
        + intros f dt Hf. destruct (agg_light false n N L np nk fd o Hfd Ho a Ha f dt Hf) as (x & X & _ & V & _).
          exists x. split; auto.
      - replace k with 0 by lia. exists 10. split; [lia|]. split; [|split; [|split]].
        + intros f g dt i Hf Hd Hi. apply (Xc f g dt i 0); auto; try (apply Hkey; auto; fail); apply At; lia.
        + intros f g dt l x Hf Hd Hx. apply (Yc f g dt l 0); auto; try (apply Hlk; auto; fail); rewrite Es2; exact Hx.
        + intros f dt Hf. destruct (agg_state false n N L np nk fd o Hfd Ho a Ha f dt Hf) as (x & X & _ & _ & V & _).
          exists x. split; auto.
        + intros f dt Hf. destruct (agg_light false n N L np nk fd o Hfd Ho a Ha f dt Hf) as (x & X & _ & _ & V & _).
          exists x. split; auto. }
    destruct J as (j & Hj & Jf & Jl & Of & Ol).
    assert (Ty : forall f dt i v, In (f, dt) frame_types -> value o (state_key time f) [i; k] = Some v -> typed dt v).
    { intros f dt i v Hf Hv. destruct (parsed_state false n N L np nk fd o Hfd Ho f dt time steps Hts' Hf) as (b & B & _ & Tb).
      unfold value in Hv. rewrite B in Hv. injection Hv as <-. apply Tb. }
    assert (Tl : forall f dt l v, In (f, dt) light_types -> value o (light_key time f) [k; l] = Some v -> typed dt v).
    { intros f dt l v Hf Hv. destruct (parsed_light false n N L np nk fd o Hfd Ho f dt time steps Hts' Hf) as (b & B & _ & Tb).
      unfold value in Hv. rewrite B in Hv. injection Hv as <-. apply Tb. }
    assert (Ar : forall f dt i, In (f, dt) frame_types -> f <> "bbox_yaw"%string ->
       value o (state_key time f) [i; k] = Some (arr r (state_key "all" f) [i; j])).
    { intros f dt i Hf Ne. destruct (Of f dt Hf) as (x & X & V). rewrite V. f_equal. symmetry. apply arr_value.
      unfold value. rewrite K, X; [reflexivity|]. intros E. apply Ne. exact (append_inj_l "state/all/" _ _ E). }
    assert (Al : forall f dt l, In (f, dt) light_types ->
       value o (light_key time f) [k; l] = value r (light_key "all" f) [j; l]).
    { intros f dt l Hf. destruct (Ol f dt Hf) as (x & X & V). rewrite V. unfold value. rewrite K, X; [reflexivity|]. discriminate. }
    assert (Lp : forall l, l < L -> exists x, at2 (s_tls s0) l j = Some x /\ is_light r "all" l j x).
    { intros l Hl. destruct (rect_at2 _ _ _ l j Rl Hl) as [x Hx]; [lia|]. eauto. }
    split; [|split; [|split; [|split]]].
    - intros f i Hf Hi.
      assert (Q : exists g dt, In (f, g) frame_values /\ In (f, dt) frame_types /\ f <> "bbox_yaw"%string /\
         (typed dt (arr r (state_key "all" f) [i; j]) -> cast dt (g (frame_of r "all" 91 i j)) = arr r (state_key "all" f) [i; j])).
      { repeat (destruct Hf as [<-|Hf]); try contradiction;
          (eexists _, _; split; [cbn; eauto 15|split; [cbn; eauto 15|split; [discriminate|]]]; cbn;
           destruct (arr r _ _); cbn; tauto). }
      destruct Q as (g & dt & Q1 & Q2 & Q3 & Q4). rewrite (Jf f g dt i Q1 Q2 Hi), (Ar f dt i Q2 Q3). f_equal. apply Q4.
      apply (Ty f dt i); [exact Q2|]. now apply (Ar f dt i).
    - intros i Hi. unfold bool_at. rewrite (Jf "valid"%string (fun p => VB (p_valid p)) DInt i) by (try assumption; cbn; tauto).
      rewrite (Ar "valid"%string DInt i) by (cbn; try tauto; discriminate). cbn. destruct (as_b _); reflexivity.
    - intros i Hi. destruct (Of "bbox_yaw"%string DFloat) as (x & X & V); [cbn; tauto|].
      pose proof (Ty "bbox_yaw"%string DFloat i _ ltac:(cbn; tauto) (V i)) as Tv.
      assert (x = y) by (change (get a "state/all/bbox_yaw" = Some x) in X; congruence). subst x.
      destruct (cell y [i; j]) as [q| |] eqn:Eq; cbn in Tv; try contradiction. exists q. split; [rewrite V, Eq; reflexivity|].
      rewrite (Jf "bbox_yaw"%string (fun p => VF (p_yaw p)) DFloat i) by (try assumption; cbn; tauto).
      assert (Ay : arr r (state_key "all" "bbox_yaw") [i; j] = VF (wrap_yaws q)).
      { apply arr_value. unfold value. change (get r (state_key "all" "bbox_yaw")) with (get r "state/all/bbox_yaw").
        rewrite W. cbn [option_map]. rewrite Cw, Eq. reflexivity. }
      cbn [cast as_f frame_of p_yaw]. cbv zeta. rewrite Ay. reflexivity.
    - intros f l Hf Hl. destruct (Lp l Hl) as (x & Hx & (Q1 & Q2 & Q3 & Q4 & Q5 & Q6)).
      unfold float_at, int_at in *.
      repeat (destruct Hf as [<-|Hf]); try contradiction;
      [ rewrite (Jl "x"%string (fun l => VF (tl_x l)) DFloat l x) by (try assumption; cbn; tauto)
      | rewrite (Jl "y"%string (fun l => VF (tl_y l)) DFloat l x) by (try assumption; cbn; tauto)
      | rewrite (Jl "z"%string (fun l => VF (tl_z l)) DFloat l x) by (try assumption; cbn; tauto)
      | rewrite (Jl "state"%string (fun l => VI (tl_state l)) DInt l x) by (try assumption; cbn; tauto)
      | rewrite (Jl "id"%string (fun l => VI (tl_lane l)) DInt l x) by (try assumption; cbn; tauto) ];
      match goal with |- _ = value o (light_key time ?f) _ =>
        first [ pose proof (Tl f DFloat l) as T; rewrite (Al f DFloat l) in T |- * by (cbn; tauto)
              | pose proof (Tl f DInt l) as T; rewrite (Al f DInt l) in T |- * by (cbn; tauto) ];
        destruct (value r (light_key "all" f) [j; l]) as [v|]; [|discriminate];
        specialize (T v ltac:(cbn; tauto) eq_refl); destruct v; try contradiction; cbn in *; congruence end.
    - intros l Hl. destruct (Lp l Hl) as (x & Hx & (_ & _ & _ & _ & _ & Q6)).
      unfold bool_at in *. rewrite (Jl "valid"%string (fun l => VB (tl_valid l)) DInt l x) by (try assumption; cbn; tauto).
      rewrite (Al "valid"%string DInt l) by (cbn; tauto). rewrite Q6. cbn. destruct (tl_valid x); reflexivity.
  Qed.
End E2E.
