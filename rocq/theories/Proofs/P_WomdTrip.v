(** Lemmas for loading what was exported, and exporting what was loaded. *)
From Coq Require Import String.
From Coq Require Import List ZArith Bool Arith Lia.
From Coq Require Import Reals Lra.
From Verif.Lib Require Import Base JaxIndex Scalar XR.
From Verif.Model Require Import Operations State Metrics Masked Womd WomdState BaseEnv.
From Verif.Spec Require Import StateSpec WomdSpec DictSpec MaskSpec.
From Verif.Proofs Require Import Core P_Womd P_WomdState P_WomdExport P_Masked.
Import ListNotations.
Local Open Scope nat_scope.

Fixpoint distinct (l : list string) : bool :=
  match l with [] => true | a :: r => negb (existsb (String.eqb a) r) && distinct r end.
Lemma distinct_NoDup l : distinct l = true -> NoDup l.
Proof.
  induction l as [|a l IH]; cbn; intros H; constructor; apply andb_true_iff in H as [H1 H2]; auto.
  intros Hin. apply existsb_key in Hin. rewrite Hin in H1. discriminate.
Qed.

Section Trip.
  Context {S : Scalar}.

  Definition frame_types : list (string * dtype) :=
    [("bbox_yaw", DFloat); ("height", DFloat); ("length", DFloat); ("timestamp_micros", DInt);
     ("valid", DInt); ("vel_yaw", DFloat); ("speed", DFloat); ("velocity_x", DFloat);
     ("velocity_y", DFloat); ("width", DFloat); ("x", DFloat); ("y", DFloat); ("z", DFloat)]%string.

  Ltac standard H := unfold get_features_description in H;
    match type of H with context [if ?b then _ else _] => destruct b end;
    [match type of H with context [match ?p with Some _ => _ | None => _ end] => destruct p; [|discriminate H] end;
     match type of H with context [match ?k with Some _ => _ | None => _ end] => destruct k; [|discriminate H] end|];
    cbn [bind] in H; apply Ok_eq in H; subst.

  Lemma standard_Ok {paths} n N np nk L fd : get_features_description n N paths np nk L = Ok fd ->
    NoDup (map fst fd) /\
    (forall time steps f dt, In (time, steps) [("past", 10); ("current", 1); ("future", 80)]%string ->
       In (f, dt) frame_types -> In (state_key time f, mkfeat [n; steps] dt) fd) /\
    (forall k dt, In (k, dt) [("state/id", DFloat); ("state/type", DFloat); ("state/is_sdc", DInt);
       ("state/tracks_to_predict", DInt); ("state/objects_of_interest", DInt)]%string -> In (k, mkfeat [n] dt) fd) /\
    getf fd "state/past/bbox_yaw" = Ok (mkfeat [n; 10] DFloat) /\
    getf fd "state/future/valid" = Ok (mkfeat [n; 80] DInt).
  Proof.
    intros H. standard H; (split; [apply distinct_NoDup; vm_compute; reflexivity|]);
    (split; [|split; [|split; reflexivity]]);
    first [intros time steps f dt Ht Hf;
      repeat (destruct Ht as [Ht|Ht]); try contradiction; injection Ht as <- <-;
        repeat (destruct Hf as [Hf|Hf]); try contradiction; injection Hf as <- <-; apply getf_In; reflexivity
     |intros k dt Hk; repeat (destruct Hk as [Hk|Hk]); try contradiction; injection Hk as <- <-; apply getf_In; reflexivity].
  Qed.

  (** Objects written and read again. *)
  Definition reloaded (m : meta) : meta :=
    if m_is_valid m
    then mkmeta (m_id m) (m_type m) (m_is_sdc m) (m_is_modeled m) true (m_interest m) false
    else mkmeta (-1) (-1) false false false false false.

  Lemma meta_trip s n N np nk L T t fd val out :
    get_features_description n N false np nk L = Ok fd -> scene n L T t s ->
    (forall z, z = (-1)%Z \/ (exists m, In m (s_meta s) /\ (z = m_id m \/ z = m_type m)) -> ftrunc (fofZ z) = z) ->
    simulator_state_to_womd_dict s fd val = Ok out ->
    object_metadata_from_womd_dict out = Ok (map reloaded (s_meta s)).
  Proof.
    intros Hfd Sc Hz H. destruct (standard_Ok _ _ _ _ _ _ Hfd) as (Nd & _ & Hk & Hy & _).
    pose proof Sc as (_ & _ & Lm & _).
    destruct (export_all s fd val out n L T t _ [n] 10 _ Nd Sc Hy eq_refl eq_refl H)
      as (_ & _ & Hh & _ & _ & _ & _ & _ & _ & Hm & _).
    assert (Sh : meta_shapes out n).
    { intros k Hin. repeat (destruct Hin as [<-|Hin]); try contradiction;
      [apply (Hh _ (mkfeat [n] DInt))|apply (Hh _ (mkfeat [n] DInt))|apply (Hh _ (mkfeat [n] DInt))
      |apply (Hh _ (mkfeat [n] DFloat))|apply (Hh _ (mkfeat [n] DFloat))]; apply Hk; cbn; tauto. }
    destruct (meta_from_total _ _ Sh) as (ms & E). rewrite E. f_equal.
    destruct (meta_from_Ok _ _ E) as [Sh' Ho].
    assert (Ln : length ms = n).
    { destruct (Sh "state/id"%string) as (a & Ea & Da); [cbn; tauto|].
      destruct (Sh' "state/id"%string) as (b & Eb & Db); [cbn; tauto|].
      assert (b = a) by congruence. subst b. congruence. }
    apply nth_error_ext_eq. intros i.
    rewrite nth_error_map. destruct (nth_error (s_meta s) i) as [m|] eqn:Em.
    2:{ apply nth_error_None in Em. apply nth_error_None. lia. }
    cbn [option_map]. pose proof (nth_error_Some_lt _ _ _ Em) as Hi.
    destruct (nth_error_lt_Some ms i) as [m' Em']; [lia|]. rewrite Em'. f_equal.
    destruct (Ho _ _ Em') as (O1 & O2 & O3 & O4 & O5 & O6 & O7).
    unfold int_at in *.
    rewrite (Hm _ m_id DFloat i m) in O1 by (try (apply Hk); try assumption; cbn; tauto).
    rewrite (Hm _ m_type DFloat i m) in O2 by (try (apply Hk); try assumption; cbn; tauto).
    rewrite (Hm _ (fun m => if m_is_sdc m then 1 else 0)%Z DInt i m) in O3 by (try (apply Hk); try assumption; cbn; tauto).
    rewrite (Hm _ (fun m => if m_is_modeled m then 1 else 0)%Z DInt i m) in O4 by (try (apply Hk); try assumption; cbn; tauto).
    rewrite (Hm _ (fun m => if m_is_modeled m then 1 else 0)%Z DInt i m) in O5 by (try (apply Hk); try assumption; cbn; tauto).
    rewrite (Hm _ (fun m => if m_interest m then 1 else 0)%Z DInt i m) in O6 by (try (apply Hk); try assumption; cbn; tauto).
    cbn [option_map cast as_i as_f is_int] in *.
    apply nth_error_In in Em. unfold reloaded.
    destruct m' as [a1 a2 a3 a4 a5 a6 a7]; cbn [m_id m_type m_is_sdc m_is_modeled m_is_valid m_interest m_is_controlled] in *.
    destruct m as [b1 b2 b3 b4 [] b6 b7]; cbn [m_id m_type m_is_sdc m_is_modeled m_is_valid m_interest m_is_controlled] in *.
    - rewrite Hz in O1 by (right; eexists; split; [exact Em|left; reflexivity]).
      rewrite Hz in O2 by (right; eexists; split; [exact Em|right; reflexivity]).
      destruct b3, b4, b6, a5; cbn in *; congruence.
    - rewrite Hz in O1 by (left; reflexivity). rewrite Hz in O2 by (left; reflexivity).
      destruct a5; cbn in *; congruence.
  Qed.

  (** The exported past read again. *)
  Lemma past_trip s n N np nk L T t fd val out :
    get_features_description n N false np nk L = Ok fd -> scene n L T t s -> 10 <= t ->
    simulator_state_to_womd_dict s fd val = Ok out ->
    exists tr, trajectory_from_womd_dict out "past" = Ok tr /\ rect n 10 tr /\
      forall i k p q, at2 tr i k = Some q -> at2 (s_sim s) i (t - 10 + k) = Some p ->
        p_x q = p_x p /\ p_y q = p_y p /\ p_z q = p_z p /\ p_vx q = p_vx p /\ p_vy q = p_vy p /\
        p_yaw q = p_yaw p /\ p_valid q = p_valid p /\ p_ts q = p_ts p.
  Proof.
    intros Hfd Sc Ht H. destruct (standard_Ok _ _ _ _ _ _ Hfd) as (Nd & Hk & _ & Hy & _).
    assert (Ns : norm_start (Z.of_nat t - Z.of_nat 10) T 10 = t - 10).
    { destruct Sc as (_ & _ & _ & _ & HtT & _). rewrite norm_start_in; lia. }
    destruct (export_all s fd val out n L T t _ [n] 10 _ Nd Sc Hy eq_refl Ns H) as (_ & _ & Hh & _ & Hp & _).
    assert (HK : forall f dt, In (f, dt) frame_types -> In (state_key "past" f, mkfeat [n; 10] dt) fd)
      by (intros f dt Hf; apply Hk; [left; reflexivity|exact Hf]).
    assert (Sh : traj_shapes out "past" n 10).
    { intros f Hf.
      assert (Q : exists dt, In (f, dt) frame_types).
      { cbn in Hf. repeat (destruct Hf as [<-|Hf]); try contradiction; eexists; cbn; tauto. }
      destruct Q as [dt Q]. apply (Hh _ (mkfeat [n; 10] dt)). now apply HK. }
    exists (tab2 n 10 (frame_of out "past" 10)). split; [now apply traj_from_total|]. split; [apply rect_tab2|].
    intros i k p q Hq Hpt. apply at2_tab2_Some in Hq as (Hi & Hk10 & ->).
    destruct (frame_of_is_frame out "past" n 10 i k Sh) as (Ff & Fb & Fi).
    assert (V : forall f g dt, In (f, g) frame_values -> In (f, dt) frame_types ->
              value out (state_key "past" f) [i; k] = Some (cast dt (g p)))
      by (intros f g dt Hf Hd; apply (Hp f g dt i k p); auto).
    unfold float_at, bool_at, int_at in *.
    assert (X : forall f g g', In (f, g) frame_floats -> In (f, fun p => VF (g' p)) frame_values ->
              In (f, DFloat) frame_types -> g (frame_of out "past" 10 i k) = g' p).
    { intros f g g' H1 H2 H3. specialize (Ff f g H1). rewrite (V _ _ _ H2 H3) in Ff. cbn in Ff. congruence. }
    rewrite (V "valid"%string (fun p => VB (p_valid p)) DInt) in Fb by (cbn; tauto).
    rewrite (V "timestamp_micros"%string (fun p => VI (p_ts p)) DInt) in Fi by (cbn; tauto).
    cbn [option_map cast as_i as_b] in Fb, Fi.
    repeat split; [apply (X "x"%string)|apply (X "y"%string)|apply (X "z"%string)|apply (X "velocity_x"%string)
      |apply (X "velocity_y"%string)|apply (X "bbox_yaw"%string)| |congruence]; try (cbn; tauto).
    injection Fb as Fb. etransitivity; [symmetry; exact Fb|]. destruct (p_valid p); reflexivity.
  Qed.

  (** The exported future, -1 everywhere, read again. *)
  Lemma future_trip s n N np nk L T t fd val out :
    get_features_description n N false np nk L = Ok fd -> scene n L T t s ->
    simulator_state_to_womd_dict s fd val = Ok out ->
    (forall f dt i k, In (f, dt) frame_types -> i < n -> k < 80 -> value out (state_key "future" f) [i; k] =
       Some (cast dt (if (String.eqb f "valid" || String.eqb f "timestamp_micros")%bool then VI (-1) else VF fm1))) /\
    exists tr, trajectory_from_womd_dict out "future" = Ok tr /\ rect n 80 tr /\
      forall i k q, at2 tr i k = Some q -> p_valid q = true /\ p_ts q = (-1)%Z /\ p_x q = fm1 /\ p_y q = fm1.
  Proof.
    intros Hfd Sc H. destruct (standard_Ok _ _ _ _ _ _ Hfd) as (Nd & Hk & _ & _ & Hv).
    destruct (export_Ok _ _ _ _ H) as (yaw' & pre' & h' & cur & past & cur_tl & past_tl & rg & fut & fut_tl
      & _ & _ & _ & _ & _ & _ & _ & _ & _ & E10 & E11 & _ & E13). specialize (E13 Nd).
    assert (HK : forall f dt, In (f, dt) frame_types -> In (state_key "future" f, mkfeat [n; 80] dt) fd)
      by (intros f dt Hf; apply Hk; [right; right; left; reflexivity|exact Hf]).
    assert (V : forall f dt i k, In (f, dt) frame_types -> i < n -> k < 80 -> value out (state_key "future" f) [i; k] =
       Some (cast dt (if (String.eqb f "valid" || String.eqb f "timestamp_micros")%bool then VI (-1) else VF fm1))).
    { intros f dt i k Hf Hi Hk80. destruct (E13 _ _ (HK _ _ Hf)) as (v & Hg & _ & _ & Hval).
      destruct (values_future s fd rg h' cur past cur_tl past_tl fut fut_tl E10 E11 f) as (n' & T' & fv & F1 & F2 & a & F3 & F4 & F5).
      { cbn in Hf |- *. repeat (destruct Hf as [Hf|Hf]); try contradiction; injection Hf as <- _; tauto. }
      assert (fv = mkfeat [n; 80] DInt) by congruence. subst fv. injection F2 as <- <-.
      rewrite F3 in Hg. injection Hg as <-. rewrite Hval. cbn [ft_shape ft_dtype]. rewrite F4, reshape_2 by auto.
      rewrite F5 by auto. reflexivity. }
    split; [exact V|].
    assert (Sh : traj_shapes out "future" n 80).
    { intros f Hf. assert (Q : exists dt, In (f, dt) frame_types).
      { cbn in Hf. repeat (destruct Hf as [<-|Hf]); try contradiction; eexists; cbn; tauto. }
      destruct Q as [dt Q]. destruct (E13 _ _ (HK _ _ Q)) as (v & _ & _ & Hh & _). exact Hh. }
    exists (tab2 n 80 (frame_of out "future" 80)). split; [now apply traj_from_total|]. split; [apply rect_tab2|].
    intros i k q Hq. apply at2_tab2_Some in Hq as (Hi & Hk80 & ->).
    destruct (frame_of_is_frame out "future" n 80 i k Sh) as (Ff & Fb & Fi). unfold float_at, bool_at, int_at in *.
    rewrite (V _ DInt) in Fb by (try assumption; cbn; tauto). rewrite (V _ DInt) in Fi by (try assumption; cbn; tauto).
    pose proof (Ff "x"%string p_x ltac:(cbn; tauto)) as Fx. pose proof (Ff "y"%string p_y ltac:(cbn; tauto)) as Fy.
    rewrite (V _ DFloat) in Fx by (try assumption; cbn; tauto). rewrite (V _ DFloat) in Fy by (try assumption; cbn; tauto).
    cbn in Fb, Fi, Fx, Fy. injection Fb as Fb. injection Fi as Fi. injection Fx as Fx. injection Fy as Fy.
    repeat split; cbn; auto.
  Qed.

  (** With the standard description the export succeeds. *)
  Lemma export_standard s n N np nk L T t fd (val : bool) rg :
    get_features_description n N false np nk L = Ok fd -> scene n L T t s -> 10 <= T ->
    s_rg s = Some rg -> length rg = N -> (val = true -> t = 10) ->
    exists out, simulator_state_to_womd_dict s fd val = Ok out.
  Proof.
    intros Hfd Sc HT Hrg HN Hv. pose proof Sc as (Rs & Rl & Lm & Et & Ht & Hn).
    destruct (standard_Ok _ _ _ _ _ _ Hfd) as (Nd & _ & _ & Hy & Hfv).
    cbn [get_features_description bind] in Hfd. apply Ok_eq in Hfd.
    unfold simulator_state_to_womd_dict. rewrite Hy. cbn [bind ft_shape rev app].
    replace (negb val || (s_t s + 1 =? Z.of_nat 10 + 1)%Z) with true.
    2:{ destruct val; auto. cbn [negb orb]. symmetry. apply Z.eqb_eq. rewrite Et, (Hv eq_refl). reflexivity. }
    cbn [guard bind].
    destruct (dynamic_slice_total n T (s_sim s) (s_t s) 1 Rs) as (cur & ->); [lia|]. cbn [bind].
    destruct (dynamic_slice_total n T (s_sim s) (s_t s - Z.of_nat 10) 10 Rs HT) as (past & ->). cbn [bind].
    destruct (dynamic_slice_total L T (s_tls s) (s_t s) 1 Rl) as (cur_tl & E3); [lia|]. rewrite E3. cbn [bind].
    destruct (dynamic_slice_total L T (s_tls s) (s_t s - Z.of_nat 10) 10 Rl HT) as (past_tl & E4). rewrite E4. cbn [bind].
    apply (dynamic_slice_Ok _ _ _ _ _ _ Rl) in E3 as [[L3 _] _]. apply (dynamic_slice_Ok _ _ _ _ _ _ Rl) in E4 as [[L4 _] _].
    rewrite Hrg. cbn [bind].
    replace (1 <=? length (s_sim s)) with true by (symmetry; apply Nat.leb_le; destruct Rs; lia). cbn [guard bind].
    unfold get_invalid_future_trajectory at 1. rewrite Hfv. cbn [bind ft_shape].
    set (fut := dset _ _ _).
    assert (Ef : exists ftl, get_invalid_future_traffic_light fd = Ok ftl) by (subst fd; eexists; reflexivity).
    destruct Ef as (ftl & Ef). rewrite Ef. cbn [bind]. cbv zeta.
    set (values := export_values _ _ _ _ _ _ _ _ _).
    apply mapM_total. intros [name ft] Hin. cbn [fst snd].
    assert (G : exists v, get values name = Some v /\ size (dims v) = size (ft_shape ft)).
    { assert (Hft : get_invalid_future_trajectory fd = Ok fut) by (unfold get_invalid_future_trajectory; rewrite Hfv; reflexivity).
      assert (Ln : length (s_sim s) = n) by apply Rs.
      assert (C : (exists f g time h, In (time, h) [("past", 10); ("current", 1)]%string /\ In (f, g) frame_values /\ name = state_key time f /\ ft_shape ft = [n; h]) \/
        (exists f g time h, In (time, h) [("past", 10); ("current", 1)]%string /\ In (f, g) light_values /\ name = light_key time f /\ ft_shape ft = [h; L]) \/
        (exists time h, In (time, h) [("past", 10); ("current", 1)]%string /\ name = light_key time "timestamp_micros" /\ ft_shape ft = [h]) \/
        (exists g, In (name, g) object_values /\ ft_shape ft = [n]) \/
        (exists gs, In (name, gs) road_values /\ ft_shape ft = [N; length gs]) \/
        (exists f, In f (map fst frame_values) /\ name = state_key "future" f /\ ft_shape ft = [n; 80]) \/
        contains "traffic_light_state/future" name = true).
      { clear - Hfd Hin. subst fd. cbn in Hin.
        repeat (destruct Hin as [Hin|Hin]; [injection Hin as <- <-;
          first [ right; right; right; right; right; right; reflexivity
                | right; right; right; right; left; eexists; split; [cbn; eauto 8|reflexivity]
                | right; right; right; left; eexists; split; [cbn; eauto 8|reflexivity]
                | right; right; left; exists "past"%string, 10; repeat split; cbn; tauto
                | right; right; left; exists "current"%string, 1; repeat split; cbn; tauto
                | left; eexists _, _, "past"%string, 10; split; [cbn; tauto|split; [|split; [reflexivity|reflexivity]]]; cbn; eauto 20
                | left; eexists _, _, "current"%string, 1; split; [cbn; tauto|split; [|split; [reflexivity|reflexivity]]]; cbn; eauto 20
                | right; left; eexists _, _, "past"%string, 10; split; [cbn; tauto|split; [|split; [reflexivity|reflexivity]]]; cbn; eauto 20
                | right; left; eexists _, _, "current"%string, 1; split; [cbn; tauto|split; [|split; [reflexivity|reflexivity]]]; cbn; eauto 20
                | right; right; right; right; right; left; eexists; split; [|split; [reflexivity|reflexivity]]; cbn; tauto ] |]).
        contradiction. }
      subst values. destruct C as [(f & g & time & h & Hth & Hfg & -> & ->)|[(f & g & time & h & Hth & Hfg & -> & ->)|[(time & h & Hth & -> & ->)|[(g & Hg & ->)|[(gs & Hg & ->)|[(f & Hf & -> & ->)|C]]]]]].
      - destruct Hth as [Hth|[Hth|[]]]; injection Hth as <- <-;
          [rewrite (values_past s fd) with (g := g) by auto|rewrite (values_current s fd) with (g := g) by auto];
          (eexists; split; [reflexivity|]; cbn [dims tensor2]; rewrite Ln; reflexivity).
      - destruct Hth as [Hth|[Hth|[]]]; injection Hth as <- <-;
          [rewrite (values_past_light s fd) with (g := g) by auto; rewrite L4|rewrite (values_current_light s fd) with (g := g) by auto; rewrite L3];
          (eexists; split; reflexivity).
      - destruct Hth as [Hth|[Hth|[]]]; injection Hth as <- <-;
          [rewrite (values_past_stamps s fd) by auto|rewrite (values_current_stamps s fd) by auto]; (eexists; split; reflexivity).
      - rewrite (values_meta s fd) with (g := g) by auto. eexists; split; [reflexivity|]. cbn [dims tensor1]. rewrite Lm. reflexivity.
      - destruct (values_road s fd rg 10 cur past cur_tl past_tl fut ftl Hft Ef name gs Hg) as (v & Ev & Dv & _).
        exists v. split; [exact Ev|]. rewrite Dv, HN. assert (Lg : length gs = 3 \/ length gs = 1) by (cbn in Hg; repeat (destruct Hg as [Hg|Hg]); try contradiction; injection Hg as <- <-; cbn; auto).
        destruct Lg as [-> | ->]; cbn; lia.
      - destruct (values_future s fd rg 10 cur past cur_tl past_tl fut ftl Hft Ef f Hf) as (n' & T' & v & V1 & V2 & a & V3 & V4 & _).
        rewrite Hfv in V1. injection V1 as <-. injection V2 as <- <-. exists a. split; [exact V3|]. rewrite V4. reflexivity.
      - destruct (values_future_light s fd rg 10 cur past cur_tl past_tl fut ftl Ef name ft Nd Hin C) as (a & V1 & V2 & _).
        exists a. split; [exact V1|]. now rewrite V2. }
    destruct G as (v & Gv & Gs). unfold getk. rewrite Gv. cbn [bind]. unfold reshape.
    rewrite Gs, Nat.eqb_refl. cbn [guard bind]. eauto.
  Qed.
End Trip.
