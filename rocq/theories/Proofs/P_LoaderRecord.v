(** The state that a record is loaded as. *)
From Coq Require Import String.
From Coq Require Import List ZArith Bool Arith Lia.
From Verif.Lib Require Import Base JaxIndex Scalar.
From Verif.Model Require Import Operations State Geometry Metrics Masked Womd WomdState Batch Loader.
From Verif.Spec Require Import StateSpec WomdSpec DictSpec BatchSpec LoaderSpec.
From Verif.Proofs Require Import Core P_Womd P_WomdState P_WomdExport P_WomdTrip P_WomdE2E P_LoaderOne.
Import ListNotations.
Local Open Scope nat_scope.

Section Record.
  Context {S : Scalar}.
  Notation size := WomdState.size.
  Notation dims := Womd.dims.
  Notation cell := Womd.cell.

  (** ** Preprocessing succeeds on everything that was parsed *)

  Definition solid (d : dict) : Prop := Forall (fun kv : string * tensor => dims (snd kv) <> []) d.

  Lemma solid_dset d k v : solid d -> dims v <> [] -> solid (dset d k v).
  Proof.
    intros H Hv. induction H as [|[a w] d Hw H IH]; cbn [dset]; [repeat constructor; exact Hv|].
    destruct (String.eqb k a); constructor; auto.
  Qed.
  Lemma solid_fold l : solid l -> forall acc, solid acc ->
    solid (fold_left (fun acc kv => dset acc (fst kv) (snd kv)) l acc).
  Proof. induction 1 as [|[a w] l Hw H IH]; intros acc Ha; cbn [fold_left fst snd]; [exact Ha|]. apply IH. now apply solid_dset. Qed.

  Lemma tconcat_solid ax a b x : tconcat ax a b = Ok x -> dims x <> [].
  Proof.
    intros H. apply tconcat_Ok in H as (before & na & nb & behind & _ & _ & _ & ->). cbn [Womd.dims].
    destruct before; discriminate.
  Qed.

  Lemma mapM_Forall {A B} (P : B -> Prop) (f : A -> res B) l x :
    (forall a b, f a = Ok b -> P b) -> mapM f l = Ok x -> Forall P x.
  Proof.
    intros H. revert x. induction l as [|a l IH]; intros x Hx; cbn [mapM] in Hx.
    - apply Ok_eq in Hx. subst. constructor.
    - apply bind_Ok in Hx as (b & Hb & Hx). apply bind_Ok in Hx as (bs & Hbs & Hx). apply Ok_eq in Hx. subst x.
      constructor; eauto.
  Qed.

  Lemma aggregate_solid d r : solid d -> aggregate_time_tensors d = Ok r -> solid r.
  Proof.
    unfold aggregate_time_tensors. cbv zeta. intros L H.
    apply bind_Ok in H as (sts & Hs & H). apply bind_Ok in H as (tls & Ht & H).
    apply bind_Ok in H as (pv & Hpv & H). apply bind_Ok in H as (pl & Hpl & H).
    apply bind_Ok in H as (fv & Hfv & H). apply bind_Ok in H as (fl & Hfl & H). apply Ok_eq in H. subst r.
    assert (Q : forall kind f back kv, aggregate_feature d kind f back = Ok kv -> dims (snd kv) <> []).
    { intros kind f back kv H. unfold aggregate_feature in H.
      apply bind_Ok in H as (p & Hp & H). apply bind_Ok in H as (c & Hc & H). apply bind_Ok in H as (u & Hu & H).
      apply bind_Ok in H as (a & Ha & H). apply Ok_eq in H. subst kv. cbn [snd]. unfold tconcat3 in Ha.
      apply bind_Ok in Ha as (? & _ & Ha). apply bind_Ok in Ha as (pc & Hpc & Ha). eapply tconcat_solid; eauto. }
    apply solid_fold; [|constructor]. apply Forall_app. split; [apply Forall_app; split; [|apply Forall_app; split]|].
    - eapply mapM_Forall; [|exact Hs]. intros a b. apply Q.
    - eapply mapM_Forall; [|exact Ht]. intros a b. apply Q.
    - repeat constructor. discriminate.
    - apply Forall_forall. intros kv Hin. apply filter_In in Hin as [Hin _]. unfold solid in L. rewrite Forall_forall in L. auto.
  Qed.

  Lemma truncate_total z d : solid d -> exists r,
    mapM (fun kv : string * tensor => match strip "state/" (fst kv) with
                    | Some _ => let* v := take_rows z (snd kv) in Ok (fst kv, v)
                    | None => Ok kv
                    end) d = Ok r.
  Proof.
    intros H. apply mapM_total. intros [k v] Hin. unfold solid in H. rewrite Forall_forall in H. specialize (H _ Hin).
    cbn [fst snd] in *. destruct (strip "state/" k); [|eauto]. unfold take_rows. destruct (dims v); [congruence|]. cbn [bind]. eauto.
  Qed.

  Lemma parse_solid paths N np nk fd e o : get_features_description 128 N paths np nk 16 = Ok fd ->
    parse_example (Some e) fd = Ok o -> solid o.
  Proof.
    intros Hfd Ho. pose proof (parse_layout _ _ _ Ho) as L.
    assert (Q : Forall (fun kd : string * list nat => snd kd <> []) (layout o)).
    { rewrite L. apply Forall_forall. intros [k ds] Hin. apply in_map_iff in Hin as ([k' ft] & E & Hin). cbn [fst snd] in E.
      injection E as -> <-. cbn [snd].
      destruct (features_cases _ _ _ _ _ _ _ _ _ Hfd Hin)
        as [(time & steps & f & dt & _ & _ & _ & ->)|[(time & steps & f & dt & _ & _ & _ & ->)|
           [(time & steps & _ & _ & ->)|[(dt & _ & ->)|[(c & dt & _ & ->)|(P & K & _ & Hf)]]]]]; try discriminate.
      repeat (destruct Hf as [Hf|Hf]; [injection Hf as <- <-; discriminate|]). contradiction. }
    unfold layout in Q. rewrite Forall_map in Q. exact Q.
  Qed.

  Lemma preprocess_total paths N np nk fd e o agg mx : get_features_description 128 N paths np nk 16 = Ok fd ->
    parse_example (Some e) fd = Ok o -> exists r, preprocess_womd_example o agg mx = Ok r.
  Proof.
    intros Hfd Ho.
    assert (Nd : NoDup (map fst fd)) by (eapply standard_Ok; eauto).
    pose proof (parse_parsed _ _ _ Ho Nd) as Hp. pose proof (parse_solid _ _ _ _ _ _ _ Hfd Ho) as So.
    assert (Q : exists p, (if agg then let* p := aggregate_time_tensors o in
        let* yaw := getk p "state/all/bbox_yaw" in
        Ok (dset p "state/all/bbox_yaw" (mkT (dims yaw) (fun idx => wrap_val (cell yaw idx)))) else Ok o) = Ok p /\ solid p).
    { destruct agg; [|eauto].
      destruct (proj1 (aggregate_succeeds o) (parsed_complete _ _ _ _ _ _ _ _ Hfd Hp)) as (a & Ha).
      destruct (agg_state _ _ _ _ _ _ _ _ Hfd Hp a Ha "bbox_yaw" DFloat) as (x & X & Dx & _); [cbn; tauto|].
      change (get a "state/all/bbox_yaw" = Some x) in X. unfold getk. rewrite Ha. cbn [bind]. rewrite X. cbn [bind].
      eexists. split; [reflexivity|]. apply solid_dset; [eapply aggregate_solid; eauto|]. cbn [Womd.dims]. rewrite Dx. discriminate. }
    destruct Q as (p & Hpp & Sp). unfold preprocess_womd_example. rewrite Hpp. cbn [bind].
    destruct mx as [z|]; [|eauto]. now apply truncate_total.
  Qed.

  (** A record can be read if and only if it is well formed. *)
  Lemma readable c s : (exists fd, config_features c = Ok fd) ->
    ((exists r, preprocess_serialized c s = Ok r) <->
     exists e, s = Some e /\ well_formed (dc_max_num_rg_points c) (wanted_paths c) e).
  Proof.
    intros (fd & Hfd). unfold preprocess_serialized. rewrite Hfd. cbn [bind]. unfold config_features in Hfd.
    assert (Nd : NoDup (map fst fd)) by (eapply standard_Ok; eauto).
    pose proof (fun e => well_formed_lists _ _ _ _ _ e Hfd) as W. change (asked _ _ _) with (wanted_paths c) in W.
    split.
    - intros (r & H). apply bind_Ok in H as (o & Ho & _). destruct s as [e|]; [|discriminate]. exists e. split; [reflexivity|].
      apply W. eapply parse_all_ok; eauto.
    - intros (e & -> & H). destruct (parse_total e fd (proj1 (W e) H)) as (o & Ho).
      destruct (preprocess_total _ _ _ _ _ _ _ (dc_aggregate c) (dc_max_num_objects c) Hfd Ho) as (r & Hr).
      exists r. etransitivity; [exact (f_equal (fun x => bind x _) Ho)|exact Hr].
  Qed.

  (** ** Values *)

  Section Values.
    Context (paths : bool) (N : nat) (np nk : option nat) (mx : option Z) (fd : features) (e : example) (o r0 r : dict).
    Hypothesis (Hfd : get_features_description 128 N paths np nk 16 = Ok fd) (Ho : parse_example (Some e) fd = Ok o).
    Hypothesis (Hr0 : preprocess_womd_example o true None = Ok r0) (Hr : preprocess_womd_example o true mx = Ok r).

    Lemma Nd : NoDup (map fst fd).
    Proof. eapply standard_Ok; eauto. Qed.
    Lemma Hp : parsed fd o.
    Proof. exact (parse_parsed _ _ _ Ho Nd). Qed.

    Lemma kept_stop z : py_stop z 128 = kept (Some z).
    Proof. unfold py_stop, kept. destruct (Z.ltb_spec z 0); [lia|reflexivity]. Qed.

    Lemma cut_state k v rest : strip "state/" k <> None -> get r0 k = Some v -> dims v = 128 :: rest ->
      exists w, get r k = Some w /\ dims w = kept mx :: rest /\ cell w = cell v.
    Proof.
      intros Hk Hv D. destruct mx as [z|].
      - destruct (preprocess_Some _ _ _ _ Hr) as (r0' & Hr0' & Q). assert (r0' = r0) by congruence. subst r0'.
        specialize (Q k). rewrite Hv in Q. destruct (get r k) as [w|]; [|contradiction].
        destruct (strip "state/" k); [|congruence]. destruct Q as (sz & rs & D1 & D2 & E). exists w.
        rewrite D in D1. injection D1 as <- <-. rewrite <- kept_stop. auto.
      - assert (r = r0) by congruence. subst r. eauto.
    Qed.
    Lemma cut_other k : strip "state/" k = None -> get r k = get r0 k.
    Proof.
      intros Hk. destruct mx as [z|]; [|congruence].
      destruct (preprocess_Some _ _ _ _ Hr) as (r0' & Hr0' & Q). assert (r0' = r0) by congruence. subst r0'.
      specialize (Q k). rewrite Hk in Q. destruct (get r0 k), (get r k); try contradiction; congruence.
    Qed.

    Lemma o_entry name ft idx : In (name, ft) fd -> ravel (ft_shape ft) idx < size (ft_shape ft) ->
      entry_of ft e name (ravel (ft_shape ft) idx) = value o name idx.
    Proof.
      intros Hin Hi. destruct (parse_In _ _ _ _ _ Ho Nd Hin) as (t & G & Ht).
      destruct (parse_feature_value _ _ _ _ Ht) as (_ & _ & V). unfold value. rewrite G. now apply V.
    Qed.

    Lemma agg_ex : exists a, aggregate_time_tensors o = Ok a.
    Proof. apply aggregate_succeeds. exact (parsed_complete _ _ _ _ _ _ _ _ Hfd Hp). Qed.

    Lemma part_cases part steps from (Q : nat -> nat -> Prop) : In (part, steps, from) parts ->
      (part = "past" /\ steps = 10 /\ from = 0 \/ part = "current" /\ steps = 1 /\ from = 10 \/
       part = "future" /\ steps = 80 /\ from = 11)%string.
    Proof. intros H. repeat (destruct H as [H|H]; [injection H as <- <- <-; tauto|]). contradiction. Qed.

    Lemma r0_state f dt : In (f, dt) frame_types -> exists x, get r0 (state_key "all" f) = Some x /\ dims x = [128; 91] /\
      forall part steps from i k, In (part, steps, from) parts -> i < 128 -> k < steps ->
        option_map (if String.eqb f "bbox_yaw" then wrap_val else fun v => v)
          (entry_of (mkfeat [128; steps] dt) e (state_key part f) (i * steps + k)) = Some (cell x [i; from + k]).
    Proof.
      intros Hf. destruct agg_ex as (a & Ha).
      destruct (pre_keep o a Ha r0 Hr0) as (_ & K & y & w & Y & W & D & C).
      destruct (agg_state _ _ _ _ _ _ _ _ Hfd Hp a Ha f dt Hf) as (x & X & Dx & V1 & V2 & V3).
      assert (En : forall part steps from i k, In (part, steps, from) parts -> i < 128 -> k < steps ->
        entry_of (mkfeat [128; steps] dt) e (state_key part f) (i * steps + k) = Some (cell x [i; from + k])).
      { intros part steps from i k Hpt Hi Hk.
        assert (Hin : In (state_key part f, mkfeat [128; steps] dt) fd).
        { destruct (standard_Ok _ _ _ _ _ _ Hfd) as (_ & Hs & _). apply Hs; [|exact Hf]. now apply parts_steps in Hpt. }
        pose proof (o_entry _ _ [i; k] Hin) as E. cbn [ft_shape ravel] in E.
        replace (i * size [steps] + (k * size [] + 0)) with (i * steps + k) in E by (rewrite size1; unfold size; cbn [fold_right]; lia).
        rewrite E by (rewrite size2; nia).
        destruct (part_cases _ _ _ (fun _ _ => True) Hpt) as [(-> & -> & ->)|[(-> & -> & ->)|(-> & -> & ->)]].
        - now apply V1.
        - replace k with 0 by lia. apply V2.
        - now apply V3. }
      destruct (String.eqb_spec f "bbox_yaw") as [->|Ne].
      - change (get a "state/all/bbox_yaw" = Some x) in X. assert (y = x) by congruence. subst y.
        exists w. split; [exact W|]. split; [congruence|]. intros part steps from i k Hpt Hi Hk.
        rewrite (En part steps from i k) by auto. cbn [option_map]. now rewrite C.
      - exists x. split; [|split; [exact Dx|]].
        + rewrite K; [exact X|]. intros E. apply Ne. exact (append_inj_l "state/all/" _ _ E).
        + intros part steps from i k Hpt Hi Hk. rewrite (En part steps from i k) by auto. reflexivity.
    Qed.

    Lemma r_state f dt : In (f, dt) frame_types -> exists x, get r (state_key "all" f) = Some x /\ dims x = [kept mx; 91] /\
      forall part steps from i k, In (part, steps, from) parts -> i < 128 -> k < steps ->
        option_map (if String.eqb f "bbox_yaw" then wrap_val else fun v => v)
          (entry_of (mkfeat [128; steps] dt) e (state_key part f) (i * steps + k)) = Some (cell x [i; from + k]).
    Proof.
      intros Hf. destruct (r0_state f dt Hf) as (x & X & D & V).
      destruct (cut_state (state_key "all" f) x [91] ltac:(cbn; discriminate) X D) as (w & W & Dw & C). exists w.
      split; [exact W|]. split; [exact Dw|]. rewrite C. exact V.
    Qed.

    Lemma r_light f dt : In (f, dt) light_types -> exists x, get r (light_key "all" f) = Some x /\ dims x = [91; 16] /\
      forall part steps from k l, In (part, steps, from) parts -> l < 16 -> k < steps ->
        entry_of (mkfeat [steps; 16] dt) e (light_key part f) (k * 16 + l) = Some (cell x [from + k; l]).
    Proof.
      intros Hf. destruct agg_ex as (a & Ha).
      destruct (pre_keep o a Ha r0 Hr0) as (_ & K & _).
      destruct (agg_light _ _ _ _ _ _ _ _ Hfd Hp a Ha f dt Hf) as (x & X & Dx & V1 & V2 & V3).
      exists x. split; [|split; [exact Dx|]].
      - rewrite cut_other by reflexivity. rewrite K; [exact X|]. discriminate.
      - intros part steps from k l Hpt Hl Hk.
        assert (Hin : In (light_key part f, mkfeat [steps; 16] dt) fd).
        { destruct (standard_light _ _ _ _ _ _ Hfd) as (Hs & _). apply Hs; [|exact Hf]. now apply parts_steps in Hpt. }
        pose proof (o_entry _ _ [k; l] Hin) as E. cbn [ft_shape ravel] in E.
        replace (k * size [16] + (l * size [] + 0)) with (k * 16 + l) in E by (rewrite size1; unfold size; cbn [fold_right]; lia).
        rewrite E by (rewrite size2; nia).
        destruct (part_cases _ _ _ (fun _ _ => True) Hpt) as [(-> & -> & ->)|[(-> & -> & ->)|(-> & -> & ->)]].
        + now apply V1.
        + replace k with 0 by lia. apply V2.
        + now apply V3.
    Qed.

    Lemma r0_plain k ft : In (k, ft) fd -> k <> "state/all/bbox_yaw"%string ->
      (forall p, In p ["state/past/"; "state/current/"; "state/future/"; "traffic_light_state/past/";
                       "traffic_light_state/current/"; "traffic_light_state/future/"]%string -> strip p k = None) ->
      exists x, get r0 k = Some x /\ dims x = ft_shape ft /\
        forall idx, ravel (ft_shape ft) idx < size (ft_shape ft) -> entry_of ft e k (ravel (ft_shape ft) idx) = Some (cell x idx).
    Proof.
      intros Hin Ne Hs. destruct agg_ex as (a & Ha). destruct (pre_keep o a Ha r0 Hr0) as (_ & K & _).
      destruct (parse_In _ _ _ _ _ Ho Nd Hin) as (t & G & Ht).
      destruct (parse_feature_value _ _ _ _ Ht) as (D & _ & V).
      exists t. split; [|auto]. rewrite K by exact Ne. rewrite (agg_keep _ _ _ _ _ _ _ _ Hfd Hp a Ha k ft Hin Hs). exact G.
    Qed.

    Lemma r_object k dt : In (k, dt) object_types -> exists x, get r k = Some x /\ dims x = [kept mx] /\
      forall i, i < 128 -> entry_of (mkfeat [128] dt) e k i = Some (cell x [i]).
    Proof.
      intros Hk. assert (Hin : In (k, mkfeat [128] dt) fd) by (destruct (standard_Ok _ _ _ _ _ _ Hfd) as (_ & _ & Hs & _); now apply Hs).
      assert (Q : k <> "state/all/bbox_yaw"%string /\ strip "state/" k <> None /\
        forall p, In p ["state/past/"; "state/current/"; "state/future/"; "traffic_light_state/past/";
                       "traffic_light_state/current/"; "traffic_light_state/future/"]%string -> strip p k = None).
      { clear Hin. repeat (destruct Hk as [Hk|Hk]; [injection Hk as <- <-; split; [discriminate|split; [discriminate|]];
          intros p Hp'; repeat (destruct Hp' as [<-|Hp']; [reflexivity|]); contradiction|]). contradiction. }
      destruct Q as (Q1 & Q2 & Q3). destruct (r0_plain _ _ Hin Q1 Q3) as (x & X & D & V).
      destruct (cut_state _ _ _ Q2 X D) as (w & W & Dw & C). exists w. split; [exact W|]. split; [exact Dw|].
      intros i Hi. rewrite C, <- (V [i]); cbn [ft_shape ravel]; [f_equal|rewrite size1]; unfold size; cbn [fold_right]; lia.
    Qed.

    Lemma r_road k cols dt : In (k, cols, dt) road_types -> exists x, get r k = Some x /\ dims x = [N; cols] /\
      forall i j, i < N -> j < cols -> entry_of (mkfeat [N; cols] dt) e k (i * cols + j) = Some (cell x [i; j]).
    Proof.
      intros Hk. assert (Hin : In (k, mkfeat [N; cols] dt) fd) by (destruct (standard_light _ _ _ _ _ _ Hfd) as (_ & _ & Hs); now apply Hs).
      assert (Q : k <> "state/all/bbox_yaw"%string /\ strip "state/" k = None /\
        forall p, In p ["state/past/"; "state/current/"; "state/future/"; "traffic_light_state/past/";
                       "traffic_light_state/current/"; "traffic_light_state/future/"]%string -> strip p k = None).
      { clear Hin. repeat (destruct Hk as [Hk|Hk]; [injection Hk as <- <- <-; split; [discriminate|split; [reflexivity|]];
          intros p Hp'; repeat (destruct Hp' as [<-|Hp']; [reflexivity|]); contradiction|]). contradiction. }
      destruct Q as (Q1 & Q2 & Q3). destruct (r0_plain _ _ Hin Q1 Q3) as (x & X & D & V).
      exists x. split; [now rewrite cut_other|]. split; [exact D|].
      intros i j Hi Hj. rewrite <- (V [i; j]); cbn [ft_shape ravel]; [f_equal|rewrite size2]; rewrite ?size1; unfold size; cbn [fold_right]; nia.
    Qed.

    Lemma r_path P K k ft : asked paths np nk = Some (P, K) -> In (k, ft) (path_types P K) -> exists x, get r k = Some x /\
      dims x = ft_shape ft /\
      forall idx, ravel (ft_shape ft) idx < size (ft_shape ft) -> entry_of ft e k (ravel (ft_shape ft) idx) = Some (cell x idx).
    Proof.
      intros Ha Hk. assert (Hin : In (k, ft) fd) by (eapply features_paths; eauto).
      assert (Q : k <> "state/all/bbox_yaw"%string /\ strip "state/" k = None /\
        forall p, In p ["state/past/"; "state/current/"; "state/future/"; "traffic_light_state/past/";
                       "traffic_light_state/current/"; "traffic_light_state/future/"]%string -> strip p k = None).
      { clear Hin. repeat (destruct Hk as [Hk|Hk]; [injection Hk as <- <-; split; [discriminate|split; [reflexivity|]];
          intros p Hp'; repeat (destruct Hp' as [<-|Hp']; [reflexivity|]); contradiction|]). contradiction. }
      destruct Q as (Q1 & Q2 & Q3). destruct (r0_plain _ _ Hin Q1 Q3) as (x & X & D & V).
      exists x. split; [now rewrite cut_other|]. split; [exact D|exact V].
    Qed.

    (** ** The state *)

    Lemma r_shapes : traj_shapes r "all" (kept mx) 91 /\ road_shapes r N /\ light_shapes r "all" 16 91 /\
      meta_shapes r (kept mx) /\ forall P K, asked paths np nk = Some (P, K) -> path_shapes r P K.
    Proof.
      split; [|split; [|split; [|split]]].
      - intros f Hf. assert (Q : exists dt, In (f, dt) frame_types).
        { cbn in Hf. repeat (destruct Hf as [<-|Hf]; [eexists; cbn; tauto|]). contradiction. }
        destruct Q as [dt Q]. destruct (r_state f dt Q) as (x & X & D & _). exists x. auto.
      - assert (Q : forall k c dt, In (k, c, dt) road_types -> has r k [N; c]).
        { intros k c dt Hk. destruct (r_road _ _ _ Hk) as (x & X & D & _). exists x. auto. }
        repeat split; eapply Q; cbn; eauto 10.
      - intros f Hf. assert (Q : exists dt, In (f, dt) light_types).
        { cbn in Hf. repeat (destruct Hf as [<-|Hf]; [eexists; cbn; tauto|]). contradiction. }
        destruct Q as [dt Q]. destruct (r_light f dt Q) as (x & X & D & _). exists x. auto.
      - intros k Hk. assert (Q : exists dt, In (k, dt) object_types).
        { cbn in Hk. repeat (destruct Hk as [<-|Hk]; [eexists; cbn; tauto|]). contradiction. }
        destruct Q as [dt Q]. destruct (r_object k dt Q) as (x & X & D & _). exists x. auto.
      - intros P K Ha. assert (Q : forall k ft, In (k, ft) (path_types P K) -> has r k (ft_shape ft)).
        { intros k ft Hk. destruct (r_path _ _ _ _ Ha Hk) as (x & X & D & _). exists x. auto. }
        split; [|split; [|split; [|split]]];
          [apply (Q _ (mkfeat [P; K; 3] DFloat))|apply (Q _ (mkfeat [P; K] DInt))|apply (Q _ (mkfeat [P; K] DInt))
          |apply (Q _ (mkfeat [P; K] DFloat))|apply (Q _ (mkfeat [P; 1] DInt))]; cbn; tauto.
    Qed.

    Lemma kept_le : kept mx <= 128.
    Proof. unfold kept. destruct mx as [z|]; [destruct (z <? 0)%Z|]; lia. Qed.

    Lemma entry_float ft name k v : ft_dtype ft = DFloat -> entry_of ft e name k = Some v ->
      float_entry e name k = Some (as_f v) /\ v = VF (as_f v).
    Proof.
      unfold entry_of. intros ->. destruct (float_entry e name k); [|discriminate]. intros E. injection E as <-. auto.
    Qed.
    Lemma entry_int ft name k v : ft_dtype ft = DInt -> entry_of ft e name k = Some v ->
      int_entry e name k = Some (as_i v) /\ v = VI (as_i v).
    Proof.
      unfold entry_of. intros ->. destruct (int_entry e name k); [|discriminate]. intros E. injection E as <-. auto.
    Qed.

    (** One feature of a frame. *)
    Lemma r_float part steps from i k f : In (part, steps, from) parts -> i < 128 -> k < steps ->
      In (f, DFloat) frame_types -> f <> "bbox_yaw"%string ->
      float_entry e (state_key part f) (i * steps + k) = float_at r (state_key "all" f) [i; from + k].
    Proof.
      intros Hpt Hi Hk Hf Ne. destruct (r_state f DFloat Hf) as (x & X & _ & V).
      specialize (V part steps from i k Hpt Hi Hk). apply String.eqb_neq in Ne. rewrite Ne in V.
      unfold float_at, value. rewrite X. cbn [option_map].
      destruct (entry_of (mkfeat [128; steps] DFloat) e (state_key part f) (i * steps + k)) as [v|] eqn:E; [|discriminate].
      injection V as ->. now apply entry_float in E as [E _].
    Qed.
    Lemma r_yaw part steps from i k : In (part, steps, from) parts -> i < 128 -> k < steps ->
      option_map wrap_yaws (float_entry e (state_key part "bbox_yaw") (i * steps + k)) = float_at r (state_key "all" "bbox_yaw") [i; from + k].
    Proof.
      intros Hpt Hi Hk. destruct (r_state "bbox_yaw" DFloat) as (x & X & _ & V); [cbn; tauto|].
      specialize (V part steps from i k Hpt Hi Hk). cbn [String.eqb Ascii.eqb Bool.eqb] in V.
      unfold float_at, value. rewrite X. cbn [option_map].
      destruct (entry_of (mkfeat [128; steps] DFloat) e (state_key part "bbox_yaw") (i * steps + k)) as [v|] eqn:E; [|discriminate].
      apply entry_float in E as [E Ev]; [|reflexivity]. rewrite E. cbn [option_map] in V |- *. rewrite Ev in V. injection V as <-. reflexivity.
    Qed.
    Lemma r_int part steps from i k f : In (part, steps, from) parts -> i < 128 -> k < steps -> In (f, DInt) frame_types ->
      exists z, int_entry e (state_key part f) (i * steps + k) = Some z /\ value r (state_key "all" f) [i; from + k] = Some (VI z).
    Proof.
      intros Hpt Hi Hk Hf. destruct (r_state f DInt Hf) as (x & X & _ & V).
      specialize (V part steps from i k Hpt Hi Hk).
      assert (Ne : String.eqb f "bbox_yaw" = false).
      { clear - Hf. repeat (destruct Hf as [Hf|Hf]; [first [discriminate Hf|injection Hf as <-; reflexivity]|]). contradiction. }
      rewrite Ne in V. unfold value. rewrite X. cbn [option_map].
      destruct (entry_of (mkfeat [128; steps] DInt) e (state_key part f) (i * steps + k)) as [v|] eqn:E; [|discriminate].
      injection V as ->. apply entry_int in E as [E Ev]; [|reflexivity]. rewrite E. eexists. split; [reflexivity|]. now rewrite <- Ev.
    Qed.
    Lemma r_light_float part steps from k l f : In (part, steps, from) parts -> l < 16 -> k < steps -> In (f, DFloat) light_types ->
      float_entry e (light_key part f) (k * 16 + l) = float_at r (light_key "all" f) [from + k; l].
    Proof.
      intros Hpt Hl Hk Hf. destruct (r_light f DFloat Hf) as (x & X & _ & V).
      specialize (V part steps from k l Hpt Hl Hk). unfold float_at, value. rewrite X. cbn [option_map].
      now apply entry_float in V as [V _].
    Qed.
    Lemma r_light_int part steps from k l f : In (part, steps, from) parts -> l < 16 -> k < steps -> In (f, DInt) light_types ->
      exists z, int_entry e (light_key part f) (k * 16 + l) = Some z /\ value r (light_key "all" f) [from + k; l] = Some (VI z).
    Proof.
      intros Hpt Hl Hk Hf. destruct (r_light f DInt Hf) as (x & X & _ & V).
      specialize (V part steps from k l Hpt Hl Hk). unfold value. rewrite X. cbn [option_map].
      apply entry_int in V as [V Ev]; [|reflexivity]. eexists. split; [exact V|]. now rewrite <- Ev.
    Qed.
    Lemma r_object_float k i : In (k, DFloat) object_types -> i < 128 ->
      exists y, float_entry e k i = Some y /\ value r k [i] = Some (VF y).
    Proof.
      intros Hk Hi. destruct (r_object k DFloat Hk) as (x & X & _ & V). specialize (V i Hi). unfold value. rewrite X. cbn [option_map].
      apply entry_float in V as [V Ev]; [|reflexivity]. eexists. split; [exact V|]. now rewrite <- Ev.
    Qed.
    Lemma r_object_int k i : In (k, DInt) object_types -> i < 128 ->
      exists z, int_entry e k i = Some z /\ value r k [i] = Some (VI z).
    Proof.
      intros Hk Hi. destruct (r_object k DInt Hk) as (x & X & _ & V). specialize (V i Hi). unfold value. rewrite X. cbn [option_map].
      apply entry_int in V as [V Ev]; [|reflexivity]. eexists. split; [exact V|]. now rewrite <- Ev.
    Qed.
    Lemma r_road_float k c i j : In (k, c, DFloat) road_types -> i < N -> j < c ->
      float_entry e k (i * c + j) = float_at r k [i; j].
    Proof.
      intros Hk Hi Hj. destruct (r_road k c DFloat Hk) as (x & X & _ & V). specialize (V i j Hi Hj).
      unfold float_at, value. rewrite X. cbn [option_map]. now apply entry_float in V as [V _].
    Qed.
    Lemma r_road_int k i : In (k, 1, DInt) road_types -> i < N ->
      exists z, int_entry e k i = Some z /\ value r k [i; 0] = Some (VI z).
    Proof.
      intros Hk Hi. destruct (r_road k 1 DInt Hk) as (x & X & _ & V). specialize (V i 0 Hi ltac:(lia)).
      rewrite Nat.mul_1_r, Nat.add_0_r in V. unfold value. rewrite X. cbn [option_map].
      apply entry_int in V as [V Ev]; [|reflexivity]. eexists. split; [exact V|]. now rewrite <- Ev.
    Qed.

    Lemma part_from part steps from k : In (part, steps, from) parts -> k < steps -> from + k < 91.
    Proof. intros H Hk. repeat (destruct H as [H|H]; [injection H as <- <- <-; lia|]). contradiction. Qed.

    Lemma r_frame part steps from i k p : In (part, steps, from) parts -> i < 128 -> k < steps ->
      is_frame r "all" i (from + k) p -> frame_of_record e part steps i k p.
    Proof.
      intros Hpt Hi Hk (Hf & Hv & Ht).
      assert (Q : forall f, In (f, DFloat) frame_types -> f <> "bbox_yaw"%string -> forall g, In (f, g) frame_floats ->
        float_entry e (state_key part f) (i * steps + k) = Some (g p)).
      { intros f H1 H2 g H3. rewrite (r_float part steps from i k f) by auto. now apply Hf. }
      destruct (r_int part steps from i k "valid" Hpt Hi Hk ltac:(cbn; tauto)) as (zv & Ev1 & Ev2).
      destruct (r_int part steps from i k "timestamp_micros" Hpt Hi Hk ltac:(cbn; tauto)) as (zt & Et1 & Et2).
      unfold bool_at in Hv. unfold int_at in Ht. rewrite Ev2 in Hv. rewrite Et2 in Ht. cbn [option_map as_b as_i] in Hv, Ht.
      unfold frame_of_record. cbv zeta.
      do 5 (split; [apply Q; [cbn; tauto|discriminate|cbn; tauto]|]).
      split; [rewrite (r_yaw part steps from i k) by auto; apply Hf; cbn; tauto|].
      split; [rewrite Ev1; exact Hv|rewrite Et1; exact Ht].
    Qed.

    Lemma r_is_light part steps from l k x : In (part, steps, from) parts -> l < 16 -> k < steps ->
      is_light r "all" l (from + k) x -> light_of_record e part k l x.
    Proof.
      intros Hpt Hl Hk (H1 & H2 & H3 & H4 & H5 & H6).
      destruct (r_light_int part steps from k l "state" Hpt Hl Hk ltac:(cbn; tauto)) as (zs & Es1 & Es2).
      destruct (r_light_int part steps from k l "id" Hpt Hl Hk ltac:(cbn; tauto)) as (zi & Ei1 & Ei2).
      destruct (r_light_int part steps from k l "valid" Hpt Hl Hk ltac:(cbn; tauto)) as (zv & Ev1 & Ev2).
      unfold int_at in H4, H5. unfold bool_at in H6. rewrite Es2 in H4. rewrite Ei2 in H5. rewrite Ev2 in H6.
      unfold light_of_record. cbv zeta.
      do 3 (split; [rewrite (r_light_float part steps from k l) by (auto; cbn; tauto); assumption|]).
      rewrite Es1, Ei1, Ev1. auto.
    Qed.

    Lemma r_is_object i m : i < 128 -> is_object r i m -> object_of_record e i m.
    Proof.
      intros Hi (H1 & H2 & H3 & H4 & H5 & H6 & H7).
      destruct (r_object_float "state/id" i ltac:(cbn; tauto) Hi) as (y1 & A1 & B1).
      destruct (r_object_float "state/type" i ltac:(cbn; tauto) Hi) as (y2 & A2 & B2).
      destruct (r_object_int "state/is_sdc" i ltac:(cbn; tauto) Hi) as (z1 & A3 & B3).
      destruct (r_object_int "state/tracks_to_predict" i ltac:(cbn; tauto) Hi) as (z2 & A4 & B4).
      destruct (r_object_int "state/objects_of_interest" i ltac:(cbn; tauto) Hi) as (z3 & A5 & B5).
      unfold int_at in H1, H2. rewrite B1 in H1. rewrite B2 in H2. rewrite B3 in H3. rewrite B4 in H4, H5. rewrite B5 in H6.
      unfold object_of_record. rewrite A1, A2, A3, A4, A5. cbn [option_map] in *.
      repeat (split; [assumption|]). split; [|split; assumption].
      injection H5 as H5. cbn [is_int] in H5. rewrite H5, negb_involutive. reflexivity.
    Qed.

    Lemma r_is_road i q : i < N -> is_road_point r i q -> road_point_of_record e i q.
    Proof.
      intros Hi (H1 & H2 & H3 & H4 & H5 & H6 & H7 & H8 & H9).
      destruct (r_road_int "roadgraph_samples/type" i ltac:(cbn; tauto) Hi) as (z1 & A1 & B1).
      destruct (r_road_int "roadgraph_samples/id" i ltac:(cbn; tauto) Hi) as (z2 & A2 & B2).
      destruct (r_road_int "roadgraph_samples/valid" i ltac:(cbn; tauto) Hi) as (z3 & A3 & B3).
      assert (Q : forall k j, In (k, 3, DFloat) road_types -> j < 3 -> float_entry e k (i * 3 + j) = float_at r k [i; j]).
      { intros k j Hk Hj. now apply r_road_float. }
      unfold int_at in H7, H8. unfold bool_at in H9. rewrite B1 in H7. rewrite B2 in H8. rewrite B3 in H9.
      unfold road_point_of_record. rewrite A1, A2, A3. rewrite <- (Nat.add_0_r (i * 3)), !Q by (cbn; first [tauto|lia]).
      rewrite <- !Nat.add_assoc. cbn [plus]. rewrite !Q by (cbn; first [tauto|lia]). auto 10.
    Qed.

    Lemma r_is_path P K i j q : asked paths np nk = Some (P, K) -> i < P -> j < K -> is_path_point r i j q ->
      path_point_of_record e K i j q.
    Proof.
      intros Ha Hi Hj (H1 & H2 & H3 & H4 & H5 & H6).
      destruct (r_path P K "path_samples/xyz" _ Ha ltac:(cbn; left; reflexivity)) as (x1 & X1 & _ & V1).
      destruct (r_path P K "path_samples/valid" _ Ha ltac:(cbn; right; left; reflexivity)) as (x2 & X2 & _ & V2).
      destruct (r_path P K "path_samples/id" _ Ha ltac:(cbn; do 2 right; left; reflexivity)) as (x3 & X3 & _ & V3).
      destruct (r_path P K "path_samples/arc_length" _ Ha ltac:(cbn; do 3 right; left; reflexivity)) as (x4 & X4 & _ & V4).
      cbn [ft_shape] in V1, V2, V3, V4. unfold float_at, int_at, bool_at, value in *.
      rewrite X1 in H1, H2, H3. rewrite X3 in H4. rewrite X2 in H5. rewrite X4 in H6. cbn [option_map] in *.
      assert (R1 : forall m, m < 3 -> float_entry e "path_samples/xyz" ((i * K + j) * 3 + m) = Some (as_f (cell x1 [i; j; m]))).
      { intros m Hm. specialize (V1 [i; j; m]).
        replace (ravel [P; K; 3] [i; j; m]) with ((i * K + j) * 3 + m) in V1
          by (cbn [ravel]; rewrite size2, size1; unfold size; cbn [fold_right]; lia).
        rewrite size3 in V1. specialize (V1 ltac:(nia)). now apply entry_float in V1 as [V1 _]. }
      assert (Rv : ravel [P; K] [i; j] = i * K + j) by (cbn [ravel]; rewrite size1; unfold size; cbn [fold_right]; lia).
      specialize (V2 [i; j]). specialize (V3 [i; j]). specialize (V4 [i; j]). rewrite Rv, size2 in V2, V3, V4.
      specialize (V2 ltac:(nia)). specialize (V3 ltac:(nia)). specialize (V4 ltac:(nia)).
      apply entry_int in V2 as [V2 E2]; [|reflexivity]. apply entry_int in V3 as [V3 E3]; [|reflexivity].
      apply entry_float in V4 as [V4 _]; [|reflexivity].
      unfold path_point_of_record. cbv zeta. rewrite V2, V3, V4.
      pose proof (R1 0 ltac:(lia)) as Q0. rewrite Nat.add_0_r in Q0. rewrite Q0, (R1 1), (R1 2) by lia.
      rewrite E2 in H5. repeat (split; [assumption|]). assumption.
    Qed.

    Lemma r_on_route P K i : asked paths np nk = Some (P, K) -> i < P ->
      option_map nonzero (int_entry e "path_samples/on_route" i) = bool_at r "path_samples/on_route" [i; 0].
    Proof.
      intros Ha Hi.
      destruct (r_path P K "path_samples/on_route" _ Ha ltac:(cbn; do 4 right; left; reflexivity)) as (x & X & _ & V).
      cbn [ft_shape] in V. specialize (V [i; 0]). unfold bool_at, value. rewrite X. cbn [option_map].
      replace (ravel [P; 1] [i; 0]) with i in V by (cbn [ravel]; rewrite size1; unfold size; cbn [fold_right]; lia).
      rewrite size2 in V. specialize (V ltac:(lia)). apply entry_int in V as [V E]; [|reflexivity]. rewrite V, E. reflexivity.
    Qed.

    Lemma record_state : exists s, simulator_state_from_womd_dict r paths "all" = Ok s /\
      scenario_of_record (kept mx) N (asked paths np nk) e s.
    Proof.
      destruct r_shapes as (St & Sr & Sl & Sm & Sp). pose proof kept_le as Kn.
      assert (Ap : paths = true -> exists P K, asked paths np nk = Some (P, K)).
      { intros E. clear - Hfd E. unfold get_features_description in Hfd. subst paths. unfold asked.
        destruct np; [|discriminate]. destruct nk; [|discriminate]. eauto. }
      assert (Ld : loadable r paths "all").
      { split; [cbn; tauto|]. split; [eauto|]. split; [eauto|]. split; [eauto|].
        split; [exists (kept mx), 91; split; [exact St|lia]|]. intros E. destruct (Ap E) as (P & K & A). eauto. }
      destruct (proj1 (load_iff r paths "all") Ld) as (s & Hs). exists s. split; [exact Hs|].
      destruct (load_Ok _ _ _ _ Hs) as (_ & Et & (n' & T' & St' & _ & Elog & Rsim & Esim) & Htl & Hms & (rg & Erg & Hrg) & Hps).
      assert (En : n' = kept mx /\ T' = 91).
      { assert (Q : [n'; T'] = [kept mx; 91]) by (eapply has_inj; [apply (St' "x"%string)|apply (St "x"%string)]; cbn; tauto).
        injection Q as -> ->. auto. }
      destruct En as [-> ->]. clear St'.
      destruct (lights_from_Ok _ _ _ Htl) as (_ & L' & T' & Sl' & Rl & Pl).
      assert (El : L' = 16 /\ T' = 91).
      { assert (Q : [T'; L'] = [91; 16]) by (eapply has_inj; [apply (Sl' "x"%string)|apply (Sl "x"%string)]; cbn; tauto).
        injection Q as -> ->. auto. }
      destruct El as [-> ->]. clear Sl'.
      destruct (meta_from_Ok _ _ Hms) as [Sm' Pm].
      assert (Lm : length (s_meta s) = kept mx).
      { assert (Q : [length (s_meta s)] = [kept mx]) by (eapply has_inj; [apply (Sm' "state/id"%string)|apply (Sm "state/id"%string)]; cbn; tauto).
        injection Q as ->. auto. }
      destruct (road_from_Ok _ _ Hrg) as [(Sr' & _) Pr]. destruct Sr as (Sr & _).
      assert (Ln : length rg = N) by (pose proof (has_inj _ _ _ _ Sr' Sr) as Q; congruence).
      split; [exact Et|]. split; [rewrite Elog; apply rect_tab2|]. split; [|split; [|split; [exact Rsim|split; [|split]]]].
      - intros part steps from i k p Hpt Hk Hp'. rewrite Elog in Hp'. apply at2_tab2_Some in Hp' as (Hi & Hfk & ->).
        eapply r_frame; [exact Hpt|lia|exact Hk|]. eapply frame_of_is_frame. exact St.
      - intros name dim i row Hnd Hrow. rewrite Elog in Hrow. unfold tab2 in Hrow. rewrite nth_error_tab in Hrow.
        destruct (Nat.ltb_spec i (kept mx)) as [Hi|]; [|discriminate]. injection Hrow as <-.
        exists (tab 91 (fun t => as_f (arr r (state_key "all" name) [i; t]))). split; [apply tab_length|]. split.
        + intros part steps from k Hpt Hk. rewrite nth_error_tab. pose proof (part_from _ _ _ _ Hpt Hk) as Hb.
          apply Nat.ltb_lt in Hb. rewrite Hb.
          rewrite (r_float part steps from i k name) by
            (auto; try lia; clear - Hnd; repeat (destruct Hnd as [Hnd|Hnd]; [injection Hnd as <- <-; cbn; first [tauto|discriminate]|]); contradiction).
          unfold float_at. assert (Hn : In name frame_names).
          { clear - Hnd. repeat (destruct Hnd as [Hnd|Hnd]; [injection Hnd as <- <-; cbn; tauto|]). contradiction. }
          destruct (St name Hn) as (x & X & _). unfold arr, value. rewrite X. reflexivity.
        + intros p Hp'. apply in_map_iff in Hp' as (t & <- & Ht). apply in_seq in Ht.
          unfold tab at 2. rewrite map_map.
          repeat (destruct Hnd as [Hnd|Hnd]; [injection Hnd as <- <-; reflexivity|]). contradiction.
      - intros i Hi. rewrite Esim by lia. reflexivity.
      - intros i t p Ht Hp'. destruct (at2_Some_lt _ _ _ _ _ _ Rsim Hp') as [Hi Htt]. rewrite Esim in Hp' by auto.
        destruct t; [lia|]. cbn [Nat.eqb] in Hp'. injection Hp' as <-. reflexivity.
      - split; [exact Rl|]. split; [|split; [exact Lm|split; [|split]]].
        + intros part steps from l k x Hpt Hk Hx. destruct (at2_Some_lt _ _ _ _ _ _ Rl Hx) as [Hl _].
          eapply r_is_light; [exact Hpt|exact Hl|exact Hk|]. now apply Pl.
        + intros i m Hm. apply r_is_object; [|now apply Pm].
          assert (i < length (s_meta s)) by (apply nth_error_Some; congruence). lia.
        + exists rg. split; [exact Erg|]. split; [exact Ln|]. intros i q Hq. apply r_is_road; [|now apply Pr].
          assert (i < length rg) by (apply nth_error_Some; congruence). lia.
        + destruct (s_paths s) as [ps|].
          * destruct Hps as [Ep Hps].
            destruct (Ap Ep) as (P & K & A). rewrite A. destruct (paths_from_Ok _ _ Hps) as (K' & Shp & Hq).
            specialize (Sp P K).
            destruct (Sp A) as (Sp1 & _). destruct Shp as (Shp1 & _).
            pose proof (has_inj _ _ _ _ Shp1 Sp1) as Q. injection Q as EP EK. subst K'.
            exists ps. split; [reflexivity|]. split; [exact EP|]. intros i p Hp'.
            assert (Hi : i < P) by (rewrite <- EP; apply nth_error_Some; congruence).
            destruct (Hq i p Hp') as (Lk & On & Pts). split; [exact Lk|]. split.
            -- rewrite (r_on_route P K i A Hi). exact On.
            -- intros j q Hj. eapply r_is_path; [exact A|exact Hi| |now apply Pts].
               rewrite <- Lk. apply nth_error_Some. congruence.
          * unfold asked. rewrite Hps. reflexivity.
    Qed.
  End Values.

  (** A well-formed record and its scenario. *)
  Lemma record_loads c e : dc_aggregate c = true -> (exists fd, config_features c = Ok fd) ->
    well_formed (dc_max_num_rg_points c) (wanted_paths c) e ->
    exists r s, preprocess_serialized c (Some e) = Ok r /\
      simulator_state_from_womd_dict r (dc_include_sdc_paths c) "all" = Ok s /\
      scenario_of_record (kept (dc_max_num_objects c)) (dc_max_num_rg_points c) (wanted_paths c) e s.
  Proof.
    intros Hagg (fd & Hfd) W. destruct (proj2 (readable c (Some e) (ex_intro _ fd Hfd)) (ex_intro _ e (conj eq_refl W))) as (r & Hr).
    exists r. pose proof Hr as Hr'. unfold preprocess_serialized in Hr'. rewrite Hfd in Hr'. cbn [bind] in Hr'.
    apply bind_Ok in Hr' as (o & Ho & Hr'). rewrite Hagg in Hr'. unfold config_features in Hfd.
    destruct (preprocess_total _ _ _ _ _ _ _ true None Hfd Ho) as (r0 & Hr0).
    destruct (record_state _ _ _ _ _ _ _ _ _ _ Hfd Ho Hr0 Hr') as (s & Hs & Hsc). exists s. auto.
  Qed.
End Record.
