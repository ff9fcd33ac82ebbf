(** The factories on batched dictionaries. *)
From Coq Require Import String.
From Coq Require Import List ZArith Bool Arith Lia.
From Verif.Lib Require Import Base JaxIndex Scalar.
From Verif.Model Require Import Operations State Geometry Metrics Masked Womd WomdState Batch Loader.
From Verif.Spec Require Import StateSpec WomdSpec BatchSpec LoaderSpec.
From Verif.Proofs Require Import Core P_Womd P_WomdState P_WomdExport P_LoaderOne P_Batch.
Import ListNotations.
Local Open Scope nat_scope.

Lemma swap_last_app l a c : swap_last (l ++ [a; c]) = l ++ [c; a].
Proof. unfold swap_last. rewrite !removelast_app2, removelast_app1, last_app2, last_app1. reflexivity. Qed.

Lemma combine_map_same {A B C} (f : A -> B) (g : A -> C) l : combine (map f l) (map g l) = map (fun x => (f x, g x)) l.
Proof. induction l as [|a l IH]; cbn; [reflexivity|]. now rewrite IH. Qed.

Lemma skipn_shape (B m b : list nat) : length b = length B -> skipn (length b) (B ++ m) = m.
Proof. intros ->. now apply skipn_pre. Qed.

Section Batches.
  Context {S : Scalar}.
  Notation tdims := Womd.dims.
  Notation tcell := Womd.cell.

  (** The dictionary at a batch index. *)
  Definition slice (b : list nat) (t : tensor) : tensor := mkT (skipn (length b) (tdims t)) (fun i => tcell t (b ++ i)).
  Definition at_index (b : list nat) (d : dict) : dict := map (fun kv => (fst kv, slice b (snd kv))) d.

  Lemma get_at b d k : get (at_index b d) k = option_map (slice b) (get d k).
  Proof. induction d as [|[a w] d IH]; cbn; [reflexivity|]. destruct (String.eqb k a); [reflexivity|exact IH]. Qed.

  Lemma getk_both d k B ds b : has d k (B ++ ds) -> inside B b ->
    exists t, getk d k = Ok t /\ tdims t = B ++ ds /\ getk (at_index b d) k = Ok (slice b t) /\ tdims (slice b t) = ds.
  Proof.
    intros (t & G & D) I. exists t. rewrite !getk_Ok, get_at, G. split; [reflexivity|]. split; [exact D|]. split; [reflexivity|].
    cbn [slice Womd.dims]. rewrite D. apply skipn_shape. now apply inside_length.
  Qed.

  Lemma has_at d k B ds b : has d k (B ++ ds) -> inside B b -> has (at_index b d) k ds.
  Proof. intros H I. destruct (getk_both _ _ _ _ _ H I) as (t & _ & _ & G & D). apply getk_Ok in G. exists (slice b t). auto. Qed.

  Lemma bget_Ok d k ds : has d k ds -> exists t, get d k = Some t /\ tdims t = ds /\ bget d k = Ok (mkA ds (tcell t)).
  Proof. intros (t & G & D). exists t. unfold bget, getk. rewrite G. cbn [bind]. rewrite D. auto. Qed.

  Lemma b_same_refl ds xs : Forall (fun x : Batch.arr val => Batch.dims x = ds) xs -> b_same ds xs = true.
  Proof.
    intros H. unfold b_same. rewrite forallb_forall. rewrite Forall_forall in H. intros x Hx. rewrite (H x Hx). apply dims_eqb_refl.
  Qed.

  Lemma same_shape_refl ds xs : Forall (fun t => tdims t = ds) xs -> same_shape ds xs = true.
  Proof. intros H. now apply same_shape_true. Qed.

  (** Objects. *)
  Lemma b_meta_eq B d m : (forall k, In k ["state/tracks_to_predict"; "state/is_sdc"; "state/objects_of_interest"; "state/id";
                    "state/type"]%string -> has d k (B ++ [m])) ->
    exists ms, b_object_metadata d = Ok ms /\ Batch.dims ms = B ++ [m] /\
      forall b, inside B b -> object_metadata_from_womd_dict (at_index b d) = Ok (vector ms b).
  Proof.
    intros H.
    destruct (bget_Ok d _ _ (H "state/tracks_to_predict"%string ltac:(cbn; tauto))) as (t1 & G1 & D1 & E1).
    destruct (bget_Ok d _ _ (H "state/is_sdc"%string ltac:(cbn; tauto))) as (t2 & G2 & D2 & E2).
    destruct (bget_Ok d _ _ (H "state/objects_of_interest"%string ltac:(cbn; tauto))) as (t3 & G3 & D3 & E3).
    destruct (bget_Ok d _ _ (H "state/id"%string ltac:(cbn; tauto))) as (t4 & G4 & D4 & E4).
    destruct (bget_Ok d _ _ (H "state/type"%string ltac:(cbn; tauto))) as (t5 & G5 & D5 & E5).
    unfold b_object_metadata. rewrite E1, E2, E3, E4, E5. cbn [bind].
    rewrite b_same_refl by (repeat constructor). cbn [guard bind].
    eexists. split; [reflexivity|]. split; [reflexivity|]. intros b I.
    assert (Dl : forall t, tdims t = B ++ [m] -> tdims (slice b t) = [m]).
    { intros t D. cbn [slice Womd.dims]. rewrite D. apply skipn_shape. now apply inside_length. }
    unfold object_metadata_from_womd_dict, getk. rewrite !get_at, G1, G2, G3, G4, G5. cbn [option_map bind].
    rewrite (Dl t1 D1). rewrite same_shape_refl by (repeat constructor; auto). cbn [guard bind].
    erewrite vector_eq by (try reflexivity; exact I). reflexivity.
  Qed.

  (** The road. *)
  Lemma b_road_eq B d N : 
    has d "roadgraph_samples/xyz" (B ++ [N; 3]) -> has d "roadgraph_samples/dir" (B ++ [N; 3]) ->
    has d "roadgraph_samples/type" (B ++ [N; 1]) -> has d "roadgraph_samples/id" (B ++ [N; 1]) ->
    has d "roadgraph_samples/valid" (B ++ [N; 1]) ->
    exists rg, b_roadgraph d = Ok rg /\ Batch.dims rg = B ++ [N] /\
      forall b, inside B b -> roadgraph_from_womd_dict (at_index b d) = Ok (vector rg b).
  Proof.
    intros H1 H2 H3 H4 H5.
    apply bget_Ok in H1 as (t1 & G1 & D1 & E1). apply bget_Ok in H2 as (t2 & G2 & D2 & E2).
    apply bget_Ok in H3 as (t3 & G3 & D3 & E3). apply bget_Ok in H4 as (t4 & G4 & D4 & E4).
    apply bget_Ok in H5 as (t5 & G5 & D5 & E5).
    unfold b_roadgraph. rewrite E1, E2, E3, E4, E5. cbn [bind Batch.dims Batch.cell]. rewrite removelast_app2.
    rewrite !b_same_refl by (repeat constructor; cbn [Batch.dims]; apply app2). cbn [andb guard bind].
    eexists. split; [reflexivity|]. split; [reflexivity|]. intros b I.
    assert (Dl : forall t ds, tdims t = B ++ ds -> tdims (slice b t) = ds).
    { intros t ds D. cbn [slice Womd.dims]. rewrite D. apply skipn_shape. now apply inside_length. }
    unfold roadgraph_from_womd_dict, getk. rewrite !get_at, G1, G2, G3, G4, G5. cbn [option_map bind].
    rewrite (Dl t1 _ D1). rewrite !same_shape_refl by (repeat constructor; auto). cbn [andb guard bind].
    erewrite vector_eq by (try reflexivity; exact I). f_equal. apply tabulate_ext. intros i Hi.
    cbn [Batch.cell slice Womd.cell]. rewrite <- !app_assoc. reflexivity.
  Qed.

  (** Paths. *)
  Lemma b_paths_eq B d P K :
    has d "path_samples/xyz" (B ++ [P; K; 3]) -> has d "path_samples/id" (B ++ [P; K]) ->
    has d "path_samples/valid" (B ++ [P; K]) -> has d "path_samples/arc_length" (B ++ [P; K]) ->
    has d "path_samples/on_route" (B ++ [P; 1]) ->
    exists pts on_route, b_paths_from d = Ok (pts, on_route) /\ Batch.dims pts = B ++ [P; K] /\ Batch.dims on_route = B ++ [P] /\
      forall b, inside B b -> paths_from_womd_dict (at_index b d) = Ok (paths_at (pts, on_route) b).
  Proof.
    intros H1 H2 H3 H4 H5.
    apply bget_Ok in H1 as (t1 & G1 & D1 & E1). apply bget_Ok in H2 as (t2 & G2 & D2 & E2).
    apply bget_Ok in H3 as (t3 & G3 & D3 & E3). apply bget_Ok in H4 as (t4 & G4 & D4 & E4).
    apply bget_Ok in H5 as (t5 & G5 & D5 & E5).
    assert (R3 : removelast (B ++ [P; K; 3]) = B ++ [P; K]).
    { change [P; K; 3] with ([P; K] ++ [3]). rewrite app_assoc. apply removelast_app1. }
    unfold b_paths_from. rewrite E1, E2, E3, E4, E5. cbn [bind Batch.dims Batch.cell]. rewrite R3, removelast_app2.
    rewrite !b_same_refl by (repeat constructor; cbn [Batch.dims]; rewrite <- ?app_assoc; reflexivity).
    cbn [andb guard bind].
    eexists _, _. split; [reflexivity|]. split; [reflexivity|]. split; [reflexivity|]. intros b I.
    assert (Dl : forall t ds, tdims t = B ++ ds -> tdims (slice b t) = ds).
    { intros t ds D. cbn [slice Womd.dims]. rewrite D. apply skipn_shape. now apply inside_length. }
    unfold paths_from_womd_dict, getk. rewrite !get_at, G1, G2, G3, G4, G5. cbn [option_map bind].
    rewrite (Dl t1 _ D1). rewrite !same_shape_refl by (repeat constructor; auto). cbn [andb guard bind].
    unfold paths_at. cbn [fst snd]. erewrite vector_eq, matrix_eq by (try reflexivity; exact I).
    unfold tabulate at 1 3. rewrite combine_map_same, map_map. f_equal. apply tabulate_ext. intros i Hi.
    cbn [Batch.cell slice Womd.cell fst snd]. rewrite <- !app_assoc. cbn [app]. f_equal. apply tabulate_ext. intros j Hj.
    rewrite <- !app_assoc. reflexivity.
  Qed.

  (** Lights. *)
  Lemma b_lights_eq B d time L T : In time times -> (forall f, In f light_names -> has d (light_key time f) (B ++ [T; L])) ->
    exists tls, b_lights d time = Ok tls /\ Batch.dims tls = B ++ [L; T] /\
      forall b, inside B b -> traffic_lights_from_womd_dict (at_index b d) time = Ok (matrix tls b).
  Proof.
    intros Ht H.
    destruct (bget_Ok d _ _ (H "x"%string ltac:(cbn; tauto))) as (t1 & G1 & D1 & E1).
    destruct (bget_Ok d _ _ (H "y"%string ltac:(cbn; tauto))) as (t2 & G2 & D2 & E2).
    destruct (bget_Ok d _ _ (H "z"%string ltac:(cbn; tauto))) as (t3 & G3 & D3 & E3).
    destruct (bget_Ok d _ _ (H "state"%string ltac:(cbn; tauto))) as (t4 & G4 & D4 & E4).
    destruct (bget_Ok d _ _ (H "id"%string ltac:(cbn; tauto))) as (t5 & G5 & D5 & E5).
    destruct (bget_Ok d _ _ (H "valid"%string ltac:(cbn; tauto))) as (t6 & G6 & D6 & E6).
    assert (Hk : existsb (String.eqb time) time_keys = true) by now apply existsb_key.
    unfold light_key in *. unfold b_lights. rewrite Hk. cbn [guard bind]. cbv zeta.
    rewrite E1, E2, E3, E4, E5, E6. cbn [bind Batch.dims Batch.cell].
    replace (2 <=? length (B ++ [T; L])) with true by (symmetry; apply Nat.leb_le; rewrite app_length; cbn; lia).
    cbn [guard bind]. rewrite b_same_refl by (repeat constructor). cbn [guard bind].
    eexists. split; [reflexivity|]. split; [apply swap_last_app|]. intros b I.
    assert (Dl : forall t ds, tdims t = B ++ ds -> tdims (slice b t) = ds).
    { intros t ds D. cbn [slice Womd.dims]. rewrite D. apply skipn_shape. now apply inside_length. }
    unfold traffic_lights_from_womd_dict. rewrite Hk. cbn [guard bind]. cbv zeta. unfold getk.
    rewrite !get_at, G1, G2, G3, G4, G5, G6. cbn [option_map bind].
    rewrite (Dl t1 _ D1). rewrite !same_shape_refl by (repeat constructor; auto). cbn [guard bind].
    erewrite matrix_eq by (try exact I; apply swap_last_app). f_equal. apply tabulate_ext. intros l Hl.
    apply tabulate_ext. intros t Htt. cbn [Batch.cell slice Womd.cell]. rewrite swap_last_app. reflexivity.
  Qed.

  (** Trajectories. *)
  Lemma b_traj_eq B d time n T : (forall f, In f frame_names -> has d (state_key time f) (B ++ [n; T])) ->
    exists tr, b_trajectory d time = Ok tr /\ Batch.dims tr = B ++ [n; T] /\
      forall b, inside B b -> trajectory_from_womd_dict (at_index b d) time = Ok (matrix tr b).
  Proof.
    intros H.
    destruct (bget_Ok d _ _ (H "valid"%string ltac:(cbn; tauto))) as (t1 & G1 & D1 & E1).
    destruct (bget_Ok d _ _ (H "length"%string ltac:(cbn; tauto))) as (t2 & G2 & D2 & E2).
    destruct (bget_Ok d _ _ (H "width"%string ltac:(cbn; tauto))) as (t3 & G3 & D3 & E3).
    destruct (bget_Ok d _ _ (H "height"%string ltac:(cbn; tauto))) as (t4 & G4 & D4 & E4).
    destruct (bget_Ok d _ _ (H "x"%string ltac:(cbn; tauto))) as (t5 & G5 & D5 & E5).
    destruct (bget_Ok d _ _ (H "y"%string ltac:(cbn; tauto))) as (t6 & G6 & D6 & E6).
    destruct (bget_Ok d _ _ (H "z"%string ltac:(cbn; tauto))) as (t7 & G7 & D7 & E7).
    destruct (bget_Ok d _ _ (H "velocity_x"%string ltac:(cbn; tauto))) as (t8 & G8 & D8 & E8).
    destruct (bget_Ok d _ _ (H "velocity_y"%string ltac:(cbn; tauto))) as (t9 & G9 & D9 & E9).
    destruct (bget_Ok d _ _ (H "bbox_yaw"%string ltac:(cbn; tauto))) as (t10 & G10 & D10 & E10).
    destruct (bget_Ok d _ _ (H "timestamp_micros"%string ltac:(cbn; tauto))) as (t11 & G11 & D11 & E11).
    unfold state_key in *. unfold b_trajectory. cbv zeta.
    rewrite E1, E2, E3, E4, E5, E6, E7, E8, E9, E10, E11. cbn [bind Batch.dims Batch.cell].
    replace (1 <=? length (B ++ [n; T])) with true by (symmetry; apply Nat.leb_le; rewrite app_length; cbn; lia).
    cbn [guard bind]. rewrite b_same_refl by (repeat constructor). cbn [guard bind].
    eexists. split; [reflexivity|]. split; [reflexivity|]. intros b I.
    rewrite (traj_from_total _ _ n T) by (intros f Hf; eapply has_at; [apply H; exact Hf|exact I]).
    erewrite matrix_eq by (try exact I; reflexivity). f_equal. apply tabulate_ext. intros i Hi. apply tabulate_ext. intros t Htt.
    cbn [Batch.cell]. unfold frame_of. cbv zeta. unfold box_mean, b_masked_mean. cbv zeta. cbn [Batch.dims Batch.cell].
    rewrite !removelast_app2, last_app2. unfold state_key.
    assert (A : forall k tt, get d k = Some tt -> forall idx, P_WomdState.arr (at_index b d) k idx = tcell tt (b ++ idx)).
    { intros k tt G idx. unfold P_WomdState.arr, value. rewrite get_at, G. reflexivity. }
    rewrite (A _ _ G5), (A _ _ G6), (A _ _ G7), (A _ _ G8), (A _ _ G9), (A _ _ G10), (A _ _ G11), (A _ _ G1).
    assert (Bm : forall k tt, get d k = Some tt ->
      line_mean (tab T (fun t => as_f (P_WomdState.arr (at_index b d) k [i; t])))
        (tab T (fun t => as_b (P_WomdState.arr (at_index b d) ("state/" ++ time ++ "/" ++ "valid")%string [i; t]))) fm1 =
      line_mean (tab T (fun t => as_f (tcell tt ((b ++ [i]) ++ [t]))))
        (tab T (fun t => as_b (tcell t1 ((b ++ [i]) ++ [t])))) fm1).
    { intros k tt G. apply (f_equal2 (fun a c => line_mean a c fm1)); apply tab_ext; intros u Hu;
        [rewrite (A _ _ G)|rewrite (A _ _ G1)]; rewrite <- app_assoc; reflexivity. }
    rewrite (Bm _ _ G2), (Bm _ _ G3), (Bm _ _ G4). reflexivity.
  Qed.

  (** The shapes of all components. *)
  Definition sizes (B : list nat) (n T L T' N : nat) (pk : option (nat * nat)) (bs : bstate) : Prop :=
    Batch.dims (b_sim bs) = B ++ [n; T] /\ Batch.dims (b_log bs) = B ++ [n; T] /\ Batch.dims (b_tls bs) = B ++ [L; T'] /\
    Batch.dims (b_meta bs) = B ++ [n] /\ Batch.dims (b_t bs) = B /\
    (exists rg, b_rg bs = Some rg /\ Batch.dims rg = B ++ [N]) /\
    match pk with
    | None => b_paths bs = None
    | Some (P, K) => exists pts on_route, b_paths bs = Some (pts, on_route) /\
        Batch.dims pts = B ++ [P; K] /\ Batch.dims on_route = B ++ [P]
    end.

  Definition batched_shapes (B : list nat) (d : dict) (time : string) (n T L T' N : nat) (pk : option (nat * nat)) : Prop :=
    (forall f, In f frame_names -> has d (state_key time f) (B ++ [n; T])) /\
    (forall f, In f light_names -> has d (light_key time f) (B ++ [T'; L])) /\
    (forall k, In k ["state/tracks_to_predict"; "state/is_sdc"; "state/objects_of_interest"; "state/id";
                    "state/type"]%string -> has d k (B ++ [n])) /\
    (has d "roadgraph_samples/xyz" (B ++ [N; 3]) /\ has d "roadgraph_samples/dir" (B ++ [N; 3]) /\
     has d "roadgraph_samples/type" (B ++ [N; 1]) /\ has d "roadgraph_samples/id" (B ++ [N; 1]) /\
     has d "roadgraph_samples/valid" (B ++ [N; 1])) /\
    match pk with
    | None => True
    | Some (P, K) =>
        has d "path_samples/xyz" (B ++ [P; K; 3]) /\ has d "path_samples/id" (B ++ [P; K]) /\
        has d "path_samples/valid" (B ++ [P; K]) /\ has d "path_samples/arc_length" (B ++ [P; K]) /\
        has d "path_samples/on_route" (B ++ [P; 1])
    end.

  Lemma b_state_eq B d wp time n T L T' N pk : In time times -> 0 < T -> batched_shapes B d time n T L T' N pk ->
    (wp = true <-> pk <> None) ->
    exists bs, b_simulator_state d wp time = Ok bs /\ sizes B n T L T' N pk bs /\
      forall b, inside B b -> simulator_state_from_womd_dict (at_index b d) wp time = Ok (scenario bs b).
  Proof.
    intros Ht HT (Hf & Hl & Hm & (R1 & R2 & R3 & R4 & R5) & Hp) Hwp.
    destruct (b_road_eq _ _ _ R1 R2 R3 R4 R5) as (rg & Erg & Drg & Srg).
    destruct (b_lights_eq _ _ _ _ _ Ht Hl) as (tls & Etl & Dtl & Stl).
    destruct (b_meta_eq _ _ _ Hm) as (ms & Ems & Dms & Sms).
    destruct (b_traj_eq _ _ _ _ _ Hf) as (log & Elog & Dlog & Slog).
    assert (Dz : Batch.dims (amap (fun _ : pt => zero_pt) log) = B ++ [n; T]) by exact Dlog.
    destruct (b_update_window_Ok (amap (fun _ : pt => zero_pt) log) log B n T (scalar 0%Z) 1 Dz Dlog (or_introl eq_refl) HT)
      as (sim & Esim & Dsim & Csim).
    assert (Hk : existsb (String.eqb time) time_keys = true) by now apply existsb_key.
    assert (Q : exists ps, (if wp then rmap Some (b_paths_from d) else Ok None) = Ok ps /\
      match pk with
      | None => ps = None
      | Some (P, K) => exists pts on_route, ps = Some (pts, on_route) /\
          Batch.dims pts = B ++ [P; K] /\ Batch.dims on_route = B ++ [P]
      end /\
      forall b, inside B b -> (if wp then rmap Some (paths_from_womd_dict (at_index b d)) else Ok None)
        = Ok (option_map (fun p => paths_at p b) ps)).
    { destruct pk as [[P K]|].
      - assert (wp = true) by (apply Hwp; discriminate). subst wp. destruct Hp as (P1 & P2 & P3 & P4 & P5).
        destruct (b_paths_eq _ _ _ _ P1 P2 P3 P4 P5) as (pts & onr & Ep & Dp & Do & Sp).
        exists (Some (pts, onr)). rewrite Ep. split; [reflexivity|]. split; [eauto 6|]. intros b I. now rewrite (Sp b I).
      - destruct wp; [exfalso; apply (proj1 Hwp eq_refl); reflexivity|]. exists None. auto. }
    destruct Q as (ps & Eps & Dps & Sps).
    unfold b_simulator_state. rewrite Hk. cbn [guard bind]. rewrite Erg. cbn [bind]. rewrite Eps. cbn [bind].
    rewrite Etl. cbn [bind]. rewrite Ems. cbn [bind]. rewrite Elog. cbn [bind]. rewrite Esim. cbn [bind].
    assert (Db : removelast (removelast (Batch.dims sim)) = B) by (rewrite Dsim, removelast_app2; apply removelast_app1).
    match goal with |- context [b_validate ?s] => assert (V : b_validate s = Ok tt) end.
    { unfold b_validate, b_shape. cbn [b_sim b_log b_tls b_meta b_t b_rg].
      rewrite Dms, removelast_app1. cbv zeta. rewrite Db, Dsim, Dlog, Dtl, Drg. cbn [map app forallb Batch.dims].
      rewrite !firstn_pre, firstn_all by reflexivity. rewrite dims_eqb_refl. reflexivity. }
    rewrite V. cbn [bind]. eexists. split; [reflexivity|]. split.
    - unfold sizes. cbn [b_sim b_log b_tls b_meta b_t b_rg b_paths Batch.dims].
      do 4 (split; [assumption|]). split; [exact Db|]. split; [eauto|]. exact Dps.
    - intros b I. unfold simulator_state_from_womd_dict. rewrite Hk. cbn [guard bind].
      rewrite (Srg b I). cbn [bind]. rewrite (Sps b I). cbn [bind]. rewrite (Stl b I). cbn [bind].
      rewrite (Sms b I). cbn [bind]. rewrite (Slog b I). cbn [bind].
      pose proof (matrix_rect log B n T b Dlog I) as R.
      assert (R0 : rect n T (map (map (fun _ : pt => zero_pt)) (matrix log b))) by now apply rect_map.
      destruct (update_window_total n T _ _ 0%Z 1 R0 R HT) as (sim' & E'). rewrite E'. cbn [bind].
      destruct (update_window_Ok _ _ _ _ _ _ _ R0 R HT E') as [Rs Es].
      assert (Em : sim' = matrix sim b).
      { apply (is_matrix sim B n T); auto. intros i t Hi Htt. rewrite Es by exact Hi. rewrite Csim by auto. cbv zeta.
        change (clock (scalar 0%Z) b) with 0%Z. destruct (_ && _).
        - now apply (matrix_at2 log B n T).
        - rewrite at2_map, (matrix_at2 log B n T b i t Dlog I Hi Htt). reflexivity. }
      rewrite Em. reflexivity.
  Qed.
End Batches.
