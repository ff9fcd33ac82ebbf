(** Lemmas for loading a state from a WOMD dictionary. *)
From Coq Require Import String.
From Coq Require Import List ZArith Bool Arith Lia.
From Verif.Lib Require Import Base JaxIndex Scalar.
From Verif.Model Require Import Operations State Masked Womd WomdState.
From Verif.Spec Require Import WomdSpec.
From Verif.Proofs Require Import Core P_Womd.
Import ListNotations.
Local Open Scope nat_scope.

Lemma nth_error_tab {A} n (f : nat -> A) i : nth_error (tab n f) i = if i <? n then Some (f i) else None.
Proof.
  unfold tab. rewrite nth_error_map. destruct (Nat.ltb_spec i n) as [H|H].
  - rewrite (nth_error_nth' _ 0) by (rewrite seq_length; auto). rewrite seq_nth by auto. reflexivity.
  - assert (E : nth_error (seq 0 n) i = None) by (apply nth_error_None; now rewrite seq_length). now rewrite E.
Qed.

Lemma tab_length {A} n (f : nat -> A) : length (tab n f) = n.
Proof. unfold tab. now rewrite map_length, seq_length. Qed.

Lemma rect_tab2 {A} n m (f : nat -> nat -> A) : rect n m (tab2 n m f).
Proof.
  split; [apply tab_length|]. intros r Hr. unfold tab2, tab in Hr. apply in_map_iff in Hr as (i & <- & _). apply tab_length.
Qed.

Lemma at2_tab2 {A} n m (f : nat -> nat -> A) i t :
  at2 (tab2 n m f) i t = if (i <? n) && (t <? m) then Some (f i t) else None.
Proof.
  unfold at2, tab2. rewrite nth_error_tab. destruct (i <? n); simpl; auto. apply nth_error_tab.
Qed.

Lemma at2_tab2_Some {A} n m (f : nat -> nat -> A) i t a : at2 (tab2 n m f) i t = Some a ->
  i < n /\ t < m /\ a = f i t.
Proof.
  rewrite at2_tab2. destruct (Nat.ltb_spec i n), (Nat.ltb_spec t m); simpl; try discriminate.
  intros E. injection E as <-. auto.
Qed.

Section Load.
  Context {S : Scalar}.

  Lemma eq_dims_true a b : eq_dims a b = true <-> a = b.
  Proof.
    revert b. induction a as [|x a IH]; intros [|y b]; simpl; try (split; [discriminate|discriminate]); [tauto|].
    rewrite andb_true_iff, Nat.eqb_eq, IH. split; [intros [-> ->]; auto|intros E; injection E; auto].
  Qed.

  Lemma same_shape_true ds ts : same_shape ds ts = true <-> Forall (fun t => dims t = ds) ts.
  Proof.
    unfold same_shape. rewrite forallb_forall, Forall_forall.
    split; intros H t Ht; [apply eq_dims_true|apply eq_dims_true]; auto.
  Qed.

  Lemma getk_has d k ds : has d k ds -> exists a, getk d k = Ok a /\ dims a = ds /\ forall idx, value d k idx = Some (cell a idx).
  Proof.
    intros (a & E & Ds). exists a. unfold value. rewrite E. split; [now apply getk_Ok|]. auto.
  Qed.

  Lemma getk_value d k a : getk d k = Ok a -> get d k = Some a /\ forall idx, value d k idx = Some (cell a idx).
  Proof. intros H. apply getk_Ok in H. split; auto. intros. unfold value. now rewrite H. Qed.

  (** The masked mean of tabulated arrays. *)
  Lemma masked_tab n T (x : nat -> nat -> F) (v : nat -> nat -> bool) inv :
    masked_mean_last (tab2 n T x) (tab2 n T v) inv =
    Ok (tab n (fun i => repeat (line_mean (tab T (x i)) (tab T (v i)) inv) T)).
  Proof.
    unfold masked_mean_last, tab2. rewrite !tab_length, Nat.eqb_refl. cbn [guard bind].
    assert (G : forall l, mapM (fun rv => let* _ := guard (length (fst rv) =? length (snd rv)) ValueError in
                Ok (repeat (line_mean (fst rv) (snd rv) inv) (length (fst rv))))
              (combine (map (fun i => tab T (x i)) l) (map (fun i => tab T (v i)) l))
            = Ok (map (fun i => repeat (line_mean (tab T (x i)) (tab T (v i)) inv) T) l)).
    { induction l as [|i l IH]; [reflexivity|]. cbn [map combine mapM fst snd].
      rewrite !tab_length, Nat.eqb_refl. cbn [guard bind]. rewrite IH. reflexivity. }
    exact (G (seq 0 n)).
  Qed.

  Lemma entry_tab n T (f : nat -> F) i t : i < n -> t < T -> entry (tab n (fun i => repeat (f i) T)) i t = f i.
  Proof.
    intros Hi Ht. unfold entry. erewrite (nth_error_nth (tab n _) i) by (rewrite nth_error_tab; apply Nat.ltb_lt in Hi; now rewrite Hi).
    apply nth_error_nth. apply nth_error_repeat. auto.
  Qed.

  Definition arr (d : dict) (k : string) (idx : list nat) : val :=
    match value d k idx with Some v => v | None => VB false end.

  Lemma arr_value d k idx v : value d k idx = Some v -> arr d k idx = v.
  Proof. unfold arr. now intros ->. Qed.

  (** The trajectory as a function of the dictionary. *)
  Definition box_mean (d : dict) (time f : string) (T i : nat) : F :=
    line_mean (tab T (fun t => as_f (arr d (state_key time f) [i; t])))
              (tab T (fun t => as_b (arr d (state_key time "valid") [i; t]))) fm1.
  Definition frame_of (d : dict) (time : string) (T i t : nat) : pt :=
    let fl f := as_f (arr d (state_key time f) [i; t]) in
    mkpt (fl "x"%string) (fl "y"%string) (fl "z"%string) (fl "velocity_x"%string) (fl "velocity_y"%string)
      (fl "bbox_yaw"%string) (as_b (arr d (state_key time "valid") [i; t]))
      (as_i (arr d (state_key time "timestamp_micros") [i; t]))
      (box_mean d time "length" T i) (box_mean d time "width" T i) (box_mean d time "height" T i).

  Lemma tab_ext {A} n (f g : nat -> A) : (forall i, i < n -> f i = g i) -> tab n f = tab n g.
  Proof. intros H. apply map_ext_in. intros i Hi. apply in_seq in Hi. apply H. lia. Qed.

  Lemma traj_from_Ok d time tr : trajectory_from_womd_dict d time = Ok tr ->
    exists n T, traj_shapes d time n T /\ tr = tab2 n T (frame_of d time T).
  Proof.
    unfold trajectory_from_womd_dict. intros H.
    do 11 (apply bind_Ok in H as (? & ? & H)).
    repeat match goal with E : getk _ _ = Ok _ |- _ => apply getk_value in E as [? ?] end.
    destruct (dims x) as [|n [|T [|]]] eqn:Dv; try discriminate.
    apply bind_Ok in H as (u & G & H). apply guard_Ok, same_shape_true in G.
    rewrite !masked_tab in H. cbn [bind] in H. injection H as <-.
    repeat match goal with F : Forall _ (_ :: _) |- _ => inversion F; clear F; subst end.
    exists n, T. split.
    - intros f Hf. cbn in Hf. repeat (destruct Hf as [<-|Hf]); try contradiction; eexists; split; eassumption.
    - apply tab_ext. intros i Hi. apply tab_ext. intros t Ht. unfold frame_of. cbv zeta.
      rewrite !entry_tab by auto. unfold box_mean.
      repeat match goal with Hv : forall idx, value d ?k idx = Some (cell ?a idx) |- _ =>
        assert (forall idx, cell a idx = arr d k idx) by (intros; symmetry; now apply arr_value); clear Hv end.
      assert (TE : forall (A : Type) (f g : nat -> A), (forall t, f t = g t) -> tab T f = tab T g)
        by (intros; apply tab_ext; auto).
      f_equal; try (f_equal; auto; fail); apply (f_equal2 (fun a b => line_mean a b fm1)); apply TE; intros; f_equal; auto.
  Qed.

  Ltac hs := repeat match goal with
    | H : has _ _ _ |- _ => apply getk_has in H as (? & ? & ? & ?)
    end.

  Lemma traj_from_total d time n T : traj_shapes d time n T ->
    trajectory_from_womd_dict d time = Ok (tab2 n T (frame_of d time T)).
  Proof.
    intros H.
    assert (E : exists tr, trajectory_from_womd_dict d time = Ok tr /\ rect n T tr).
    { assert (G : forall f, In f frame_names -> exists a, getk d (state_key time f) = Ok a /\ dims a = [n; T]).
      { intros f Hf. destruct (getk_has _ _ _ (H f Hf)) as (a & E1 & E2 & _). eauto. }
      unfold trajectory_from_womd_dict. cbv zeta.
      repeat match goal with |- context [getk d ("state/" ++ time ++ "/" ++ ?f)%string] =>
        let a := fresh "a" in let E := fresh "E" in let D := fresh "D" in
        destruct (G f) as (a & E & D); [cbn; tauto|];
        change (getk d ("state/" ++ time ++ "/" ++ f)%string = Ok a) in E; rewrite E; cbn [bind]; clear E end.
      match goal with |- context [dims ?a] => replace (dims a) with [n; T] by auto end.
      replace (same_shape _ _) with true by (symmetry; apply same_shape_true; repeat constructor; auto).
      cbn [guard bind]. rewrite !masked_tab. cbn [bind]. eexists. split; [reflexivity|]. apply rect_tab2. }
    destruct E as (tr & E & R). destruct (traj_from_Ok _ _ _ E) as (n' & T' & H' & ->). rewrite E.
    assert (D1 : has d (state_key time "x") [n; T]) by (apply H; cbn; tauto).
    assert (D2 : has d (state_key time "x") [n'; T']) by (apply H'; cbn; tauto).
    destruct D1 as (a & Ea & Da), D2 as (b & Eb & Db). assert (b = a) by congruence. subst b.
    assert (Q : [n; T] = [n'; T']) by congruence. injection Q as <- <-. reflexivity.
  Qed.

  Lemma frame_of_is_frame d time n T i t : traj_shapes d time n T -> is_frame d time i t (frame_of d time T i t).
  Proof.
    intros H.
    assert (G : forall f, In f frame_names -> value d (state_key time f) [i; t] = Some (arr d (state_key time f) [i; t])).
    { intros f Hf. destruct (getk_has _ _ _ (H f Hf)) as (a & _ & _ & V). rewrite V. f_equal. symmetry. now apply arr_value. }
    split; [|split].
    - intros f g Hf. unfold float_at. rewrite G; [|apply in_or_app; left; apply (in_map fst) in Hf; exact Hf].
      cbn in Hf. repeat (destruct Hf as [Hf|Hf]); try contradiction; injection Hf as <- <-; reflexivity.
    - unfold bool_at. rewrite G by (cbn; tauto). reflexivity.
    - unfold int_at. rewrite G by (cbn; tauto). reflexivity.
  Qed.

  Lemma meta_from_Ok d ms : object_metadata_from_womd_dict d = Ok ms ->
    meta_shapes d (length ms) /\ forall i m, nth_error ms i = Some m -> is_object d i m.
  Proof.
    unfold object_metadata_from_womd_dict. intros H.
    do 5 (apply bind_Ok in H as (? & ? & H)).
    repeat match goal with E : getk _ _ = Ok _ |- _ => apply getk_value in E as [? ?] end.
    destruct (dims x) as [|n [|]] eqn:Dv; try discriminate.
    apply bind_Ok in H as (u & G & H). apply guard_Ok, same_shape_true in G. injection H as <-.
    repeat match goal with F : Forall _ (_ :: _) |- _ => inversion F; clear F; subst end.
    rewrite tab_length. split.
    - intros f Hf. repeat (destruct Hf as [<-|Hf]); try contradiction; eexists; split; eassumption.
    - intros i m Hm. rewrite nth_error_tab in Hm. destruct (i <? n); [|discriminate]. injection Hm as <-.
      unfold is_object, int_at.
      repeat match goal with Hv : forall idx, value d ?k idx = _ |- context [value d ?k _] => rewrite Hv end.
      cbn. rewrite negb_involutive. repeat split.
  Qed.

  Lemma meta_from_total d n : meta_shapes d n -> exists ms, object_metadata_from_womd_dict d = Ok ms.
  Proof.
    intros H.
    assert (G : forall k, In k ["state/tracks_to_predict"; "state/is_sdc"; "state/objects_of_interest"; "state/id";
                    "state/type"]%string -> exists a, getk d k = Ok a /\ dims a = [n]).
    { intros k Hk. destruct (getk_has _ _ _ (H k Hk)) as (a & E1 & E2 & _). eauto. }
    unfold object_metadata_from_womd_dict.
    repeat match goal with |- context [getk d ?k] =>
      let a := fresh "a" in let E := fresh "E" in let D := fresh "D" in
      destruct (G k) as (a & E & D); [cbn; tauto|]; rewrite E; cbn [bind]; clear E end.
    match goal with |- context [dims ?a] => replace (dims a) with [n] by auto end.
    replace (same_shape _ _) with true by (symmetry; apply same_shape_true; repeat constructor; auto).
    cbn [guard bind]. eauto.
  Qed.

  Lemma road_from_Ok d rg : roadgraph_from_womd_dict d = Ok rg ->
    road_shapes d (length rg) /\ forall i r, nth_error rg i = Some r -> is_road_point d i r.
  Proof.
    unfold roadgraph_from_womd_dict. intros H.
    do 5 (apply bind_Ok in H as (? & ? & H)).
    repeat match goal with E : getk _ _ = Ok _ |- _ => apply getk_value in E as [? ?] end.
    destruct (dims x) as [|n [|[|[|[|[|]]]] [|]]] eqn:Dv; try discriminate.
    apply bind_Ok in H as (u & G & H). apply guard_Ok, andb_true_iff in G as [G1 G2].
    apply same_shape_true in G1. apply same_shape_true in G2. injection H as <-.
    repeat match goal with F : Forall _ (_ :: _) |- _ => inversion F; clear F; subst end.
    rewrite tab_length. split.
    - repeat split; eexists; split; eassumption.
    - intros i m Hm. rewrite nth_error_tab in Hm. destruct (i <? n); [|discriminate]. injection Hm as <-.
      unfold is_road_point, int_at, float_at, bool_at.
      repeat match goal with Hv : forall idx, value d ?k idx = _ |- context [value d ?k _] => rewrite !Hv end.
      cbn. repeat split.
  Qed.

  Lemma road_from_total d N : road_shapes d N -> exists rg, roadgraph_from_womd_dict d = Ok rg.
  Proof.
    intros (H1 & H2 & H3 & H4 & H5). hs. unfold roadgraph_from_womd_dict.
    repeat match goal with E : getk d ?k = Ok _ |- context [getk d ?k] => rewrite E; cbn [bind] end.
    match goal with |- context [match dims ?a with _ => _ end] => replace (dims a) with [N; 3] by auto end.
    replace (same_shape _ _ && same_shape _ _) with true
      by (symmetry; apply andb_true_iff; split; apply same_shape_true; repeat constructor; auto).
    cbn [guard bind]. eauto.
  Qed.

  Lemma lights_from_Ok d time tls : traffic_lights_from_womd_dict d time = Ok tls ->
    In time times /\ exists L T, light_shapes d time L T /\ rect L T tls /\
      forall l t x, at2 tls l t = Some x -> is_light d time l t x.
  Proof.
    unfold traffic_lights_from_womd_dict. intros H.
    apply bind_Ok in H as (u & G & H). apply guard_Ok, existsb_key in G. split; [exact G|].
    do 6 (apply bind_Ok in H as (? & ? & H)).
    repeat match goal with E : getk _ _ = Ok _ |- _ => apply getk_value in E as [? ?] end.
    destruct (dims x) as [|T [|L [|]]] eqn:Dv; try discriminate.
    apply bind_Ok in H as (u' & G' & H). apply guard_Ok, same_shape_true in G'. injection H as <-.
    repeat match goal with F : Forall _ (_ :: _) |- _ => inversion F; clear F; subst end.
    exists L, T. split; [|split; [apply rect_tab2|]].
    - intros f Hf. cbn in Hf. repeat (destruct Hf as [<-|Hf]); try contradiction; eexists; split; eassumption.
    - intros l t y Hy. apply at2_tab2_Some in Hy as (_ & _ & ->).
      unfold is_light, int_at, float_at, bool_at, light_key.
      repeat match goal with Hv : forall idx, value d ?k idx = _ |- context [value d ?k _] => rewrite !Hv end.
      cbn. repeat split.
  Qed.

  Lemma lights_from_total d time L T : In time times -> light_shapes d time L T ->
    exists tls, traffic_lights_from_womd_dict d time = Ok tls.
  Proof.
    intros Ht H. unfold traffic_lights_from_womd_dict.
    replace (existsb _ _) with true by (symmetry; now apply existsb_key). cbn [guard bind]. cbv zeta.
    assert (G : forall f, In f light_names -> exists a, getk d (light_key time f) = Ok a /\ dims a = [T; L]).
    { intros f Hf. destruct (getk_has _ _ _ (H f Hf)) as (a & E1 & E2 & _). eauto. }
    repeat match goal with |- context [getk d ("traffic_light_state/" ++ time ++ "/" ++ ?f)%string] =>
      let a := fresh "a" in let E := fresh "E" in let D := fresh "D" in
      destruct (G f) as (a & E & D); [cbn; tauto|];
      change (getk d ("traffic_light_state/" ++ time ++ "/" ++ f)%string = Ok a) in E; rewrite E; cbn [bind]; clear E end.
    match goal with |- context [dims ?a] => replace (dims a) with [T; L] by auto end.
    replace (same_shape _ _) with true by (symmetry; apply same_shape_true; repeat constructor; auto).
    cbn [guard bind]. eauto.
  Qed.

  Lemma paths_from_Ok d ps : paths_from_womd_dict d = Ok ps ->
    exists K, path_shapes d (length ps) K /\ forall i p, nth_error ps i = Some p ->
      length (path_pts p) = K /\ bool_at d "path_samples/on_route" [i; 0] = Some (path_on_route p) /\
      forall j pp, nth_error (path_pts p) j = Some pp -> is_path_point d i j pp.
  Proof.
    unfold paths_from_womd_dict. intros H.
    do 5 (apply bind_Ok in H as (? & ? & H)).
    repeat match goal with E : getk _ _ = Ok _ |- _ => apply getk_value in E as [? ?] end.
    destruct (dims x) as [|n [|K [|[|[|[|[|]]]] [|]]]] eqn:Dv; try discriminate.
    apply bind_Ok in H as (u & G & H). apply guard_Ok, andb_true_iff in G as [G1 G2].
    apply same_shape_true in G1. apply same_shape_true in G2. injection H as <-.
    repeat match goal with F : Forall _ (_ :: _) |- _ => inversion F; clear F; subst end.
    exists K. rewrite tab_length. split.
    - repeat split; eexists; split; eassumption.
    - intros i m Hm. rewrite nth_error_tab in Hm. destruct (i <? n); [|discriminate]. injection Hm as <-.
      cbn [path_pts path_on_route]. rewrite tab_length. split; auto.
      unfold bool_at at 1.
      repeat match goal with Hv : forall idx, value d ?k idx = _ |- context [value d ?k _] => rewrite !Hv end.
      split; auto. intros j pp Hj. rewrite nth_error_tab in Hj. destruct (j <? K); [|discriminate]. injection Hj as <-.
      unfold is_path_point, int_at, float_at, bool_at.
      repeat match goal with Hv : forall idx, value d ?k idx = _ |- context [value d ?k _] => rewrite !Hv end.
      cbn. repeat split.
  Qed.

  Lemma paths_from_total d P K : path_shapes d P K -> exists ps, paths_from_womd_dict d = Ok ps.
  Proof.
    intros (H1 & H2 & H3 & H4 & H5). hs. unfold paths_from_womd_dict.
    repeat match goal with E : getk d ?k = Ok _ |- context [getk d ?k] => rewrite E; cbn [bind] end.
    match goal with |- context [match dims ?a with _ => _ end] => replace (dims a) with [P; K; 3] by auto end.
    replace (same_shape _ _ && same_shape _ _) with true
      by (symmetry; apply andb_true_iff; split; apply same_shape_true; repeat constructor; auto).
    cbn [guard bind]. eauto.
  Qed.

  Lemma load_Ok d wp time s : simulator_state_from_womd_dict d wp time = Ok s ->
    In time times /\ s_t s = 0%Z /\
    (exists n T, traj_shapes d time n T /\ (n = 0 \/ 0 < T) /\ s_log s = tab2 n T (frame_of d time T) /\
       rect n T (s_sim s) /\
       forall i t, i < n -> t < T -> at2 (s_sim s) i t = if t =? 0 then at2 (s_log s) i t else Some zero_pt) /\
    traffic_lights_from_womd_dict d time = Ok (s_tls s) /\
    object_metadata_from_womd_dict d = Ok (s_meta s) /\
    (exists rg, s_rg s = Some rg /\ roadgraph_from_womd_dict d = Ok rg) /\
    match s_paths s with
    | None => wp = false
    | Some ps => wp = true /\ paths_from_womd_dict d = Ok ps
    end.
  Proof.
    unfold simulator_state_from_womd_dict. intros H.
    apply bind_Ok in H as (u & G & H). apply guard_Ok, existsb_key in G.
    apply bind_Ok in H as (rg & Hrg & H). apply bind_Ok in H as (ps & Hps & H).
    apply bind_Ok in H as (tls & Htl & H). apply bind_Ok in H as (ms & Hms & H).
    apply bind_Ok in H as (log & Hlog & H). apply bind_Ok in H as (sim & Hsim & H). injection H as <-.
    cbn [s_t s_log s_sim s_tls s_meta s_rg s_paths].
    split; [exact G|]. split; [reflexivity|]. split; [|split; [exact Htl|split; [exact Hms|split; [eauto|]]]].
    2:{ destruct wp; [|injection Hps as <-; reflexivity]. unfold rmap in Hps.
        destruct (paths_from_womd_dict d) as [ps'|]; [|discriminate]. injection Hps as <-. auto. }
    destruct (traj_from_Ok _ _ _ Hlog) as (n & T & Sh & ->). exists n, T. split; [exact Sh|].
    assert (R : rect n T (tab2 n T (frame_of d time T))) by apply rect_tab2.
    assert (R0 : rect n T (map (map (fun _ : pt => zero_pt)) (tab2 n T (frame_of d time T)))) by now apply rect_map.
    destruct n as [|n].
    - split; [auto|]. split; [reflexivity|]. cbn in Hsim. injection Hsim as <-.
      split; [split; [reflexivity|contradiction]|]. intros; lia.
    - assert (HT : 0 < T).
      { destruct T; [exfalso|lia]. unfold tab2, tab in Hsim. cbn in Hsim. discriminate. }
      split; [auto|]. split; [reflexivity|].
      destruct (update_window_Ok _ _ _ _ _ _ _ R0 R HT Hsim) as [Rs Es]. split; [exact Rs|].
      intros i t Hi Ht. rewrite Es by auto.
      replace (norm_start 0 T 1) with 0 by (symmetry; apply (norm_start_of_nat 0); lia).
      rewrite at2_map. destruct t; cbn [Nat.leb Nat.ltb andb Nat.eqb plus]; auto.
      destruct (rect_at2 _ _ _ i (Datatypes.S t) R Hi Ht) as [a Ea]. rewrite Ea. reflexivity.
  Qed.

  Lemma load_iff d wp time : loadable d wp time <-> exists s, simulator_state_from_womd_dict d wp time = Ok s.
  Proof.
    split.
    - intros (Ht & (N & Hr) & (L & T' & Hl) & (m & Hm) & (n & T & Htr & HT) & Hp).
      unfold simulator_state_from_womd_dict.
      replace (existsb _ _) with true by (symmetry; now apply existsb_key). cbn [guard bind].
      destruct (road_from_total _ _ Hr) as (rg & ->). cbn [bind].
      assert (Ep : exists ps, (if wp then rmap Some (paths_from_womd_dict d) else Ok None) = Ok ps).
      { destruct wp; [|eauto]. destruct (Hp eq_refl) as (P & K & Hpk).
        destruct (paths_from_total _ _ _ Hpk) as (ps & ->). cbn. eauto. }
      destruct Ep as (ps & ->). cbn [bind].
      destruct (lights_from_total _ _ _ _ Ht Hl) as (tls & ->). cbn [bind].
      destruct (meta_from_total _ _ Hm) as (ms & ->). cbn [bind].
      rewrite (traj_from_total _ _ _ _ Htr). cbn [bind].
      assert (R : rect n T (tab2 n T (frame_of d time T))) by apply rect_tab2.
      assert (E : exists sim, update_by_slice_in_dim (map (map (fun _ : pt => zero_pt)) (tab2 n T (frame_of d time T)))
                    (tab2 n T (frame_of d time T)) 0 None (Some 1) = Ok sim).
      { destruct HT as [->|HT]; [eexists; reflexivity|].
        apply (update_window_total n T); auto. now apply rect_map. }
      destruct E as (sim & ->). cbn [bind]. eauto.
    - intros (s & H). destruct (load_Ok _ _ _ _ H) as (Ht & _ & (n & T & Sh & HT & _) & Htl & Hms & (rg & _ & Hrg) & Hps).
      split; [exact Ht|]. split; [exists (length rg); now apply road_from_Ok|].
      split; [apply lights_from_Ok in Htl as (_ & L & T' & Hl & _); eauto|].
      split; [exists (length (s_meta s)); now apply meta_from_Ok|]. split; [eauto|].
      intros ->. destruct (s_paths s) as [ps|]; [|discriminate]. destruct Hps as [_ Hps].
      apply paths_from_Ok in Hps as (K & Hk & _). eauto.
  Qed.
End Load.
