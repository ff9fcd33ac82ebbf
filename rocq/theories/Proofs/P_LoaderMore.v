(** Order of the states, and records or settings for which the generator raises. *)
From Coq Require Import String.
From Coq Require Import List ZArith Bool Arith Lia Permutation.
From Verif.Lib Require Import Base JaxIndex Scalar.
From Verif.Model Require Import Operations State Geometry Metrics Masked Womd WomdState Batch Pipeline Loader.
From Verif.Spec Require Import StateSpec WomdSpec BatchSpec LoadSpec LoaderSpec.
From Verif.Proofs Require Import Core P_Womd P_WomdState P_WomdExport P_WomdTrip P_LoaderOne P_LoaderRecord P_LoaderBatch
  P_LoaderStack P_Loader P_Batch P_Pipeline.
Import ListNotations.
Local Open Scope nat_scope.

Section More.
  Context {S : Scalar}.
  Notation tdims := Womd.dims.

  Lemma generator_total {File} (records : File -> list serialized) py_shuffle c devices files count index :
    Forall (fun d => 1 <= d) (generator_batch_dims (dc_distributed c) devices (ld_batch_dims (dc_loader c))) ->
    exists ys x, simulator_state_generator records py_shuffle c devices files count index ys x.
  Proof.
    intros H. unfold simulator_state_generator. destruct (config_features c) as [fd|e]; [|eauto].
    destruct (process_total records (expand c) py_shuffle (config_loader c devices) files count index H) as (els & Hels).
    destruct (consume (postprocess c devices) els) as [ys x] eqn:E. exists ys, x, els. auto.
  Qed.

  Lemma generator_order {File} (records : File -> list serialized) py_shuffle c devices f ys x :
    (forall s (l : list File), Permutation (py_shuffle s l) l) ->
    standard_config c devices -> ld_num_shards (dc_loader c) = 1 -> ld_seed (dc_loader c) = None ->
    ld_deterministic (dc_loader c) = true ->
    (forall s, In s (records f) -> exists e, s = Some e /\ well_formed (dc_max_num_rg_points c) (wanted_paths c) e) ->
    simulator_state_generator records py_shuffle c devices [f] 1 0 ys x ->
    x = None /\ exists es rest,
      Forall2 (scenario_of_record (kept (dc_max_num_objects c)) (dc_max_num_rg_points c) (wanted_paths c)) es
        (flat_map scenarios ys) /\
      map Some es ++ rest = concat (repeat (records f) (ld_repeat (dc_loader c))) /\
      (ld_drop (dc_loader c) = false -> rest = []) /\
      length rest < prod (generator_batch_dims (dc_distributed c) devices (ld_batch_dims (dc_loader c))).
  Proof.
    intros Hp Hs H1 Hse Hdet Hw Hg. destruct (features_ok c devices Hs) as (fd & Hfd).
    unfold simulator_state_generator in Hg. rewrite Hfd in Hg. destruct Hg as (els & Hels & Hco).
    assert (Hb : dc_by_scenario c = true) by apply Hs.
    assert (Hw' : forall g s, In g [f] -> In s (records g) ->
      exists e, s = Some e /\ well_formed (dc_max_num_rg_points c) (wanted_paths c) e).
    { intros g s [<-|[]]. apply Hw. }
    destruct (single_file_order records (expand c) py_shuffle (config_loader c devices) f els H1 Hse Hdet Hels) as (rest & E & Nr & Lr).
    destruct (process_spec records (expand c) py_shuffle (config_loader c devices) [f] 1 0 els) as (Ff & Fh & _);
      [cbn [config_loader ld_num_shards]; lia|exact Hels|].
    unfold passes, all_examples in E. cbn [config_loader ld_repeat] in E. rewrite (passes_map records c [f] _ Hb) in E.
    cbn [flat_map] in E. rewrite app_nil_r in E.
    assert (Rec : forall e r, In e els -> In r (examples e) -> In r (map (preprocess_serialized c) (flat_map records [f]))).
    { intros e r H2 H3. cbn [flat_map]. rewrite app_nil_r.
      assert (In r (map (preprocess_serialized c) (concat (repeat (records f) (ld_repeat (dc_loader c)))))) as H.
      { rewrite <- E. apply in_or_app. left. apply in_flat_map. eauto. }
      apply in_map_iff in H as (s & <- & H). apply in_map. now apply In_concat_repeat in H. }
    destruct (run_elements records py_shuffle c devices [f] Hs Hw' 1 0 els Hels) as (ss & Es & _ & F2); [|exact Ff|exact Fh|].
    { apply Forall_forall. intros e He. apply Forall_forall. intros r Hr. eapply Rec; eauto. }
    rewrite Es in Hco. injection Hco as <- <-. split; [reflexivity|]. symmetry in E.
    apply map_eq_app_inv in E as (l1 & l2 & El & E1 & E2). rewrite <- E1 in F2.
    destruct (records_of c devices Hs l1 _ F2) as (es & -> & Fe).
    { intros s Hin. apply Hw. eapply In_concat_repeat. rewrite El. apply in_or_app. now left. }
    exists es, l2. split; [exact Fe|]. split; [auto|]. subst rest. split.
    - intros D. apply Nr in D. now apply map_eq_nil in D.
    - now rewrite map_length in Lr.
  Qed.

  (** ** Failures *)

  Lemma mapM_fails {A B} (f : A -> res B) l a : In a l -> (exists e, f a = Err e) -> exists e, mapM f l = Err e.
  Proof.
    intros Hin He. destruct (mapM f l) as [bs|e] eqn:E; [|eauto]. exfalso.
    destruct (mapM_In f l bs E) as [_ H]. destruct (H a Hin) as (b & _ & Hb). destruct He as (e & He). congruence.
  Qed.

  Lemma collate_fails ds : forall e, fits_shape ds e -> (exists x, In (Err x) (examples e)) -> exists y, collate e = Err y.
  Proof.
    induction ds as [|d ds IH]; intros e Hf (x & Hx); inversion Hf as [a|d' ds' l Hl Fl]; subst.
    - cbn in Hx. destruct Hx as [->|[]]. cbn. eauto.
    - cbn [examples] in Hx. apply in_flat_map in Hx as (e' & He' & Hx). rewrite Forall_forall in Fl.
      destruct (IH e' (Fl e' He')) as (y & Hy); [eauto|]. rewrite collate_batch.
      destruct (mapM_fails collate l e' He' (ex_intro _ y Hy)) as (z & ->). cbn. eauto.
  Qed.

  Lemma consume_fails post els e y : In e els -> collate e = Err y -> exists z, snd (consume post els) = Some z.
  Proof.
    intros Hin Hy. induction els as [|a els IH]; [contradiction|]. cbn [consume].
    destruct (bind (collate a) post) as [s|z] eqn:E; [|cbn; eauto].
    destruct Hin as [->|Hin]; [rewrite Hy in E; discriminate|]. destruct (IH Hin) as (z & Hz).
    destruct (consume post els) as [l x]. cbn in *. eauto.
  Qed.

  (** A bad record is never skipped silently. *)
  Lemma bad_record {File} (records : File -> list serialized) py_shuffle c devices files count runs f s :
    (forall s (l : list File), Permutation (py_shuffle s l) l) ->
    dc_by_scenario c = true -> 1 <= ld_num_shards (dc_loader c) -> 1 <= count -> length runs = count ->
    (forall p ys x, nth_error runs p = Some (ys, x) ->
       simulator_state_generator records py_shuffle c devices files count p ys x) ->
    ld_drop (dc_loader c) = false \/
      prod (generator_batch_dims (dc_distributed c) devices (ld_batch_dims (dc_loader c))) = 1 ->
    1 <= ld_repeat (dc_loader c) -> In f files -> In s (records f) ->
    ~ (exists e, s = Some e /\ well_formed (dc_max_num_rg_points c) (wanted_paths c) e) ->
    exists ys x, In (ys, Some x) runs.
  Proof.
    intros Hp Hb Hn Hc Lr Hg Hd Hrep Hf Hin Hbad.
    destruct (config_features c) as [fd|e0] eqn:Hfd.
    2:{ destruct runs as [|[ys x] rs]; [cbn in Lr; lia|]. pose proof (Hg 0 ys x eq_refl) as H0.
        unfold simulator_state_generator in H0. rewrite Hfd in H0. destruct H0 as [-> ->]. exists [], e0. now left. }
    assert (G : forall runs k, (forall p ys x, nth_error runs p = Some (ys, x) ->
         simulator_state_generator records py_shuffle c devices files count (k + p) ys x) ->
         exists outs, length outs = length runs /\
         (forall p out, nth_error outs p = Some out ->
           tf_examples_dataset records (expand c) py_shuffle (config_loader c devices) files count (k + p) out) /\
         (forall p out, nth_error outs p = Some out -> nth_error runs p = Some (consume (postprocess c devices) out))).
    { clear Lr Hg. induction runs0 as [|[ys x] rs IH]; intros k H.
      - exists []. split; [reflexivity|]. split; intros [|p]; discriminate.
      - destruct (IH (Datatypes.S k)) as (outs & L & H1 & H2).
        { intros p ys' x' E. replace (Datatypes.S k + p) with (k + Datatypes.S p) by lia. now apply H. }
        pose proof (H 0 ys x eq_refl) as H0. unfold simulator_state_generator in H0. rewrite Hfd in H0.
        destruct H0 as (els & Hels & Hco). exists (els :: outs). split; [cbn; lia|]. split.
        + intros [|p] out E; cbn in E; [injection E as <-; exact Hels|].
          replace (k + Datatypes.S p) with (Datatypes.S k + p) by lia. now apply H1.
        + intros [|p] out E; cbn in E; [injection E as <-; cbn; now rewrite Hco|]. exact (H2 p out E). }
    destruct (G runs 0 Hg) as (outs & Lo & Ho & Hco). rewrite Lr in Lo.
    destruct (all_processes records (expand c) py_shuffle Hp (config_loader c devices) files count outs Hn Hc Lo Ho)
      as (F1 & rest & Pr & Nr & Lrest).
    unfold passes, all_examples in Pr. cbn [config_loader ld_repeat ld_batch_dims ld_num_shards ld_drop] in Pr, Lrest, Nr. rewrite (passes_map records c files _ Hb) in Pr.
    assert (rest = []).
    { destruct Hd as [Hd|Hd]; [auto|]. rewrite Hd in Lrest. destruct rest; [reflexivity|cbn in Lrest; lia]. }
    subst rest. rewrite app_nil_r in Pr.
    destruct (preprocess_serialized c s) as [d|x] eqn:Es.
    { exfalso. apply Hbad. apply (readable c s (ex_intro _ fd Hfd)). eauto. }
    assert (I : In (Err x) (flat_map examples (concat outs))).
    { eapply Permutation_in; [symmetry; exact Pr|]. rewrite <- Es. apply in_map.
      destruct (ld_repeat (dc_loader c)); [lia|]. cbn [repeat concat]. apply in_or_app. left. apply in_flat_map. eauto. }
    apply in_flat_map in I as (e & He & Hx). apply in_concat in He as (out & Hout & He).
    pose proof (proj1 (Forall_forall _ _) F1 _ Hout) as [Ff _]. rewrite Forall_forall in Ff.
    destruct (collate_fails _ e (Ff e He)) as (y & Hy); [eauto|].
    destruct (consume_fails (postprocess c devices) out e y He Hy) as (z & Hz).
    apply In_nth_error in Hout as (p & Hpo). specialize (Hco p out Hpo). apply nth_error_In in Hco.
    destruct (consume (postprocess c devices) out) as [ys z']. cbn in Hz. subst z'. eauto.
  Qed.

  (** ** Settings that never yield a state *)

  Lemma stack_keys ds d : stack ds = Ok d -> exists d0, In d0 ds /\ map fst d = map fst d0.
  Proof.
    destruct ds as [|d0 ds]; [discriminate|]. intros H. exists d0. split; [now left|]. unfold stack in H. eapply mapM_keys; [|exact H].
    intros [k t] y E. apply bind_Ok in E as (ts & _ & E). apply bind_Ok in E as (? & _ & E). apply Ok_eq in E. now subst y.
  Qed.

  Lemma collate_keys ds : forall e d, fits_shape ds e -> collate e = Ok d ->
    exists d0, In (Ok d0) (examples e) /\ map fst d = map fst d0.
  Proof.
    induction ds as [|k ds IH]; intros e d Hf E; inversion Hf as [a|d' ds' l Hl Fl]; subst.
    - cbn in *. subst a. exists d. auto.
    - rewrite collate_batch in E. apply bind_Ok in E as (xs & Hxs & E). apply stack_keys in E as (x & Hx & Ek).
      destruct (mapM_In _ _ _ Hxs) as [H _]. destruct (H x Hx) as (e' & He' & Ee'). rewrite Forall_forall in Fl.
      destruct (IH e' x (Fl e' He') Ee') as (d0 & Hd0 & Ek0). exists d0. split; [|congruence].
      cbn [examples]. apply in_flat_map. eauto.
  Qed.

  Lemma consume_nothing post els : (forall e d s, In e els -> collate e = Ok d -> post d <> Ok s) -> fst (consume post els) = [].
  Proof.
    intros H. destruct els as [|e els]; [reflexivity|]. cbn [consume].
    destruct (collate e) as [d|x] eqn:E; cbn [bind]; [|reflexivity].
    destruct (post d) as [s|x] eqn:Ep; [|reflexivity]. exfalso. eapply H; eauto. now left.
  Qed.

  Lemma no_key d k : ~ In k (map fst d) -> getk d k = Err KeyError.
  Proof.
    intros H. unfold getk. destruct (get d k) as [v|] eqn:E; [|reflexivity]. exfalso. apply H. apply get_In in E.
    apply (in_map fst) in E. exact E.
  Qed.

  Lemma row_keys i d : map fst (row_of i d) = map fst d.
  Proof. unfold row_of. rewrite map_map. reflexivity. Qed.

  Lemma post_needs c devices d s : postprocess c devices d = Ok s -> In "traffic_light_state/all/x"%string (map fst d).
  Proof.
    assert (Q : forall d s, b_simulator_state d (dc_include_sdc_paths c) "all" = Ok s -> In "traffic_light_state/all/x"%string (map fst d)).
    { intros d' s' H. destruct (in_dec string_dec "traffic_light_state/all/x"%string (map fst d')) as [I|I]; [exact I|]. exfalso.
      unfold b_simulator_state in H. apply bind_Ok in H as (? & _ & H). apply bind_Ok in H as (? & _ & H).
      apply bind_Ok in H as (? & _ & H). apply bind_Ok in H as (tls & Ht & H). unfold b_lights in Ht. cbn in Ht.
      unfold bget in Ht. rewrite (no_key _ _ I) in Ht. discriminate. }
    unfold postprocess. destruct (dc_distributed c); [|apply Q]. unfold pmap_state. intros H.
    apply bind_Ok in H as (k & _ & H). apply bind_Ok in H as (? & _ & H). apply bind_Ok in H as (ss & Hss & H).
    destruct ss as [|s0 ss]; [discriminate|]. destruct (mapM_In _ _ _ Hss) as [G _].
    destruct (G s0 (or_introl eq_refl)) as (i & _ & Hi). apply Q in Hi. now rewrite row_keys in Hi.
  Qed.

  Lemma expand_keys c r d : dc_aggregate c = false -> In (Ok d) (expand c r) -> exists e fd o, r = Some e /\ config_features c = Ok fd /\ parse_example (Some e) fd = Ok o /\
      map fst d = map fst o.
  Proof.
    intros Ha H. unfold expand in H. destruct (preprocess_serialized c r) as [d0|x] eqn:E; [|destruct H as [H|[]]; discriminate].
    unfold preprocess_serialized in E. apply bind_Ok in E as (fd & Hfd & E). apply bind_Ok in E as (o & Ho & E).
    destruct r as [e|]; [|discriminate]. exists e, fd, o. split; [reflexivity|]. split; [exact Hfd|]. split; [exact Ho|].
    assert (K0 : map fst d0 = map fst o).
    { rewrite Ha in E. unfold preprocess_womd_example in E. cbn [bind] in E. destruct (dc_max_num_objects c); [|apply Ok_eq in E; now subst].
      eapply mapM_keys; [|exact E]. intros [k t] y Ey. cbn [fst snd] in *. destruct (strip "state/" k).
      - apply bind_Ok in Ey as (v & _ & Ey). apply Ok_eq in Ey. now subst y.
      - apply Ok_eq in Ey. now subst y. }
    destruct (dc_by_scenario c).
    - destruct H as [H|[]]. apply Ok_eq in H. now subst d0.
    - unfold unbatch in H. destruct (common_rows d0) as [k|x]; [|destruct H as [H|[]]; discriminate]. cbn [bind] in H.
      apply in_map_iff in H as (d' & H & Hin). apply Ok_eq in H. subst d'. apply in_map_iff in Hin as (i & <- & _). now rewrite row_keys.
  Qed.

  Lemma no_all_light c fd : config_features c = Ok fd -> ~ In "traffic_light_state/all/x"%string (map fst fd).
  Proof.
    intros Hfd Hin. apply in_map_iff in Hin as ([name ft] & E & Hin). cbn in E. subst name. unfold config_features in Hfd.
    destruct (features_cases _ _ _ _ _ _ _ _ _ Hfd Hin)
        as [(time & steps & f & dt & _ & _ & E & _)|[(time & steps & f & dt & Ht & _ & E & _)|
           [(time & steps & Ht & E & _)|[(dt & H & _)|[(cc & dt & H & _)|(P & K & _ & H)]]]]].
    - discriminate.
    - cbn in Ht. unfold light_key in E. repeat (destruct Ht as [Ht|Ht]; [injection Ht as <- <-; discriminate|]). contradiction.
    - cbn in Ht. unfold light_key in E. repeat (destruct Ht as [Ht|Ht]; [injection Ht as <- <-; discriminate|]). contradiction.
    - repeat (destruct H as [H|H]; [discriminate|]). contradiction.
    - repeat (destruct H as [H|H]; [discriminate|]). contradiction.
    - repeat (destruct H as [H|H]; [discriminate|]). contradiction.
  Qed.

  Lemma dataset_In {File} (records : File -> list serialized) py_shuffle c devices files count index els :
    (forall s (l : list File), Permutation (py_shuffle s l) l) -> 1 <= ld_num_shards (dc_loader c) ->
    tf_examples_dataset records (expand c) py_shuffle (config_loader c devices) files count index els ->
    forall e, In e els -> (exists ds, fits_shape ds e) /\ forall r, In r (examples e) -> exists s, In r (expand c s).
  Proof.
    intros Hp Hn H e He.
    destruct (process_spec records (expand c) py_shuffle (config_loader c devices) files count index els Hn H) as (Ff & _ & rest & P & _).
    split; [rewrite Forall_forall in Ff; eauto|]. intros r Hr.
    assert (I : In r (passes records (expand c) (shard (file_order py_shuffle (ld_seed (config_loader c devices)) files) count index)
                       (ld_repeat (config_loader c devices)))).
    { eapply Permutation_in; [exact P|]. apply in_or_app. left. apply in_flat_map. eauto. }
    unfold passes, all_examples in I. apply In_concat_repeat in I. apply in_flat_map in I as (s & _ & I). eauto.
  Qed.

  Lemma no_aggregate {File} (records : File -> list serialized) py_shuffle c devices files count index ys x :
    (forall s (l : list File), Permutation (py_shuffle s l) l) -> 1 <= ld_num_shards (dc_loader c) ->
    dc_aggregate c = false ->
    simulator_state_generator records py_shuffle c devices files count index ys x -> ys = [].
  Proof.
    intros Hp Hn Ha H. unfold simulator_state_generator in H. destruct (config_features c) as [fd|e] eqn:Hfd; [|apply H].
    destruct H as (els & Hels & Hco). change ys with (fst (ys, x)). rewrite <- Hco. apply consume_nothing.
    intros e d s He Hd Hpost. apply post_needs in Hpost.
    destruct (dataset_In _ _ _ _ _ _ _ _ Hp Hn Hels e He) as [(ds & Hf) Hex].
    destruct (collate_keys ds e d Hf Hd) as (d0 & Hd0 & Ek). destruct (Hex _ Hd0) as (r & Hr).
    destruct (expand_keys c r d0 Ha Hr) as (e0 & fd' & o & -> & Hfd' & Ho & Eo).
    rewrite Hfd in Hfd'. apply Ok_eq in Hfd'. subst fd'.
    apply (no_all_light c fd Hfd). rewrite <- (parse_keys _ _ _ Ho). congruence.
  Qed.

  Lemma common_rows_has d k key a r : common_rows d = Ok k -> has d key (a :: r) -> a = k.
  Proof.
    intros H (t & G & D). unfold common_rows in H. destruct d as [|[k0 t0] d']; [discriminate|].
    destruct (tdims t0) as [|k1 r1] eqn:E0; [discriminate|]. apply bind_Ok in H as (u & Hu & H). apply Ok_eq in H. subst k1.
    apply get_In in G. unfold guard in Hu. destruct (forallb _ _) eqn:Fb in Hu; [|discriminate].
    rewrite forallb_forall in Fb. specialize (Fb _ G). cbn [snd] in Fb. rewrite D in Fb. now apply Nat.eqb_eq in Fb.
  Qed.

  Lemma no_unbatch {File} (records : File -> list serialized) py_shuffle c devices files count index ys x :
    (forall s (l : list File), Permutation (py_shuffle s l) l) -> 1 <= ld_num_shards (dc_loader c) ->
    dc_by_scenario c = false -> ~ (kept (dc_max_num_objects c) = 91 /\ dc_max_num_rg_points c = 91) ->
    simulator_state_generator records py_shuffle c devices files count index ys x -> ys = [].
  Proof.
    intros Hp Hn Hb Hne H. destruct (dc_aggregate c) eqn:Ha; [|now apply (no_aggregate _ _ _ _ _ _ _ _ _ Hp Hn Ha H)].
    unfold simulator_state_generator in H. destruct (config_features c) as [fd|e] eqn:Hfd; [|apply H].
    destruct H as (els & Hels & Hco). change ys with (fst (ys, x)). rewrite <- Hco. apply consume_nothing.
    intros e d s He Hd _. destruct (dataset_In _ _ _ _ _ _ _ _ Hp Hn Hels e He) as [(ds & Hf) Hex].
    destruct (collate_keys ds e d Hf Hd) as (d0 & Hd0 & _). destruct (Hex _ Hd0) as (r & Hr).
    unfold expand in Hr. destruct (preprocess_serialized c r) as [d1|z] eqn:E; [|destruct Hr as [Hr|[]]; discriminate].
    rewrite Hb in Hr. unfold unbatch in Hr. destruct (common_rows d1) as [k|z] eqn:Ek; [|destruct Hr as [Hr|[]]; discriminate].
    destruct r as [e0|]; [|unfold preprocess_serialized in E; rewrite Hfd in E; discriminate].
    destruct (record_layout c e0 d1 Ha E) as (_ & _ & HL).
    destruct (HL [] d1) as (Ht & Hl & Hm & (R1 & _) & _).
    { rewrite <- (map_id (layout d1)) at 1. apply map_ext. intros [? ?]. reflexivity. }
    apply Hne. cbn [app] in *.
    pose proof (common_rows_has _ _ _ _ _ Ek (Hl "x"%string ltac:(cbn; tauto))).
    pose proof (common_rows_has _ _ _ _ _ Ek (Ht "x"%string ltac:(cbn; tauto))).
    pose proof (common_rows_has _ _ _ _ _ Ek R1). lia.
  Qed.

  (** ** Remainders with two batch dimensions *)

  Lemma stack_ragged d d' Ly a b : a <> b -> Ly <> [] -> NoDup (map fst Ly) ->
    layout d = map (fun kd => (fst kd, a :: snd kd)) Ly -> layout d' = map (fun kd => (fst kd, b :: snd kd)) Ly ->
    stack [d; d'] = Err ValueError.
  Proof.
    intros Hab Hn Nd L L'. destruct Ly as [|[k ds] Ly]; [congruence|].
    destruct d as [|[k0 t] d]; [discriminate|]. destruct d' as [|[k1 t'] d']; [discriminate|].
    cbn [layout map fst snd] in L, L'. injection L as -> Et L. injection L' as -> Et' L'.
    unfold stack. cbn [mapM fst snd]. unfold getk at 1 2. cbn [get]. rewrite String.eqb_refl. cbn [bind].
    unfold forallb at 1. rewrite dims_eqb_refl, Et, Et'. cbn [dims_eqb].
    replace (b =? a) with false by (symmetry; apply Nat.eqb_neq; congruence). cbn. reflexivity.
  Qed.

  Lemma three_in_two_by_two {File} (records : File -> list serialized) py_shuffle c devices f e ys x :
    dc_aggregate c = true -> dc_by_scenario c = true -> dc_distributed c = false ->
    (dc_include_sdc_paths c = true -> dc_num_paths c <> None /\ dc_num_points c <> None) ->
    dc_loader c = mkloader 1 1 None [2; 2] false true ->
    records f = [Some e; Some e; Some e] -> well_formed (dc_max_num_rg_points c) (wanted_paths c) e ->
    simulator_state_generator records py_shuffle c devices [f] 1 0 ys x -> ys = [] /\ x = Some ValueError.
  Proof.
    intros Ha Hb Hdist Hp Hl Hr W H. destruct (standard_features c Hp) as (fd & Hfd).
    unfold simulator_state_generator in H. rewrite Hfd in H. destruct H as (els & Hels & Hco).
    destruct (record_loads c e Ha (ex_intro _ fd Hfd) W) as (r & s & Hpre & _ & _).
    assert (E : els = [Pipeline.Batch [Pipeline.Batch [One (Ok r); One (Ok r)]; Pipeline.Batch [One (Ok r)]]]).
    { destruct Hels as (parts & Lp & Hpp & Hi). unfold config_loader in *. rewrite Hl, Hdist in *.
      cbn [ld_num_shards ld_repeat ld_seed ld_batch_dims ld_drop ld_deterministic generator_batch_dims] in *.
      destruct parts as [|p [|? ?]]; try discriminate. apply interleaving_one in Hi. subst p.
      destruct (Hpp 0 els eq_refl) as (epochs & ds & Le & Fe & Hd & Hbb).
      cbn [ld_num_shards ld_repeat ld_seed ld_batch_dims ld_drop ld_deterministic file_order] in *.
      destruct epochs as [|ep [|? ?]]; try discriminate. inversion Fe as [|? ? He _]; subst.
      change (map records (shard (shard [f] 1 0) 1 0)) with [records f] in He. apply interleaving_one in He. subst ep.
      cbn [concat] in Hbb. rewrite app_nil_r, Hr in Hbb. cbn [flat_map] in Hbb. rewrite !(expand_one c Hb) in Hbb.
      replace (preprocess_serialized c (Some e)) with (Ok r) in Hbb by (symmetry; exact Hpre).
      cbn [app map rev] in Hbb. inversion Hbb as [|? ? ? ? ? _ E1 Hb2]; subst. clear Hbb.
      inversion Hb2 as [|? ? ? ? ? _ E2 Hb3]; subst. inversion Hb3; subst. reflexivity. }
    subst els. destruct (record_layout c e r Ha Hpre) as (Nd & Hne & _).
    destruct (stack_eq [r; r] (layout r)) as (d2 & E2 & L2 & _); [discriminate|repeat constructor|exact Nd|].
    destruct (stack_eq [r] (layout r)) as (d1 & E1 & L1 & _); [discriminate|repeat constructor|exact Nd|].
    assert (C : collate (Pipeline.Batch [Pipeline.Batch [One (Ok r); One (Ok r)]; Pipeline.Batch [One (Ok r)]]) = Err ValueError).
    { rewrite collate_batch. cbn [mapM]. rewrite !collate_batch. cbn [mapM collate bind]. rewrite E2. cbn [bind]. rewrite E1. cbn [bind].
      eapply stack_ragged; [|exact Hne|exact Nd|exact L2|exact L1]. cbn. lia. }
    cbn [consume] in Hco. rewrite C in Hco. cbn [bind] in Hco. injection Hco as <- <-. auto.
  Qed.
End More.
