(** The generator of simulator states. *)
From Coq Require Import String.
From Coq Require Import List ZArith Bool Arith Lia Permutation.
From Verif.Lib Require Import Base JaxIndex Scalar.
From Verif.Model Require Import Operations State Geometry Metrics Masked Womd WomdState Batch Pipeline Loader.
From Verif.Spec Require Import StateSpec WomdSpec BatchSpec LoadSpec LoaderSpec.
From Verif.Proofs Require Import Core P_Womd P_WomdState P_WomdExport P_WomdTrip P_LoaderOne P_LoaderRecord P_LoaderBatch
  P_LoaderStack P_Batch P_Pipeline.
Import ListNotations.
Local Open Scope nat_scope.

Lemma flat_map_single {A B} (f : A -> B) l : flat_map (fun a => [f a]) l = map f l.
Proof. induction l; cbn; congruence. Qed.

Lemma concat_repeat_map {A B} (f : A -> B) l r : concat (repeat (map f l) r) = map f (concat (repeat l r)).
Proof. induction r; cbn; [reflexivity|]. now rewrite map_app, IHr. Qed.

Lemma In_concat_repeat {A} (l : list A) r a : In a (concat (repeat l r)) -> In a l.
Proof. intros H. apply in_concat in H as (x & Hx & H). apply repeat_spec in Hx. now subst x. Qed.

Lemma Forall2_flat_map {A B C D} (R : C -> D -> Prop) (f : A -> list C) (g : B -> list D) l l' :
  Forall2 (fun a b => Forall2 R (f a) (g b)) l l' -> Forall2 R (flat_map f l) (flat_map g l').
Proof. induction 1; cbn; [constructor|]. now apply Forall2_app. Qed.

Lemma map_eq_app_inv {A B} (f : A -> B) l x y : map f l = x ++ y -> exists l1 l2, l = l1 ++ l2 /\ map f l1 = x /\ map f l2 = y.
Proof.
  revert l. induction x as [|b x IH]; intros l H; cbn in H; [exists [], l; auto|].
  destruct l as [|a l]; [discriminate|]. cbn in H. injection H as Hb H. destruct (IH l H) as (l1 & l2 & -> & <- & <-).
  exists (a :: l1), l2. cbn. rewrite Hb. auto.
Qed.

(** An element of exact shape, or with one batch dimension at most, has a shape. *)
Lemma shape_found {A} drop ds (e : elem A) : ~ In 0 ds -> fits_shape ds e -> (drop = true -> has_shape ds e) ->
  drop = true \/ length ds <= 1 ->
  exists B, has_shape B e /\ shape_within B ds /\ (drop = true -> B = ds).
Proof.
  intros Hz Hf Hh [->|Hl].
  - exists ds. split; [auto|]. split; [|auto]. clear - Hz. induction ds as [|d ds IH]; constructor.
    + split; [|lia]. destruct d; [|lia]. exfalso. apply Hz. now left.
    + apply IH. intros H. apply Hz. now right.
  - destruct ds as [|d [|? ?]]; [| |cbn in Hl; lia].
    + inversion Hf; subst. exists []. split; [constructor|]. split; [constructor|auto].
    + inversion Hf as [|? ? l Hd Fl]; subst. exists [length l]. split.
      * constructor; [reflexivity|]. rewrite Forall_forall in *. intros x Hx. specialize (Fl x Hx). inversion Fl. constructor.
      * split; [constructor; [exact Hd|constructor]|]. intros D. specialize (Hh D). inversion Hh. congruence.
Qed.

Section Generator.
  Context {S : Scalar}.

  Lemma sizes_loaded B n N pk s : sizes B n 91 16 91 N pk s -> loaded_shape B n N pk s.
  Proof.
    intros (D1 & D2 & D3 & D4 & D5 & R & P). split; [split; [exact D1|split; [exact D2|split; [exact D4|now right]]]|].
    split; [exact D5|]. split; [exact D3|]. split; [exact R|]. destruct pk as [[P0 K]|]; exact P.
  Qed.

  (** A dictionary that stands for a record, and its scenario. *)
  Definition loads (c : dataset_config) (r : res dict) (s : state) : Prop :=
    exists d, r = Ok d /\ simulator_state_from_womd_dict d (dc_include_sdc_paths c) "all" = Ok s.

  (** One element of the dataset. *)
  Lemma element_eq c devices B e : dc_aggregate c = true ->
    Forall (fun k => 1 <= k) B -> has_shape B e ->
    (dc_distributed c = true -> match B with k :: _ => k <= devices | [] => False end) ->
    Forall (fun r => exists x d, r = preprocess_serialized c (Some x) /\ r = Ok d) (examples e) ->
    exists s, (let* d := collate e in postprocess c devices d) = Ok s /\
      loaded_shape B (kept (dc_max_num_objects c)) (dc_max_num_rg_points c) (wanted_paths c) s /\
      Forall2 (loads c) (examples e) (scenarios s).
  Proof.
    intros Ha HB He Hdist Hex.
    assert (Hf : fits_shape B e) by (apply has_fits; [rewrite Forall_forall in HB; auto|exact He]).
    apply shape_count in Hf as [H1 _].
    destruct (examples e) as [|r0 rs] eqn:Ee; [cbn in H1; lia|]. rewrite <- Ee in *.
    assert (In r0 (examples e)) as H0 by (rewrite Ee; now left).
    pose proof (proj1 (Forall_forall _ _) Hex _ H0) as (x0 & d0 & E0 & ->). symmetry in E0.
    destruct (record_layout c x0 d0 Ha E0) as (Nd & Hne & HL). set (Ly := layout d0) in *.
    assert (Hly : Forall (fun r => exists d, r = Ok d /\ layout d = Ly) (examples e)).
    { apply Forall_forall. intros r Hr. pose proof (proj1 (Forall_forall _ _) Hex _ Hr) as (x & d & Ex & Ed).
      exists d. split; [exact Ed|]. eapply records_layout; [rewrite <- Ex; exact Ed|exact E0]. }
    destruct (collate_eq Ly Nd B HB e He Hly) as (d & Ed & Ld & Eb).
    assert (Hw : dc_include_sdc_paths c = true <-> wanted_paths c <> None).
    { unfold preprocess_serialized in E0. apply bind_Ok in E0 as (fd & Hfd & _). eapply wanted_iff; eauto. }
    assert (In "all"%string times) as Ht by (cbn; tauto).
    assert (Q : exists s, postprocess c devices d = Ok s /\
      sizes B (kept (dc_max_num_objects c)) 91 16 91 (dc_max_num_rg_points c) (wanted_paths c) s /\
      forall b, inside B b -> simulator_state_from_womd_dict (at_index b d) (dc_include_sdc_paths c) "all" = Ok (scenario s b)).
    { unfold postprocess. destruct (dc_distributed c).
      - destruct B as [|k B]; [exfalso; now apply Hdist|]. inversion HB; subst.
        apply (pmap_eq devices _ _ Ly); auto; try lia. 
      - apply b_state_eq; auto; lia. }
    destruct Q as (s & Es & Sz & K). exists s. rewrite Ed. cbn [bind]. split; [exact Es|]. split; [now apply sizes_loaded|].
    unfold scenarios, b_shape. destruct Sz as (_ & _ & _ & Dm & _). rewrite Dm, removelast_app1, <- Eb.
    assert (G : forall l, (forall b, In b l -> inside B b) ->
      Forall2 (loads c) (map (fun b => Ok (at_index b d)) l) (map (scenario s) l)).
    { induction l as [|b l IH]; intros H; cbn [map]; constructor.
      - eexists. split; [reflexivity|]. apply K, H. now left.
      - apply IH. intros b' Hb. apply H. now right. }
    apply G. intros b Hb. now apply indices_inside.
  Qed.

  Lemma consume_all post (P : elem (res dict) -> bstate -> Prop) els :
    Forall (fun e => exists s, (let* d := collate e in post d) = Ok s /\ P e s) els ->
    exists ss, consume post els = (ss, None) /\ Forall2 P els ss.
  Proof.
    induction 1 as [|e els (s & E & H) _ (ss & Es & Hs)]; [exists []; split; [reflexivity|constructor]|].
    exists (s :: ss). cbn [consume]. rewrite E, Es. split; [reflexivity|]. now constructor.
  Qed.

  Lemma expand_one c : dc_by_scenario c = true -> forall s, expand c s = [preprocess_serialized c s].
  Proof. intros H s. unfold expand. rewrite H. now destruct (preprocess_serialized c s). Qed.

  Lemma passes_map {File} (records : File -> list serialized) c files r : dc_by_scenario c = true ->
    concat (repeat (flat_map (expand c) (flat_map records files)) r) =
    map (preprocess_serialized c) (concat (repeat (flat_map records files) r)).
  Proof.
    intros H. rewrite <- concat_repeat_map. do 2 f_equal. rewrite <- flat_map_single. apply flat_map_ext. now apply expand_one.
  Qed.

  (** The settings with which loading works. *)
  Definition standard_config (c : dataset_config) (devices : nat) : Prop :=
    dc_aggregate c = true /\ dc_by_scenario c = true /\ 1 <= ld_num_shards (dc_loader c) /\
    (dc_include_sdc_paths c = true -> dc_num_paths c <> None /\ dc_num_points c <> None) /\
    (ld_drop (dc_loader c) = true \/
     length (generator_batch_dims (dc_distributed c) devices (ld_batch_dims (dc_loader c))) <= 1).

  Lemma standard_features c : (dc_include_sdc_paths c = true -> dc_num_paths c <> None /\ dc_num_points c <> None) ->
    exists fd, config_features c = Ok fd.
  Proof.
    intros H. unfold config_features, get_features_description. destruct (dc_include_sdc_paths c); [|eexists; reflexivity].
    destruct (H eq_refl) as [H1 H2]. destruct (dc_num_paths c); [|congruence]. destruct (dc_num_points c); [|congruence].
    eexists; reflexivity.
  Qed.

  (** One process. *)
  Section Process.
    Context {File : Type} (records : File -> list serialized) (py_shuffle : Z -> list File -> list File).
    Context (c : dataset_config) (devices : nat) (files : list File).
    Hypothesis (Hs : standard_config c devices).
    Hypothesis (Hw : forall f s, In f files -> In s (records f) ->
      exists e, s = Some e /\ well_formed (dc_max_num_rg_points c) (wanted_paths c) e).
    Notation dims' := (generator_batch_dims (dc_distributed c) devices (ld_batch_dims (dc_loader c))).
    Notation n := (kept (dc_max_num_objects c)).
    Notation N := (dc_max_num_rg_points c).

    Lemma features_ok : exists fd, config_features c = Ok fd.
    Proof. apply standard_features, Hs. Qed.

    Lemma run_elements count index els : 
      tf_examples_dataset records (expand c) py_shuffle (config_loader c devices) files count index els ->
      Forall (fun e => Forall (fun r => In r (map (preprocess_serialized c) (flat_map records files))) (examples e)) els ->
      Forall (fits_shape dims') els -> (ld_drop (dc_loader c) = true -> Forall (has_shape dims') els) ->
      exists ss, consume (postprocess c devices) els = (ss, None) /\
        Forall (fun s => exists B, shape_within B dims' /\ (ld_drop (dc_loader c) = true -> B = dims') /\
                                   loaded_shape B n N (wanted_paths c) s) ss /\
        Forall2 (loads c) (flat_map examples els) (flat_map scenarios ss).
    Proof.
      intros Ht Hr Hf Hh. destruct Hs as (Ha & Hb & Hn & Hp & Hd).
      assert (Hz : ~ In 0 dims').
      { intros Hz. refine (zero_batch_empty records (expand c) py_shuffle (config_loader c devices) files count index _ _ els Ht); assumption. }
      destruct (consume_all (postprocess c devices) (fun e s =>
        (exists B, shape_within B dims' /\ (ld_drop (dc_loader c) = true -> B = dims') /\ loaded_shape B n N (wanted_paths c) s) /\
        Forall2 (loads c) (examples e) (scenarios s)) els) as (ss & Es & F2).
      - apply Forall_forall. intros e He. rewrite Forall_forall in Hr, Hf. specialize (Hr e He). specialize (Hf e He).
        destruct (shape_found (ld_drop (dc_loader c)) dims' e Hz Hf) as (B & HB & Hwi & HD); [|exact Hd|].
        { intros D. specialize (Hh D). rewrite Forall_forall in Hh. auto. }
        assert (Pos : Forall (fun k => 1 <= k) B).
        { clear - Hwi. induction Hwi; constructor; [lia|auto]. }
        destruct (element_eq c devices B e Ha Pos HB) as (s & E1 & E2 & E3).
        + intros D. clear - Hwi D. unfold generator_batch_dims in Hwi. rewrite D in Hwi. inversion Hwi. lia.
        + apply Forall_forall. intros r Hin. rewrite Forall_forall in Hr. specialize (Hr r Hin).
          apply in_map_iff in Hr as (s & <- & Hin'). apply in_flat_map in Hin' as (f & Hf1 & Hf2).
          destruct (Hw f s Hf1 Hf2) as (x & -> & W).
          destruct (proj2 (readable c (Some x) features_ok) (ex_intro _ x (conj eq_refl W))) as (d & Hd'). eauto.
        + exists s. split; [exact E1|]. split; [|exact E3]. exists B. auto.
      - exists ss. split; [exact Es|]. split.
        + apply Forall_forall. intros s Hin. apply In_nth_error in Hin as (i & Hi).
          clear - F2 Hi. revert i Hi. induction F2 as [|e s0 els ss [H _] _ IH]; intros [|i] Hi; try discriminate.
          * cbn in Hi. injection Hi as <-. exact H.
          * eapply IH; eauto.
        + apply Forall2_flat_map. clear - F2. induction F2 as [|e s0 els ss [_ H] _ IH]; constructor; auto.
    Qed.

    (** From dictionaries back to records. *)
    Lemma records_of l scs : Forall2 (loads c) (map (preprocess_serialized c) l) scs ->
      (forall s, In s l -> exists e, s = Some e /\ well_formed N (wanted_paths c) e) ->
      exists es, l = map Some es /\ Forall2 (scenario_of_record n N (wanted_paths c)) es scs.
    Proof.
      revert scs. induction l as [|s l1 IH]; intros scs F I; inversion F as [|? sc ? scs' Hl F']; subst.
      - exists []. split; [reflexivity|constructor].
      - destruct (IH scs' F') as (es & -> & Fe); [intros s' Hs'; apply I; now right|].
        destruct (I s (or_introl eq_refl)) as (e & -> & W). exists (e :: es). split; [reflexivity|]. constructor; [|exact Fe].
        destruct (record_loads c e (proj1 Hs) features_ok W) as (r & s & Hr & Hs' & Sc).
        destruct Hl as (d & Ed & Hd). pose proof (Ok_eq _ _ (eq_trans (eq_sym Hr) Ed)) as Ed'. subst d. rewrite Hs' in Hd. apply Ok_eq in Hd. now subst.
    Qed.

    Lemma records_found l scs rest : Forall2 (loads c) l scs ->
      Permutation (l ++ rest) (map (preprocess_serialized c) (concat (repeat (flat_map records files) (ld_repeat (dc_loader c))))) ->
      exists es rest', Forall2 (scenario_of_record n N (wanted_paths c)) es scs /\
        Permutation (map Some es ++ rest') (concat (repeat (flat_map records files) (ld_repeat (dc_loader c)))) /\
        length rest' = length rest.
    Proof.
      intros F P. apply Permutation_map_inv in P as (l3 & E & P). symmetry in E.
      apply map_eq_app_inv in E as (l1 & l2 & -> & <- & <-).
      destruct (records_of l1 scs F) as (es & -> & Fe).
      - intros s Hin. assert (In s (flat_map records files)) as H.
        { eapply In_concat_repeat. eapply Permutation_in; [symmetry; exact P|]. apply in_or_app. now left. }
        apply in_flat_map in H as (f & H1 & H2). eapply Hw; eauto.
      - exists es, l2. split; [exact Fe|]. split; [symmetry; exact P|]. now rewrite map_length.
    Qed.
  End Process.

  (** All processes. *)
  Lemma generator_all {File} (records : File -> list serialized) py_shuffle c devices files count runs :
    (forall s (l : list File), Permutation (py_shuffle s l) l) ->
    standard_config c devices -> 1 <= count -> length runs = count ->
    (forall f s, In f files -> In s (records f) ->
       exists e, s = Some e /\ well_formed (dc_max_num_rg_points c) (wanted_paths c) e) ->
    (forall p ys x, nth_error runs p = Some (ys, x) ->
       simulator_state_generator records py_shuffle c devices files count p ys x) ->
    let wanted := generator_batch_dims (dc_distributed c) devices (ld_batch_dims (dc_loader c)) in
    let n := kept (dc_max_num_objects c) in
    let N := dc_max_num_rg_points c in
    Forall (fun run => snd run = None /\
              Forall (fun s => exists B, shape_within B wanted /\ (ld_drop (dc_loader c) = true -> B = wanted) /\
                               loaded_shape B n N (wanted_paths c) s) (fst run)) runs /\
    exists es rest,
      Forall2 (scenario_of_record n N (wanted_paths c)) es (flat_map scenarios (concat (map fst runs))) /\
      Permutation (map Some es ++ rest) (concat (repeat (flat_map records files) (ld_repeat (dc_loader c)))) /\
      (ld_drop (dc_loader c) = false -> rest = []) /\
      length rest + count * ld_num_shards (dc_loader c) <= count * ld_num_shards (dc_loader c) * prod wanted.
  Proof.
    intros Hp Hs Hc Lr Hw Hg wanted n N. destruct (features_ok c devices Hs) as (fd & Hfd).
    assert (Q : exists outs, length outs = count /\ 
      (forall p out, nth_error outs p = Some out ->
         tf_examples_dataset records (expand c) py_shuffle (config_loader c devices) files count p out) /\
      (forall p ys x, nth_error runs p = Some (ys, x) -> exists out, nth_error outs p = Some out /\
         consume (postprocess c devices) out = (ys, x))).
    { assert (G : forall runs k, (forall p ys x, nth_error runs p = Some (ys, x) ->
         simulator_state_generator records py_shuffle c devices files count (k + p) ys x) ->
         exists outs, length outs = length runs /\
         (forall p out, nth_error outs p = Some out ->
           tf_examples_dataset records (expand c) py_shuffle (config_loader c devices) files count (k + p) out) /\
         (forall p ys x, nth_error runs p = Some (ys, x) -> exists out, nth_error outs p = Some out /\
           consume (postprocess c devices) out = (ys, x))).
      { clear Lr Hg. induction runs0 as [|[ys x] rs IH]; intros k H.
        - exists []. split; [reflexivity|]. split; intros [|p]; discriminate.
        - destruct (IH (Datatypes.S k)) as (outs & L & H1 & H2).
          { intros p ys' x' E. replace (Datatypes.S k + p) with (k + Datatypes.S p) by lia. now apply H. }
          pose proof (H 0 ys x eq_refl) as H0. unfold simulator_state_generator in H0. rewrite Hfd in H0.
          destruct H0 as (els & Hels & Hco). exists (els :: outs). split; [cbn; lia|]. split.
          + intros [|p] out E; cbn in E; [injection E as <-; exact Hels|].
            replace (k + Datatypes.S p) with (Datatypes.S k + p) by lia. now apply H1.
          + intros [|p] ys' x' E; cbn in E; [injection E as <- <-; exists els; auto|]. apply (H2 p ys' x' E). }
      destruct (G runs 0 Hg) as (outs & L & H1 & H2). exists outs. split; [lia|]. auto. }
    destruct Q as (outs & Lo & Ho & Hco).
    destruct Hs as (Ha & Hb & Hn & Hpa & Hd). assert (standard_config c devices) as Hs by (unfold standard_config; auto).
    destruct (all_processes records (expand c) py_shuffle Hp (config_loader c devices) files count outs Hn Hc Lo Ho)
      as (F1 & rest & Pr & Nr & Lrest).
    unfold passes, all_examples in Pr. cbn [config_loader ld_repeat] in Pr. rewrite (passes_map records c files _ Hb) in Pr.
    assert (Rec : forall out e r, In out outs -> In e out -> In r (examples e) -> In r (map (preprocess_serialized c) (flat_map records files))).
    { intros out e r H1 H2 H3. assert (In r (map (preprocess_serialized c) (concat (repeat (flat_map records files) (ld_repeat (dc_loader c)))))) as H.
      { eapply Permutation_in; [exact Pr|]. apply in_or_app. left. apply in_flat_map. exists e. split; [|exact H3]. apply in_concat. eauto. }
      apply in_map_iff in H as (s & <- & H). apply in_map. now apply In_concat_repeat in H. }
    assert (Each : forall p out, nth_error outs p = Some out -> exists ss, nth_error runs p = Some (ss, None) /\
       Forall (fun s => exists B, shape_within B wanted /\ (ld_drop (dc_loader c) = true -> B = wanted) /\
                                   loaded_shape B n N (wanted_paths c) s) ss /\
       Forall2 (loads c) (flat_map examples out) (flat_map scenarios ss)).
    { intros p out E. pose proof (nth_error_In _ _ E) as Hin. pose proof (proj1 (Forall_forall _ _) F1 _ Hin) as [Ff Fh].
      destruct (run_elements records py_shuffle c devices files Hs Hw count p out) as (ss & Es & F & F2); [now apply Ho| |exact Ff|exact Fh|].
      - apply Forall_forall. intros e He. apply Forall_forall. intros r Hr. eapply Rec; eauto.
      - destruct (nth_error runs p) as [[ys x]|] eqn:Er.
        + destruct (Hco p ys x Er) as (out' & E' & C'). assert (out' = out) by congruence. subst out'. rewrite Es in C'.
          injection C' as <- <-. exists ss. auto.
        + apply nth_error_None in Er. assert (p < length outs) by (apply nth_error_Some; congruence). lia. }
    assert (FR : Forall2 (fun out run => snd run = None /\
       Forall (fun s => exists B, shape_within B wanted /\ (ld_drop (dc_loader c) = true -> B = wanted) /\
                                   loaded_shape B n N (wanted_paths c) s) (fst run) /\
       Forall2 (loads c) (flat_map examples out) (flat_map scenarios (fst run))) outs runs).
    { clear - Each Lo Lr. rewrite <- Lr in Lo. clear Lr. revert runs Lo Each.
      induction outs as [|out outs IH]; intros [|run runs] L H; try discriminate; constructor.
      - destruct (H 0 out eq_refl) as (ss & E & F & F2). cbn in E. injection E as ->. auto.
      - apply IH; [cbn in L; lia|]. intros p o E. exact (H (Datatypes.S p) o E). }
    split.
    - clear - FR. induction FR as [|out run outs runs (H1 & H2 & _) _ IH]; constructor; auto.
    - assert (FL : Forall2 (loads c) (flat_map examples (concat outs)) (flat_map scenarios (concat (map fst runs)))).
      { clear - FR. induction FR as [|out run outs runs (_ & _ & H) _ IH]; cbn [concat map flat_map]; [constructor|].
        rewrite !flat_map_app. now apply Forall2_app. }
      destruct (records_found records c devices files Hs Hw _ _ _ FL Pr) as (es & rest' & Fe & Pe & Le).
      exists es, rest'. split; [exact Fe|]. split; [exact Pe|]. rewrite Le. split; [|exact Lrest].
      intros D. specialize (Nr D). subst rest. destruct rest'; [reflexivity|discriminate].
  Qed.
End Generator.
