(** C70: from the records of the dataset files to batches of simulator states. *)
From Coq Require Import String.
From Coq Require Import List ZArith Bool Arith Lia Permutation QArith.
From Verif.Lib Require Import Base JaxIndex Scalar QScalar.
From Verif.Model Require Import Operations State Metrics Masked Womd WomdState Batch Dynamics BaseEnv Pipeline Loader.
From Verif.Spec Require Import StateSpec WomdSpec BatchSpec LoadSpec LoaderSpec.
From Verif.Proofs Require Import P_Batch P_Womd P_LoaderOne P_LoaderRecord P_Loader P_LoaderMore.
Import ListNotations.
Local Open Scope nat_scope.

Section C70.
  Context {S : Scalar}.

  (** The settings: steps aggregated, whole scenarios, sizes given for the paths if
      they are wanted, and either remainders dropped or at most one batch dimension. *)
  Definition usable (c : dataset_config) (devices : nat) : Prop :=
    dc_aggregate c = true /\ dc_by_scenario c = true /\ 1 <= ld_num_shards (dc_loader c) /\
    (dc_include_sdc_paths c = true -> dc_num_paths c <> None /\ dc_num_points c <> None) /\
    (ld_drop (dc_loader c) = true \/
     length (generator_batch_dims (dc_distributed c) devices (ld_batch_dims (dc_loader c))) <= 1).

  (** The records of the files can be read. *)
  Definition good_files {File} (records : File -> list serialized) (c : dataset_config) (files : list File) : Prop :=
    forall f s, In f files -> In s (records f) ->
      exists e, s = Some e /\ well_formed (dc_max_num_rg_points c) (wanted_paths c) e.

  (** Whatever the schedule, the number of files, records, processes, loader shards,
      devices and batch dimensions: no process raises; every state is a batch of the
      requested shape (with remainders kept: not larger); and the scenarios of all the
      batches of all processes are, one for one, those that the records describe.
      Together with [rest] these are the records of [repeat] passes over the files.
      [rest] is empty if remainders are kept; otherwise each loader shard of each
      process drops less than one batch. *)
  Theorem C70_loading {File} (records : File -> list serialized) py_shuffle c devices files count runs :
    (forall s (l : list File), Permutation (py_shuffle s l) l) ->
    usable c devices -> good_files records c files -> 1 <= count -> length runs = count ->
    (forall p ys x, nth_error runs p = Some (ys, x) ->
       simulator_state_generator records py_shuffle c devices files count p ys x) ->
    let wanted := generator_batch_dims (dc_distributed c) devices (ld_batch_dims (dc_loader c)) in
    let n := kept (dc_max_num_objects c) in
    let N := dc_max_num_rg_points c in
    Forall (fun run => snd run = None /\
              Forall (fun s => exists B, shape_within B wanted /\ (ld_drop (dc_loader c) = true -> B = wanted) /\
                               loaded_shape B n N (wanted_paths c) s) (fst run)) runs /\
    exists es rest,
      Forall2 (scenario_of_record n N (wanted_paths c)) es (flat_map scenarios (concat (map fst runs))) /\
      Permutation (map Some es ++ rest) (concat (repeat (flat_map records files) (ld_repeat (dc_loader c)))) /\
      (ld_drop (dc_loader c) = false -> rest = []) /\
      length rest + count * ld_num_shards (dc_loader c) <= count * ld_num_shards (dc_loader c) * prod wanted.
  Proof. intros Hp Hu Hg Hc Lr Hr. exact (generator_all records py_shuffle c devices files count runs Hp Hu Hc Lr Hg Hr). Qed.

  (** Such runs exist. *)
  Theorem C70_runs {File} (records : File -> list serialized) py_shuffle c devices files count index :
    Forall (fun d => 1 <= d) (generator_batch_dims (dc_distributed c) devices (ld_batch_dims (dc_loader c))) ->
    exists ys x, simulator_state_generator records py_shuffle c devices files count index ys x.
  Proof. exact (generator_total records py_shuffle c devices files count index). Qed.

  (** One file on one process with one loader shard, no seed and deterministic: the
      scenarios come in the order of the records. *)
  Theorem C70_order {File} (records : File -> list serialized) py_shuffle c devices f ys x :
    (forall s (l : list File), Permutation (py_shuffle s l) l) ->
    usable c devices -> ld_num_shards (dc_loader c) = 1 -> ld_seed (dc_loader c) = None ->
    ld_deterministic (dc_loader c) = true -> good_files records c [f] ->
    simulator_state_generator records py_shuffle c devices [f] 1 0 ys x ->
    x = None /\ exists es rest,
      Forall2 (scenario_of_record (kept (dc_max_num_objects c)) (dc_max_num_rg_points c) (wanted_paths c)) es
        (flat_map scenarios ys) /\
      map Some es ++ rest = concat (repeat (records f) (ld_repeat (dc_loader c))) /\
      (ld_drop (dc_loader c) = false -> rest = []) /\
      length rest < prod (generator_batch_dims (dc_distributed c) devices (ld_batch_dims (dc_loader c))).
  Proof.
    intros Hp Hu H1 Hs Hd Hg. apply (generator_order records py_shuffle c devices f ys x Hp Hu H1 Hs Hd).
    intros s Hin. apply (Hg f s); [now left|exact Hin].
  Qed.

  (** Exactly the well-formed records are readable: no list may be missing, longer,
      shorter or of another type; further lists do no harm. *)
  Theorem C70_readable c s : (dc_include_sdc_paths c = true -> dc_num_paths c <> None /\ dc_num_points c <> None) ->
    ((exists r, preprocess_serialized c s = Ok r) <->
     exists e, s = Some e /\ well_formed (dc_max_num_rg_points c) (wanted_paths c) e).
  Proof. intros H. apply readable. now apply standard_features. Qed.

  (** A record that is not readable is not skipped: some process raises (unless the
      record may be part of a dropped remainder). *)
  Theorem C70_bad_record_raises {File} (records : File -> list serialized) py_shuffle c devices files count runs f s :
    (forall s (l : list File), Permutation (py_shuffle s l) l) ->
    dc_by_scenario c = true -> 1 <= ld_num_shards (dc_loader c) -> 1 <= count -> length runs = count ->
    (forall p ys x, nth_error runs p = Some (ys, x) ->
       simulator_state_generator records py_shuffle c devices files count p ys x) ->
    ld_drop (dc_loader c) = false \/
      prod (generator_batch_dims (dc_distributed c) devices (ld_batch_dims (dc_loader c))) = 1 ->
    1 <= ld_repeat (dc_loader c) -> In f files -> In s (records f) ->
    ~ (exists e, s = Some e /\ well_formed (dc_max_num_rg_points c) (wanted_paths c) e) ->
    exists ys x, In (ys, Some x) runs.
  Proof. exact (bad_record records py_shuffle c devices files count runs f s). Qed.

  (** Every loaded batch can be reset by an environment for as many objects, whatever
      the number of warm-up steps. *)
  Theorem C70_reset B n N paths s cfg : loaded_shape B n N paths s ->
    c_max_num_objects cfg = n -> c_init_steps cfg <= 91 ->
    exists s', b_reset cfg s = Ok s' /\ batch_of B n 91 s'.
  Proof.
    intros ((_ & D2 & D3 & _) & _) H1 H2. assert (W : loaded_batch B n 91 s) by (split; assumption).
    destruct (b_reset_Ok B n 91 cfg s W H1 H2) as [s' H]. exists s'. split; [exact H|].
    exact (proj1 (b_reset_shape B n 91 cfg s s' W H)).
  Qed.

  (** Settings under which no state is ever yielded, whatever the files contain. *)
  Theorem C70_paths_without_sizes {File} (records : File -> list serialized) py_shuffle c devices files count index ys x :
    dc_include_sdc_paths c = true -> dc_num_paths c = None \/ dc_num_points c = None ->
    simulator_state_generator records py_shuffle c devices files count index ys x -> ys = [] /\ x = Some ValueError.
  Proof.
    intros Hp Hn H. unfold simulator_state_generator, config_features, get_features_description in H. rewrite Hp in H.
    destruct Hn as [Hn|Hn]; rewrite Hn in H; [exact H|]. destruct (dc_num_paths c); exact H.
  Qed.
  Theorem C70_without_aggregation_refuted {File} (records : File -> list serialized) py_shuffle c devices files count index ys x :
    (forall s (l : list File), Permutation (py_shuffle s l) l) -> 1 <= ld_num_shards (dc_loader c) ->
    dc_aggregate c = false ->
    simulator_state_generator records py_shuffle c devices files count index ys x -> ys = [].
  Proof. exact (no_aggregate records py_shuffle c devices files count index ys x). Qed.
  (** Object by object (batch_by_scenario=False): the objects, the road points and the
      steps of the lights would have to be equal in number. *)
  Theorem C70_object_by_object_refuted {File} (records : File -> list serialized) py_shuffle c devices files count index ys x :
    (forall s (l : list File), Permutation (py_shuffle s l) l) -> 1 <= ld_num_shards (dc_loader c) ->
    dc_by_scenario c = false -> ~ (kept (dc_max_num_objects c) = 91 /\ dc_max_num_rg_points c = 91) ->
    simulator_state_generator records py_shuffle c devices files count index ys x -> ys = [].
  Proof. exact (no_unbatch records py_shuffle c devices files count index ys x). Qed.

  (** When the arrays do have a common number of rows, there is one element per row, in
      order, and it holds the row of every array; otherwise there is no element. *)
  Theorem C70_rows (d : list (string * tensor)) : d <> [] ->
    (forall k, Forall (fun kt => exists r, Womd.dims (snd kt) = k :: r) d ->
       exists els, unbatch d = Ok els /\ length els = k /\
         forall i el, nth_error els i = Some el ->
           Forall2 (fun kt kt' => fst kt' = fst kt /\ k :: Womd.dims (snd kt') = Womd.dims (snd kt) /\
                                  forall idx, Womd.cell (snd kt') idx = Womd.cell (snd kt) (i :: idx)) d el) /\
    ((forall k, ~ Forall (fun kt => exists r, Womd.dims (snd kt) = k :: r) d) ->
       unbatch d = Err ValueError).
  Proof.
    intros Hd. split.
    - intros k Hk. assert (C : common_rows d = Ok k).
      { unfold common_rows. destruct d as [|[n0 t0] d']; [congruence|]. inversion Hk as [|? ? [r Hr] Hk' Eq]; subst.
        cbn [snd] in Hr. rewrite Hr. rewrite (proj2 (forallb_forall _ _)); [reflexivity|].
        rewrite Forall_forall in Hk. intros kt Hin. destruct (Hk kt Hin) as [r' Hr']. rewrite Hr'. apply Nat.eqb_refl. }
      unfold unbatch. rewrite C. cbn [bind]. eexists. split; [reflexivity|].
      rewrite map_length, seq_length. split; [reflexivity|]. intros i el E.
      rewrite nth_error_map in E. destruct (nth_error (seq 0 k) i) as [j|] eqn:Ej; [|discriminate].
      assert (Hi : i < k) by (rewrite <- (seq_length k 0); apply nth_error_Some; congruence).
      apply nth_error_nth with (d := 0) in Ej. rewrite seq_nth in Ej by auto. cbn in Ej. subst j.
      cbn in E. injection E as <-. clear C Hd Hi. unfold row_of.
      induction Hk as [|kt l [r Hr] _ IH]; cbn [map]; constructor; auto.
      cbn [fst snd Womd.dims Womd.cell]. rewrite Hr. auto.
    - intros H. unfold unbatch, common_rows. destruct d as [|[n0 t0] d']; [congruence|].
      destruct (Womd.dims t0) as [|k r] eqn:E0; [reflexivity|].
      match goal with |- context [guard ?b _] => destruct b eqn:G end; [|reflexivity].
      exfalso. apply (H k). rewrite Forall_forall. intros kt Hin.
      rewrite forallb_forall in G. specialize (G kt Hin). destruct (Womd.dims (snd kt)) as [|j r']; [discriminate|].
      apply Nat.eqb_eq in G. subst j. eauto.
  Qed.

  (** Keeping remainders fails with two batch dimensions: three good records in
      batches of 2 x 2 raise an error instead of a smaller batch. *)
  Theorem C70_nested_remainder_refuted {File} (records : File -> list serialized) py_shuffle c devices f e ys x :
    dc_aggregate c = true -> dc_by_scenario c = true -> dc_distributed c = false ->
    (dc_include_sdc_paths c = true -> dc_num_paths c <> None /\ dc_num_points c <> None) ->
    dc_loader c = mkloader 1 1 None [2; 2] false true ->
    records f = [Some e; Some e; Some e] -> well_formed (dc_max_num_rg_points c) (wanted_paths c) e ->
    simulator_state_generator records py_shuffle c devices [f] 1 0 ys x -> ys = [] /\ x = Some ValueError.
  Proof. exact (three_in_two_by_two records py_shuffle c devices f e ys x). Qed.

  (** max_num_objects keeps the first objects, also when the SDC is not among them. *)
  Theorem C70_sdc_cut_off n N paths e s : scenario_of_record n N paths e s ->
    ((exists m, In m (s_meta s) /\ m_is_sdc m = true) <-> exists i, i < n /\ int_entry e "state/is_sdc" i = Some 1%Z).
  Proof.
    intros (_ & _ & _ & _ & _ & _ & _ & _ & _ & Ln & Ho & _). split.
    - intros (m & Hin & Hm). apply In_nth_error in Hin as (i & Hi). destruct (Ho i m Hi) as (_ & _ & H & _).
      exists i. split; [rewrite <- Ln; apply nth_error_Some; congruence|].
      destruct (int_entry e "state/is_sdc" i) as [z|]; [|discriminate]. cbn in H. unfold is_one in H. injection H as H.
      rewrite Hm in H. apply Z.eqb_eq in H. now subst z.
    - intros (i & Hi & E). destruct (nth_error (s_meta s) i) as [m|] eqn:Em.
      + destruct (Ho i m Em) as (_ & _ & H & _). exists m. split; [eapply nth_error_In; eauto|]. rewrite E in H. cbn in H. congruence.
      + apply nth_error_None in Em. lia.
  Qed.
End C70.

(* ---------------- example ---------------- *)
#[local] Existing Instance QS.

(** A record with every list that the description asks for: the k-th float of a list
    is k + v, and the integers count too. *)
Definition ex_config (l : loader) (distributed : bool) : dataset_config :=
  mkdc l true true 2 (Some 3%Z) (Some 2) (Some 3) distributed true.
Definition ex_features : features :=
  match config_features (ex_config (mkloader 1 1 None [] true true) false) with Ok fd => fd | Err _ => [] end.
Fixpoint count_from (z : Z) (n : nat) : list Z :=
  match n with 0 => [] | Datatypes.S m => z :: count_from (z + 1)%Z m end.
Definition ex_record (v : Z) : list (string * feature_list (S := QS)) :=
  map (fun nf => (fst nf,
         match ft_dtype (snd nf) with
         | DFloat => Floats (S := QS) (map inject_Z (count_from v (WomdState.size (ft_shape (snd nf)))))
         | _ => Ints (S := QS) (count_from 0 (WomdState.size (ft_shape (snd nf))))
         end)) ex_features.

Lemma ex_well_formed v : v = 0%Z \/ v = 7%Z \/ v = 9%Z -> well_formed (S := QS) 2 (Some (2, 3)) (ex_record v).
Proof.
  intros H. pose proof (C70_readable (S := QS) (ex_config (mkloader 1 1 None [] true true) false) (Some (ex_record v))) as [R _].
  { intros _. split; discriminate. }
  destruct R as (e & E & W).
  - assert (Q : match preprocess_serialized (S := QS) (ex_config (mkloader 1 1 None [] true true) false) (Some (ex_record v)) with
                | Ok _ => true | Err _ => false end = true).
    { destruct H as [-> | [-> | ->]]; vm_compute; reflexivity. }
    destruct (preprocess_serialized _ _) as [r|]; [eauto|discriminate].
  - injection E as <-. exact W.
Qed.

#[local] Opaque ex_record.

(** Three records in two files, two devices with one scenario each: whatever the
    schedule, one state of shape (2, 1) with the scenarios of two of the records, and
    one record is dropped; without dropping and without devices three states. *)
Definition ex_files (f : nat) : list (serialized (S := QS)) :=
  if f =? 0 then [Some (ex_record 0); Some (ex_record 7)] else [Some (ex_record 9)].

Lemma ex_good l distributed : good_files (S := QS) ex_files (ex_config l distributed) [0; 1].
Proof.
  intros f s Hf Hs. destruct Hf as [<-|[<-|[]]]; cbn in Hs.
  - destruct Hs as [<-|[<-|[]]]; eexists; (split; [reflexivity|]); apply ex_well_formed; auto.
  - destruct Hs as [<-|[]]. eexists. split; [reflexivity|]. apply ex_well_formed; auto.
Qed.

Example C70_example :
  exists ys x, simulator_state_generator (S := QS) ex_files (fun _ l => l) (ex_config (mkloader 1 1 None [1] true true) true) 2 [0; 1] 1 0 ys x /\
    x = None /\ exists s e1 e2 e3, ys = [s] /\
      loaded_shape [2; 1] 3 2 (Some (2, 3)) s /\
      scenario_of_record (S := QS) 3 2 (Some (2, 3)) e1 (scenario s [0; 0]) /\
      scenario_of_record (S := QS) 3 2 (Some (2, 3)) e2 (scenario s [1; 0]) /\
      Permutation [Some e1; Some e2; e3] [Some (ex_record 0); Some (ex_record 7); Some (ex_record 9)].
Proof.
  destruct (C70_runs (S := QS) ex_files (fun _ l => l) (ex_config (mkloader 1 1 None [1] true true) true) 2 [0; 1] 1 0) as (ys & x & H).
  { repeat constructor. }
  exists ys, x. split; [exact H|].
  destruct (C70_loading (S := QS) ex_files (fun _ l => l) (ex_config (mkloader 1 1 None [1] true true) true) 2 [0; 1] 1 [(ys, x)])
    as (F & es & rest & F2 & P & _ & L); auto.
  - unfold usable. cbn. repeat split; auto; discriminate.
  - apply ex_good.
  - intros [|[|p]] ys' x' E; try discriminate. injection E as <- <-. exact H.
  - inversion F as [|? ? [Hx Hy] _]; subst. cbn [fst snd] in *. split; [exact Hx|].
    cbn [map concat fst] in F2. rewrite app_nil_r in F2.
    assert (Sc : forall s, In s ys -> loaded_shape [2; 1] 3 2 (Some (2, 3)) s /\
       scenarios s = [scenario s [0; 0]; scenario s [1; 0]]).
    { intros s Hs. rewrite Forall_forall in Hy. destruct (Hy s Hs) as (B & _ & HB & HL).
      rewrite (HB eq_refl) in HL. split; [exact HL|]. destruct HL as ((_ & _ & D & _) & _).
      unfold scenarios, b_shape. rewrite D. reflexivity. }
    apply Permutation_length in P as Pl. rewrite app_length, map_length in Pl. cbn in Pl, L.
    assert (Ls : length es = length (flat_map scenarios ys)).
    { exact (Forall2_len _ _ _ F2). }
    destruct ys as [|s [|s2 ys]].
    + cbn in Ls. lia.
    + destruct (Sc s (or_introl eq_refl)) as [HL Es]. cbn [flat_map] in F2. rewrite Es in F2. cbn [app] in F2.
      inversion F2 as [|e1 ? ? ? H1 F3]; subst. inversion F3 as [|e2 ? ? ? H2 F4]; subst. inversion F4; subst.
      cbn in Pl. destruct rest as [|e3 [|? ?]]; cbn in Pl; try lia.
      exists s, e1, e2, e3. split; [reflexivity|]. split; [exact HL|]. split; [exact H1|]. split; [exact H2|]. exact P.
    + exfalso. cbn [flat_map] in Ls. rewrite (proj2 (Sc s (or_introl eq_refl))), (proj2 (Sc s2 (or_intror (or_introl eq_refl)))) in Ls.
      rewrite !app_length in Ls. cbn in Ls. lia.
Qed.

Print Assumptions C70_loading.
Print Assumptions C70_order.
Print Assumptions C70_readable.
Print Assumptions C70_bad_record_raises.
Print Assumptions C70_without_aggregation_refuted.
Print Assumptions C70_object_by_object_refuted.
Print Assumptions C70_rows.
Print Assumptions C70_nested_remainder_refuted.
Print Assumptions C70_sdc_cut_off.
Print Assumptions C70_reset.
