(** C49: building a state from a WOMD dictionary, and writing one. *)
From Coq Require Import String.
From Coq Require Import List ZArith Bool Arith Lia.
From Coq Require Import Reals Lra.
From Verif.Lib Require Import Base JaxIndex Scalar XR QScalar.
From Verif.Model Require Import Operations State Geometry Masked Womd WomdState BaseEnv.
From Verif.Spec Require Import StateSpec WomdSpec MaskSpec GeomSpec.
From Verif.Proofs Require Import Core P_Womd P_WomdState P_WomdExport P_WomdTrip P_WomdE2E P_Masked P_Angles.
Import ListNotations.
Local Open Scope nat_scope.

(** ** Loading *)

(** A loaded state is at step 0; its log, lights, objects and road points are those of
    the dictionary; the first simulated frame is the logged one and the others are
    zero and invalid; it has paths exactly if they were asked for. *)
Theorem C49_load {S : Scalar} (d : dict) with_paths time s :
  simulator_state_from_womd_dict d with_paths time = Ok s ->
  s_t s = 0%Z /\
  (exists n T, rect n T (s_log s) /\ rect n T (s_sim s) /\
     (forall i t p, at2 (s_log s) i t = Some p -> is_frame d time i t p) /\
     (forall i, i < n -> at2 (s_sim s) i 0 = at2 (s_log s) i 0) /\
     (forall i t p, 0 < t -> at2 (s_sim s) i t = Some p -> p = mkpt f0 f0 f0 f0 f0 f0 false 0 f0 f0 f0)) /\
  (forall l t x, at2 (s_tls s) l t = Some x -> is_light d time l t x) /\
  (forall i m, nth_error (s_meta s) i = Some m -> is_object d i m) /\
  (exists rg, s_rg s = Some rg /\ road_shapes d (length rg) /\ forall i r, nth_error rg i = Some r -> is_road_point d i r) /\
  match s_paths s with
  | None => with_paths = false
  | Some ps => with_paths = true /\ exists K, path_shapes d (length ps) K /\ forall i p, nth_error ps i = Some p ->
      length (path_pts p) = K /\ bool_at d "path_samples/on_route" [i; 0] = Some (path_on_route p) /\
      forall j pp, nth_error (path_pts p) j = Some pp -> is_path_point d i j pp
  end.
Proof.
  intros H. destruct (load_Ok _ _ _ _ H) as (_ & Et & (n & T & Sh & HT & El & Rs & As) & Htl & Hms & (rg & Erg & Hrg) & Hp).
  split; [exact Et|]. split; [|split; [|split; [|split]]].
  - exists n, T. rewrite El. split; [apply rect_tab2|]. split; [exact Rs|]. split; [|split].
    + intros i t p Hpt. apply at2_tab2_Some in Hpt as (Hi & Ht & ->). eapply frame_of_is_frame; eauto.
    + intros i Hi. rewrite <- El. apply As; auto. lia.
    + intros i t p Ht Hpt. destruct (at2_Some_lt _ _ _ _ _ _ Rs Hpt) as [Hi HtT].
      rewrite As in Hpt by auto. destruct t; [lia|]. cbn in Hpt. injection Hpt as <-. auto.
  - apply lights_from_Ok in Htl as (_ & L & T' & _ & _ & HL). exact HL.
  - apply meta_from_Ok in Hms as [_ HM]. exact HM.
  - exists rg. split; [exact Erg|]. now apply road_from_Ok.
  - destruct (s_paths s) as [ps|]; [|exact Hp]. destruct Hp as [-> Hp]. split; auto. now apply paths_from_Ok.
Qed.

(** It can be loaded exactly if the time key is known and the arrays have the right
    shapes.  Nothing relates the number of objects in the metadata to that in the
    trajectories, or the steps of the lights to those of the objects. *)
Theorem C49_loadable {S : Scalar} (d : dict) with_paths time :
  loadable d with_paths time <-> exists s, simulator_state_from_womd_dict d with_paths time = Ok s.
Proof. exact (load_iff d with_paths time). Qed.

Theorem C49_time_key {S : Scalar} (d : dict) with_paths time : ~ In time times ->
  simulator_state_from_womd_dict d with_paths time = Err ValueError /\ traffic_lights_from_womd_dict d time = Err ValueError.
Proof.
  intros H. assert (E : existsb (String.eqb time) time_keys = false).
  { destruct (existsb _ _) eqn:E; auto. apply existsb_key in E. contradiction. }
  unfold simulator_state_from_womd_dict, traffic_lights_from_womd_dict. rewrite E. auto.
Qed.

(** The box of an object is the same at all steps ... *)
Theorem C49_box_constant {S : Scalar} (d : dict) time tr i row p q f g :
  trajectory_from_womd_dict d time = Ok tr -> nth_error tr i = Some row -> In p row -> In q row ->
  In (f, g) box_floats -> g p = g q.
Proof.
  intros H Hr Hp Hq Hf. destruct (traj_from_Ok _ _ _ H) as (n & T & _ & ->).
  unfold tab2 in Hr. rewrite nth_error_tab in Hr. destruct (i <? n); [|discriminate]. injection Hr as <-.
  unfold tab in Hp, Hq. apply in_map_iff in Hp as (t & <- & _). apply in_map_iff in Hq as (t' & <- & _).
  cbn in Hf. repeat (destruct Hf as [Hf|Hf]); try contradiction; injection Hf as _ <-; reflexivity.
Qed.

(** ... namely the mean over the steps at which it is valid, or -1 without such steps. *)
Theorem C49_box_mean (d : @dict XR) time tr i row p f g (r : list R) :
  trajectory_from_womd_dict d time = Ok tr -> nth_error tr i = Some row -> In p row -> In (f, g) box_floats ->
  length r = length row ->
  (forall t q, nth_error row t = Some q -> p_valid q = true ->
     float_at d (state_key time f) [i; t] = option_map Fin (nth_error r t)) ->
  let v := map p_valid row in
  g p = if valid_count v =? 0 then Fin (-1) else Fin (valid_sum r v / INR (valid_count v)).
Proof.
  intros H Hr Hp Hf Lr Hv v. destruct (traj_from_Ok _ _ _ H) as (n & T & Sh & ->).
  unfold tab2 in Hr. rewrite nth_error_tab in Hr. destruct (Nat.ltb_spec i n); [|discriminate]. injection Hr as <-.
  rewrite tab_length in Lr.
  assert (Ev : v = tab T (fun t => as_b (arr d (state_key time "valid") [i; t])))
    by (subst v; unfold tab; rewrite map_map; reflexivity).
  assert (Eg : g p = box_mean d time f T i).
  { unfold tab in Hp. apply in_map_iff in Hp as (t & <- & _).
    cbn in Hf. repeat (destruct Hf as [Hf|Hf]); try contradiction; injection Hf as <- <-; reflexivity. }
  rewrite Eg. unfold box_mean. rewrite <- Ev. rewrite (line_mean_Fin _ _ r), fm1_Fin; [reflexivity|].
  split; [rewrite Ev, !tab_length; reflexivity|]. split; [rewrite Ev, tab_length; exact Lr|].
  intros t Ht. rewrite Ev, nth_error_tab in Ht. destruct (Nat.ltb_spec t T) as [HtT|]; [|discriminate]. injection Ht as Ht.
  rewrite <- (Hv t (frame_of d time T i t)); [| |exact Ht].
  - rewrite nth_error_tab. apply Nat.ltb_lt in HtT. rewrite HtT. unfold float_at.
    assert (Hin : In f frame_names) by (apply in_or_app; right; apply in_or_app; left; apply (in_map fst) in Hf; exact Hf).
    destruct (getk_has _ _ _ (Sh f Hin)) as (x & _ & _ & Vx). unfold arr. rewrite Vx. reflexivity.
  - rewrite nth_error_tab. apply Nat.ltb_lt in HtT. now rewrite HtT.
Qed.

(** ** Writing *)

(** With [h] steps of history asked for and available, the past is the h simulated
    frames before the current step, the current frame follows, lights likewise, lights
    get the first object's timestamps, padding objects are -1, and the names and
    shapes are those asked for. *)
Theorem C49_export {S : Scalar} (s : state) fd validate out n L T t yaw pre h :
  NoDup (map fst fd) -> scene n L T t s -> getf fd "state/past/bbox_yaw" = Ok yaw -> ft_shape yaw = pre ++ [h] ->
  h <= t -> simulator_state_to_womd_dict s fd validate = Ok out ->
  map fst out = map fst fd /\ (forall name ft, In (name, ft) fd -> has out name (ft_shape ft)) /\
  exported_frames s fd out "current" n 1 t /\ exported_frames s fd out "past" n h (t - h) /\
  exported_lights s fd out "current" L 1 t /\ exported_lights s fd out "past" L h (t - h) /\
  exported_stamps s fd out "current" 1 t /\ exported_stamps s fd out "past" h (t - h) /\
  (forall k g dt i m, In (k, g) object_values -> In (k, mkfeat [n] dt) fd -> nth_error (s_meta s) i = Some m ->
     value out k [i] = Some (cast dt (VI (if m_is_valid m then g m else (-1)%Z)))) /\
  (exists rg, s_rg s = Some rg /\
   forall k gs g dt i c r, In (k, gs) road_values -> In (k, mkfeat [length rg; length gs] dt) fd ->
     nth_error gs c = Some g -> nth_error rg i = Some r -> value out k [i; c] = Some (cast dt (g r))).
Proof.
  intros Nd Sc Hy Hs Ht H. apply (export_all s fd validate out n L T t yaw pre h (t - h)); auto.
  destruct Sc as (_ & _ & _ & _ & HtT & _). rewrite norm_start_in; lia.
Qed.

(** Before step h, the exported "past" is the last h frames of the simulated
    trajectory, wherever the current step is. *)
Theorem C49_export_early {S : Scalar} (s : state) fd validate out n L T t yaw pre h :
  NoDup (map fst fd) -> scene n L T t s -> getf fd "state/past/bbox_yaw" = Ok yaw -> ft_shape yaw = pre ++ [h] ->
  t < h -> simulator_state_to_womd_dict s fd validate = Ok out ->
  validate = false /\ exported_frames s fd out "past" n h (T - h) /\ exported_lights s fd out "past" L h (T - h).
Proof.
  intros Nd Sc Hy Hs Ht H. pose proof Sc as (_ & _ & _ & Et & HtT & _). split.
  - destruct (export_Ok _ _ _ _ H) as (y & pr & h' & cur & past & cl & pl & rg & fu & fl & E1 & E2 & E3 & _).
    assert (y = yaw) by congruence. subst y. rewrite E2 in Hs. apply app_inj_tail in Hs as [_ ->].
    destruct validate; auto. specialize (E3 eq_refl). lia.
  - assert (HT : h <= T).
    { eapply (export_all s fd validate out n L T t yaw pre h); eauto. }
    assert (Ns : norm_start (Z.of_nat t - Z.of_nat h) T h = T - h).
    { unfold norm_start. destruct (Z.ltb_spec (Z.of_nat t - Z.of_nat h) 0); lia. }
    destruct (export_all s fd validate out n L T t yaw pre h _ Nd Sc Hy Hs Ns H) as (_ & _ & _ & _ & X1 & _ & X2 & _). auto.
Qed.

(** Validation rejects every other number of steps than h + 1. *)
Theorem C49_validate {S : Scalar} (s : state) fd yaw pre h :
  getf fd "state/past/bbox_yaw" = Ok yaw -> ft_shape yaw = pre ++ [h] -> s_t s <> Z.of_nat h ->
  simulator_state_to_womd_dict s fd true = Err ValueError.
Proof.
  intros Hy Hs Ht. unfold simulator_state_to_womd_dict. rewrite Hy. cbn [bind]. rewrite Hs, rev_app_distr. cbn [rev app bind negb orb].
  destruct (Z.eqb_spec (s_t s + 1) (Z.of_nat h + 1)); [lia|]. reflexivity.
Qed.

(** The export succeeds with the standard description of the right sizes. *)
Theorem C49_export_succeeds {S : Scalar} (s : state) n N np nk L T t fd (validate : bool) rg :
  get_features_description n N false np nk L = Ok fd -> scene n L T t s -> 10 <= T ->
  s_rg s = Some rg -> length rg = N -> (validate = true -> t = 10) ->
  exists out, simulator_state_to_womd_dict s fd validate = Ok out.
Proof. exact (export_standard s n N np nk L T t fd validate rg). Qed.

(** It never does when paths are asked for. *)
Theorem C49_paths_cannot_be_exported {S : Scalar} (s : state) n N np nk L fd validate out :
  get_features_description n N true np nk L = Ok fd -> simulator_state_to_womd_dict s fd validate <> Ok out.
Proof.
  intros Hfd H. unfold get_features_description in Hfd. destruct np as [np|], nk as [nk|]; try discriminate.
  cbn [bind] in Hfd. apply Ok_eq in Hfd.
  assert (Nd : NoDup (map fst fd)) by (subst fd; apply distinct_NoDup; vm_compute; reflexivity).
  assert (Hin : In ("path_samples/xyz"%string, mkfeat [np; nk; 3] DFloat) fd) by (subst fd; apply getf_In; reflexivity).
  destruct (export_Ok _ _ _ _ H) as (y & pr & h & cur & past & cl & pl & rg & fu & fl & _ & _ & _ & _ & _ & _ & _ & _ & _ & E10 & E11 & _ & E13).
  destruct (E13 Nd _ _ Hin) as (v & Hv & _). unfold export_values in Hv. rewrite !get_update in Hv.
  rewrite (fut_tl_get _ _ _ E11) in Hv by reflexivity.
  destruct (fut_Ok _ _ E10) as (fv & n' & T' & _ & _ & E3). rewrite E3 in Hv. discriminate Hv.
Qed.

Theorem C49_description {S : Scalar} n N paths np nk L :
  (exists fd, get_features_description n N paths np nk L = Ok fd) <-> paths = false \/ (np <> None /\ nk <> None).
Proof.
  unfold get_features_description. destruct paths, np, nk; cbn [bind]; split; intros H; try (eexists; reflexivity); eauto;
    try (right; split; discriminate); try (destruct H as [fd H]; discriminate H); destruct H as [H|[H1 H2]]; congruence.
Qed.

(** ** Writing and loading again *)

(** Metadata: identity on valid objects except for the control flag, padding otherwise;
    ids and types are written as floats, so they have to be representable. *)
Theorem C49_metadata_round_trip {S : Scalar} (s : state) n N np nk L T t fd validate out :
  get_features_description n N false np nk L = Ok fd -> scene n L T t s ->
  (forall z, z = (-1)%Z \/ (exists m, In m (s_meta s) /\ (z = m_id m \/ z = m_type m)) -> ftrunc (fofZ z) = z) ->
  simulator_state_to_womd_dict s fd validate = Ok out ->
  exists ms, object_metadata_from_womd_dict out = Ok ms /\ length ms = length (s_meta s) /\
  forall i m, nth_error (s_meta s) i = Some m -> nth_error ms i = Some
    (if m_is_valid m
     then mkmeta (m_id m) (m_type m) (m_is_sdc m) (m_is_modeled m) true (m_interest m) false
     else mkmeta (-1) (-1) false false false false false).
Proof.
  intros Hfd Sc Hz H. exists (map reloaded (s_meta s)).
  split; [exact (meta_trip s n N np nk L T t fd validate out Hfd Sc Hz H)|]. split; [apply map_length|].
  intros i m Hm. rewrite nth_error_map, Hm. reflexivity.
Qed.

(** All integers are representable with exact reals (with float32, up to 2^24). *)
Lemma C49_exact (z : Z) : ftrunc (Scalar := XR) (fofZ (Scalar := XR) z) = z.
Proof.
  cbn. unfold Rtrunc. destruct (Rle_dec 0 (IZR z)); [apply Rfloor_unique; lra|].
  rewrite <- opp_IZR. rewrite (Rfloor_unique (IZR (- z)) (- z)); [lia|lra].
Qed.

(** Frames: the exported past comes back as the h = 10 frames before the current one. *)
Theorem C49_past_round_trip {S : Scalar} (s : state) n N np nk L T t fd validate out :
  get_features_description n N false np nk L = Ok fd -> scene n L T t s -> 10 <= t ->
  simulator_state_to_womd_dict s fd validate = Ok out ->
  exists tr, trajectory_from_womd_dict out "past" = Ok tr /\ rect n 10 tr /\
    forall i k p q, at2 tr i k = Some q -> at2 (s_sim s) i (t - 10 + k) = Some p ->
      p_x q = p_x p /\ p_y q = p_y p /\ p_z q = p_z p /\ p_vx q = p_vx p /\ p_vy q = p_vy p /\
      p_yaw q = p_yaw p /\ p_valid q = p_valid p /\ p_ts q = p_ts p.
Proof. exact (past_trip s n N np nk L T t fd validate out). Qed.

(** The future is written as -1, also its validity, so every future step of every
    object comes back as valid: one would expect the opposite. *)
Theorem C49_future_reloads_as_valid {S : Scalar} (s : state) n N np nk L T t fd validate out :
  get_features_description n N false np nk L = Ok fd -> scene n L T t s ->
  simulator_state_to_womd_dict s fd validate = Ok out ->
  exists tr, trajectory_from_womd_dict out "future" = Ok tr /\ rect n 80 tr /\
    forall i k q, at2 tr i k = Some q -> p_valid q = true /\ p_ts q = (-1)%Z /\ p_x q = fm1 /\ p_y q = fm1.
Proof. intros Hfd Sc H. apply (future_trip s n N np nk L T t fd validate out Hfd Sc H). Qed.

(** ** Loading and writing again *)

(** An example parsed with the standard description can be preprocessed, loaded, reset
    to its current step and exported with validation, and the export has the past and
    current frames and lights of the example; yaws are wrapped. *)
Theorem C49_end_to_end {S : Scalar} n N L np nk fd (o : dict) ty inj :
  0 < n -> get_features_description n N false np nk L = Ok fd -> parsed fd o ->
  exists r s0 s out,
    preprocess_womd_example o true None = Ok r /\
    simulator_state_from_womd_dict r false "all" = Ok s0 /\
    env_reset (mkcfg n 11 ty inj) s0 = Ok s /\
    simulator_state_to_womd_dict s fd true = Ok out /\
    forall time steps, In (time, steps) [("past", 10); ("current", 1)]%string -> forall k, k < steps ->
      (forall f i, In f ["x"; "y"; "z"; "velocity_x"; "velocity_y"; "timestamp_micros"]%string -> i < n ->
         value out (state_key time f) [i; k] = value o (state_key time f) [i; k]) /\
      (forall i, i < n -> bool_at out (state_key time "valid") [i; k] = bool_at o (state_key time "valid") [i; k]) /\
      (forall i, i < n -> exists y, value o (state_key time "bbox_yaw") [i; k] = Some (VF y) /\
         value out (state_key time "bbox_yaw") [i; k] = Some (VF (wrap_yaws y))) /\
      (forall f l, In f ["x"; "y"; "z"; "state"; "id"]%string -> l < L ->
         value out (light_key time f) [k; l] = value o (light_key time f) [k; l]) /\
      (forall l, l < L -> bool_at out (light_key time "valid") [k; l] = bool_at o (light_key time "valid") [k; l]).
Proof. exact (end_to_end n N L np nk fd o ty inj). Qed.

(** ** Examples *)

(** An example with the given description, for all sizes. *)
Definition sample {S : Scalar} (fd : features) : dict :=
  map (fun nf => (fst nf, mkT (ft_shape (snd nf)) (fun idx =>
    let z := Z.of_nat (fold_right (fun i a => i + 3 * a) 1 idx) in
    match ft_dtype (snd nf) with DInt => VI z | DFloat => VF (fofZ z) | DBool => VB true end))) fd.

Lemma C49_ex_parsed {S : Scalar} n N L np nk fd :
  get_features_description n N false np nk L = Ok fd -> parsed fd (sample fd).
Proof.
  intros H. destruct (standard_Ok _ _ _ _ _ _ H) as (Nd & _). split.
  - unfold sample. rewrite map_map. reflexivity.
  - intros name ft Hin. eexists. split.
    + apply In_get; [unfold sample; rewrite map_map; exact Nd|]. unfold sample.
      apply in_map_iff. exists (name, ft). split; [reflexivity|exact Hin].
    + split; [reflexivity|]. intros idx. cbn. destruct (ft_dtype ft); exact I.
Qed.

(** A scene of two objects (the second one padding) over 12 steps, one light, one road
    point, at step 11. *)
#[local] Existing Instance QS.
Definition qz (z : Z) : @F QS := fofZ z.
Definition ex_frame (i t : nat) : @pt QS :=
  mkpt (qz (100 * Z.of_nat i + Z.of_nat t)) (qz 1) (qz 2) (qz 3) (qz 4) (qz 0) (Nat.even (i + t)) (Z.of_nat t) (qz 5) (qz 2) (qz 1).
Definition ex_scene (t : nat) : @state QS :=
  mkstate (tab2 2 12 ex_frame) (tab2 2 12 ex_frame)
    (tab2 1 12 (fun _ t => mktl (qz 7) (qz 8) (qz 9) (Z.of_nat t) 3 true))
    [mkmeta 42 1 true true true false true; mkmeta 43 2 false true false true false]
    (Z.of_nat t) None (Some [mkrg (qz 1) (qz 2) (qz 3) (qz 0) (qz 1) (qz 0) 15 6 true]).

Lemma C49_ex_scene t : t < 12 -> scene 2 1 12 t (ex_scene t).
Proof. intros H. repeat split; try apply rect_tab2; try exact H; auto. Qed.

Definition ex_fd : features := match get_features_description 2 1 false None None 1 with Ok fd => fd | Err _ => [] end.
Definition ex_out (t : nat) (v : bool) : res (@dict QS) := simulator_state_to_womd_dict (ex_scene t) ex_fd v.
Definition read (r : res (@dict QS)) (k : string) (idxs : list (list nat)) : option (list Z) :=
  match r with
  | Ok d => match Womd.get d k with
            | Some a => Some (map (fun idx => match cell a idx with VI z => z | VB b => Z.b2z b | VF x => QArith_base.Qnum x end) idxs)
            | None => None
            end
  | Err _ => None
  end.

Example C49_ex_export :
  read (ex_out 11 false) "state/past/x" [[0; 0]; [0; 9]; [1; 0]; [1; 9]] = Some [1; 10; 101; 110]%Z /\
  read (ex_out 11 false) "state/current/x" [[0; 0]; [1; 0]] = Some [11; 111]%Z /\
  read (ex_out 11 false) "state/id" [[0]; [1]] = Some [42; -1]%Z /\
  read (ex_out 11 false) "traffic_light_state/past/state" [[0; 0]; [9; 0]] = Some [1; 10]%Z /\
  read (ex_out 11 false) "state/future/valid" [[0; 0]; [1; 79]] = Some [-1; -1]%Z /\
  (exists out, ex_out 10 true = Ok out) /\ ex_out 11 true = Err ValueError.
Proof.
  do 5 (split; [vm_compute; reflexivity|]). split; [|vm_compute; reflexivity].
  apply (C49_export_succeeds (ex_scene 10) 2 1 None None 1 12 10 ex_fd true [mkrg (qz 1) (qz 2) (qz 3) (qz 0) (qz 1) (qz 0) 15 6 true]);
    try reflexivity; [apply C49_ex_scene; lia|lia].
Qed.

(** A valid frame of length 9 gives a box of length 9. *)
Example C49_ex_box : exists tr row p,
  trajectory_from_womd_dict (S := XR) (sample (S := XR) ex_fd) "current" = Ok tr /\
  nth_error tr 0 = Some row /\ In p row /\ p_len p = Fin 9.
Proof.
  set (d := sample (S := XR) ex_fd).
  assert (Sh : traj_shapes (S := XR) d "current" 2 1).
  { intros f Hf. cbn in Hf. repeat (destruct Hf as [<-|Hf]; [eexists; split; reflexivity|]). contradiction. }
  pose proof (traj_from_total _ _ _ _ Sh) as H.
  exists (tab2 2 1 (frame_of d "current" 1)), [frame_of d "current" 1 0 0], (frame_of d "current" 1 0 0).
  split; [exact H|]. split; [reflexivity|]. split; [now left|].
  rewrite (C49_box_mean d "current" _ 0 [frame_of d "current" 1 0 0] (frame_of d "current" 1 0 0) "length" p_len [9%R] H);
    try reflexivity; try (now left).
  - cbn. f_equal. field.
  - intros [|[|t]] q Hq Hv; try discriminate Hq. reflexivity.
Qed.

(** One would expect the exported past to be before the current step; at step 3 it is
    the frames 2 to 11. *)
Theorem C49_past_is_earlier_refuted :
  exists (s : @state QS) out, scene 2 1 12 3 s /\ simulator_state_to_womd_dict s ex_fd false = Ok out /\
    value out "state/past/x" [0; 9] = Some (VF (p_x (ex_frame 0 11))) /\
    at2 (s_sim s) 0 11 = Some (ex_frame 0 11).
Proof.
  destruct (C49_export_succeeds (ex_scene 3) 2 1 None None 1 12 3 ex_fd false [mkrg (qz 1) (qz 2) (qz 3) (qz 0) (qz 1) (qz 0) 15 6 true])
    as (out & Hout); try reflexivity; try discriminate; try lia; [apply C49_ex_scene; lia|].
  exists (ex_scene 3), out. split; [apply C49_ex_scene; lia|]. split; [exact Hout|]. split; [|reflexivity].
  destruct (C49_export_early (ex_scene 3) ex_fd false out 2 1 12 3 (mkfeat [2; 10] DFloat) [2] 10) as (_ & X & _);
    try reflexivity; try exact Hout; try lia.
  - apply (standard_Ok (paths := false) 2 1 None None 1). reflexivity.
  - apply C49_ex_scene; lia.
  - apply (X "x"%string (fun p => VF (p_x p)) DFloat 0 9 (ex_frame 0 11)); [cbn; tauto| |lia|reflexivity].
    apply getf_In. reflexivity.
Qed.

(** Loading does not compare the object counts: two trajectories, three objects. *)
Definition ex_mismatch : @dict QS :=
  map (fun kv => if existsb (String.eqb (fst kv)) ["state/id"; "state/type"; "state/is_sdc"; "state/tracks_to_predict"; "state/objects_of_interest"]%string
                 then (fst kv, mkT [3] (cell (snd kv))) else kv) (sample ex_fd).
Theorem C49_counts_agree_refuted : exists s : @state QS,
  simulator_state_from_womd_dict ex_mismatch false "past" = Ok s /\ length (s_log s) = 2 /\ length (s_meta s) = 3.
Proof.
  assert (E : match simulator_state_from_womd_dict ex_mismatch false "past" with
              | Ok s => Some (length (s_log s), length (s_meta s)) | Err _ => None end = Some (2, 3)) by (vm_compute; reflexivity).
  destruct (simulator_state_from_womd_dict ex_mismatch false "past") as [s|]; [|discriminate E].
  exists s. injection E as E1 E2. auto.
Qed.

(** A concrete run of the whole chain: the sizes of the real data set with two objects. *)
Example C49_ex_end_to_end : exists r s0 s out,
  preprocess_womd_example (sample ex_fd) true None = Ok r /\
  simulator_state_from_womd_dict r false "all" = Ok s0 /\
  env_reset (mkcfg 2 11 SDC false) s0 = Ok s /\ simulator_state_to_womd_dict s ex_fd true = Ok out /\
  value out "state/past/x" [1; 4] = Some (VF (qz 22)).
Proof.
  destruct (C49_end_to_end 2 1 1 None None ex_fd (sample ex_fd) SDC false) as (r & s0 & s & out & H1 & H2 & H3 & H4 & H5).
  - lia.
  - reflexivity.
  - apply (C49_ex_parsed 2 1 1 None None). reflexivity.
  - exists r, s0, s, out. repeat (split; [assumption|]).
    destruct (H5 "past"%string 10 ltac:(cbn; tauto) 4 ltac:(lia)) as (X & _).
    change "state/past/x"%string with (state_key "past" "x"). rewrite X by (cbn; tauto || lia). vm_compute. reflexivity.
Qed.

Print Assumptions C49_load.
Print Assumptions C49_box_mean.
Print Assumptions C49_export.
Print Assumptions C49_metadata_round_trip.
Print Assumptions C49_end_to_end.
