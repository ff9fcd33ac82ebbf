(** C63: the specs an environment publishes, and what it accepts and returns. *)
From Coq Require Import String.
From Coq Require Import List ZArith Reals Lra Lia Bool.
From Verif.Lib Require Import Base JaxIndex Scalar XR QScalar.
From Verif.Model Require Import Operations State Dynamics Dyn_State Dyn_Delta Dyn_Bicycle Discretizer BaseEnv
  Metrics Actor PlanningEnv Envs Batch Specs Wrappers Validate.
From Verif.Spec Require Import StateSpec DynSpec WrapSpec BatchSpec SpecsSpec DiscSpec ValidateSpec.
From Verif.Proofs Require Import Core Episode P_Step P_Actions P_Wrappers P_WrapInst P_Discretizer P_Specs P_SpecsRun P_Batch P_Validate.
From Verif.Props Require Import Ex.
Import ListNotations.
Open Scope nat_scope.

(* ---------------- action specs ---------------- *)

(** A bounded spec can be built exactly when both bounds stretch to its shape and the
    maximum is nowhere below the minimum; otherwise it is a ValueError. *)
Theorem C63_bounds_checked {S : Scalar} shape dt (mn mx : arr F) :
  let fits := stretches_to (dims mn) shape /\ stretches_to (dims mx) shape /\
    forall i, In i (indices shape) ->
      fltb (cell mx (bidx (dims mx) i)) (cell mn (bidx (dims mn) i)) = false in
  (fits -> bounded_array shape dt mn mx = Ok (Specs.mkbs shape dt mn mx)) /\
  (~ fits -> bounded_array shape dt mn mx = Err ValueError).
Proof.
  assert (BT : forall d, broadcasts_to d shape = true <-> stretches_to d shape).
  { intros d. unfold broadcasts_to. rewrite <- bdims_stretch.
    assert (C : bdims d shape = bdims shape d).
    { unfold bdims. f_equal. generalize (rev d), (rev shape). clear.
      induction l as [|x a IH]; intros [|y b]; cbn; auto. rewrite IH. destruct (bdims_rev b a); auto.
      destruct (Nat.eqb_spec x y) as [->|N]; [now rewrite Nat.eqb_refl|].
      rewrite (proj2 (Nat.eqb_neq y x)) by congruence.
      destruct (Nat.eqb_spec x 1), (Nat.eqb_spec y 1); congruence. }
    rewrite C. destruct (bdims shape d) as [r|]; [|split; discriminate].
    rewrite dims_eqb_eq. split; congruence. }
  cbv zeta. unfold bounded_array. split.
  - intros (A & B & C). apply BT in A, B. rewrite A, B. cbn [andb guard bind].
    rewrite (proj2 (forallb_forall _ _)); [reflexivity|]. intros i Hi. now rewrite C.
  - intros N. destruct (broadcasts_to (dims mn) shape) eqn:A; cbn; [|reflexivity].
    destruct (broadcasts_to (dims mx) shape) eqn:B; cbn; [|reflexivity].
    destruct (forallb _ _) eqn:C; cbn; [|reflexivity]. exfalso. apply N.
    apply BT in A, B. split; [exact A|]. split; [exact B|]. intros i Hi.
    rewrite forallb_forall in C. specialize (C i Hi). now apply negb_true_iff in C.
Qed.

(** Where the delta, bicycle and discrete models have an action spec, it is one of
    vectors of length 3, 2 and 1, with one pair of bounds per entry. *)
Theorem C63_shipped_specs {S : Scalar} (q : delta_params) (b : bicycle_params) (w : dwrap) sp :
  (delta_action_spec q = Ok sp -> vector_spec 3 sp) /\
  (bicycle_action_spec b = Ok sp -> vector_spec 2 sp) /\
  (dw_action_spec w = Ok sp -> vector_spec 1 sp).
Proof. exact (conj (delta_vec q sp) (conj (bicycle_vec b sp) (dw_vec w sp))). Qed.

(** The multi-agent environment then publishes matrices of one row per object, and
    a matrix conforms exactly when every row conforms to the model's spec. *)
Theorem C63_multi_agent_spec {S : Scalar} c dim sp :
  vector_spec dim sp ->
  exists sp', base_action_spec c (Ok sp) = Ok sp' /\
    bs_shape sp' = [c_max_num_objects c; dim] /\ bs_dtype sp' = bs_dtype sp /\
    forall a, conforms sp' a <-> dims a = [c_max_num_objects c; dim] /\
                forall i, i < c_max_num_objects c -> conforms sp (row_of a i).
Proof. exact (base_spec c dim sp). Qed.

(** Over the reals, limits give a spec exactly when none is negative, and a
    discretised model when there is at least one discrete action. *)
Theorem C63_limits (q : delta_params (S := XR)) mx my myaw :
  dl_mx q = Fin mx -> dl_my q = Fin my -> dl_myaw q = Fin myaw ->
  ((0 <= mx /\ 0 <= my /\ 0 <= myaw)%R -> exists sp, delta_action_spec q = Ok sp) /\
  (~ (0 <= mx /\ 0 <= my /\ 0 <= myaw)%R -> delta_action_spec q = Err ValueError).
Proof.
  intros E1 E2 E3. unfold delta_action_spec, bounded_array, delta_spec.
  cbn [fst snd vec1 length dims broadcasts_to bdims bdims_rev rev app option_map Nat.eqb dims_eqb andb guard bind].
  cbn [indices seq flat_map map app forallb cell vec1 bidx map2 skipn Nat.sub length Nat.eqb hd nth].
  rewrite E1, E2, E3, !fopp_Fin.
  change (fltb (Scalar := XR) (Fin mx) (Fin (- mx))) with (Rltb mx (- mx)).
  change (fltb (Scalar := XR) (Fin my) (Fin (- my))) with (Rltb my (- my)).
  change (fltb (Scalar := XR) (Fin myaw) (Fin (- myaw))) with (Rltb myaw (- myaw)). split.
  - intros (A & B & C).
    replace (Rltb mx (- mx)) with false by (symmetry; apply Rltb_false; lra).
    replace (Rltb my (- my)) with false by (symmetry; apply Rltb_false; lra).
    replace (Rltb myaw (- myaw)) with false by (symmetry; apply Rltb_false; lra).
    cbn. eauto.
  - intros N. unfold Rltb. destruct (Rlt_dec mx (- mx)), (Rlt_dec my (- my)), (Rlt_dec myaw (- myaw)); try reflexivity.
    exfalso. apply N. lra.
Qed.

(** Which vectors conform: the limits bound each entry, in its own column; with
    normalised actions the bounds are 1; discrete actions run from 0 to the number
    of discrete actions minus 1. *)
Lemma conforms_vec {S : Scalar} d (l m v : list F) dt sp :
  bounded_array [d] dt (vec1 l) (vec1 m) = Ok sp -> length m = d -> length l = length m -> 1 <= length m ->
  (conforms sp (vec1 v) <-> length v = length m /\
     forall j lo hi x, nth_error l j = Some lo -> nth_error m j = Some hi -> nth_error v j = Some x ->
       fleb lo x = true /\ fleb x hi = true).
Proof.
  intros H <- L Hm. apply (vec_spec_of (length m)) in H as [_ ->]; [|exact Hm|exact L|reflexivity].
  unfold conforms. cbn [bs_shape bs_min bs_max vec1 dims]. split; intros [A B]; injection A as A || idtac.
  - split; [exact A|]. intros j lo hi x Hl Hh Hx.
    destruct (B [j] lo hi) as [X1 X2].
    + apply inside_vec. exists j. split; [reflexivity|]. eapply nth_error_Some_lt; eauto.
    + right. split; [reflexivity|]. cbn [cell hd vec1]. symmetry. now apply nth_error_nth.
    + right. split; [reflexivity|]. cbn [cell hd vec1]. symmetry. now apply nth_error_nth.
    + cbn [cell hd vec1] in X1, X2. rewrite (nth_error_nth _ _ _ Hx) in X1, X2. auto.
  - split; [now rewrite A|]. intros i lo hi Hi Bl Bh. apply inside_vec in Hi as (j & -> & Hj).
    destruct Bl as [[Z _]|[_ ->]]; [discriminate Z|]. destruct Bh as [[Z _]|[_ ->]]; [discriminate Z|].
    cbn [cell hd vec1]. apply (B j); apply nth_error_nth'; lia.
Qed.
Lemma leb2 (m x : R) : fleb (Scalar := XR) (Fin (- m)) (Fin x) = true /\ fleb (Scalar := XR) (Fin x) (Fin m) = true <-> (Rabs x <= m)%R.
Proof.
  rewrite !fleb_Fin, !Rleb_true. split; [intros; apply Rabs_le; lra|].
  intros H. pose proof (Rle_abs x). pose proof (Rle_abs (- x)) as N. rewrite Rabs_Ropp in N. lra.
Qed.

Theorem C63_delta_conforms (q : delta_params (S := XR)) sp mx my myaw x y yaw :
  dl_mx q = Fin mx -> dl_my q = Fin my -> dl_myaw q = Fin myaw -> delta_action_spec q = Ok sp ->
  (conforms sp (vec1 (S := XR) [Fin x; Fin y; Fin yaw]) <-> (Rabs x <= mx /\ Rabs y <= my /\ Rabs yaw <= myaw)%R).
Proof.
  intros E1 E2 E3 H. unfold delta_action_spec, delta_spec in H. cbn [fst snd] in H.
  rewrite E1, E2, E3, !fopp_Fin in H.
  rewrite (conforms_vec _ _ _ _ _ _ H) by (cbn; lia). rewrite <- !leb2. split.
  - intros [_ B]. split; [|split].
    + exact (B 0 _ _ _ eq_refl eq_refl eq_refl).
    + exact (B 1 _ _ _ eq_refl eq_refl eq_refl).
    + exact (B 2 _ _ _ eq_refl eq_refl eq_refl).
  - intros (B1 & B2 & B3). split; [reflexivity|]. intros [|[|[|j]]] lo hi v Hl Hh Hv.
    1-3: injection Hl as <-; injection Hh as <-; injection Hv as <-; assumption.
    destruct j; discriminate Hl.
Qed.

Theorem C63_bicycle_conforms (q : bicycle_params (S := XR)) sp ma ms a s :
  bc_max_accel q = Fin ma -> bc_max_steering q = Fin ms -> bicycle_action_spec q = Ok sp ->
  (conforms sp (vec1 (S := XR) [Fin a; Fin s]) <->
   if bc_normalize q then (Rabs a <= 1 /\ Rabs s <= 1)%R else (Rabs a <= ma /\ Rabs s <= ms)%R).
Proof.
  intros E1 E2 H. unfold bicycle_action_spec, bicycle_spec, bicycle_bound_accel, bicycle_bound_steering in H. cbn [fst snd] in H.
  assert (K : forall u v, bounded_array (S := XR) [2] Dfloat32 (vec1 (S := XR) [Fin (- u); Fin (- v)]) (vec1 (S := XR) [Fin u; Fin v]) = Ok sp ->
            (conforms sp (vec1 (S := XR) [Fin a; Fin s]) <-> (Rabs a <= u /\ Rabs s <= v)%R)).
  { intros u v G. rewrite (conforms_vec _ _ _ _ _ _ G) by (cbn; lia). rewrite <- !leb2. split.
    - intros [_ B]. split; [exact (B 0 _ _ _ eq_refl eq_refl eq_refl)|exact (B 1 _ _ _ eq_refl eq_refl eq_refl)].
    - intros (B1 & B2). split; [reflexivity|]. intros [|[|j]] lo hi z Hl Hh Hv.
      1-2: injection Hl as <-; injection Hh as <-; injection Hv as <-; assumption.
      destruct j; discriminate Hl. }
  destruct (bc_normalize q).
  - apply K. rewrite f1_Fin, fopp_Fin in H. exact H.
  - apply K. rewrite E1, E2, !fopp_Fin in H. exact H.
Qed.

Theorem C63_discrete_conforms d spec bins bi (w : dwrap (S := XR)) sp k :
  make_wrapper d spec bins bi = Ok w -> dw_action_spec w = Ok sp -> bs_dtype sp = Dint32 /\
  (conforms sp (vec1 (S := XR) [fofZ k]) <-> (0 <= k < num_actions bins)%Z).
Proof.
  intros Hw H.
  assert (N : dw_num_bins w = num_actions bins).
  { unfold make_wrapper in Hw. apply bind_Ok in Hw as (dd & _ & Hw). apply bind_Ok in Hw as (al & _ & Hw).
    apply bind_Ok in Hw as (df & _ & Hw). injection Hw as <-. cbn [dw_num_bins]. now rewrite num_actions_prod. }
  unfold dw_action_spec, dw_spec in H. cbn [fst snd] in H. rewrite N in H.
  split; [apply (vec_spec_of 1) in H as [_ ->]; [reflexivity|lia|reflexivity|reflexivity]|].
  rewrite (conforms_vec _ _ _ _ _ _ H) by (cbn; lia). split.
  - intros [_ B]. destruct (B 0 _ _ _ eq_refl eq_refl eq_refl) as [B1 B2].
    rewrite !fofZ_Fin, fleb_Fin, Rleb_true in B1, B2. apply le_IZR in B1, B2. lia.
  - intros B. split; [reflexivity|]. intros [|j] lo hi v Hl Hh Hv; [|destruct j; discriminate Hl].
    injection Hl as <-; injection Hh as <-; injection Hv as <-. split; apply (proj2 (Rleb_true _ _)), IZR_le; lia.
Qed.

(** Conforming actions are accepted at every step of every episode, for every call
    history: only the protocol decides. *)
Theorem C63_conforming_actions_accepted {S : Scalar} reg (e : benv) n h dim sp sp' sc0 data ks hist w :
  c_max_num_objects (be_cfg e) = n -> c_init_steps (be_cfg e) = h -> 1 <= h ->
  c_controlled (be_cfg e) <> NON_SDC ->
  dyn_total (be_dyn e) (fun a => length (a_data a) = dim) ->
  (forall T s, wf_state n T s -> exists r, base_reward reg e s = Ok r) ->
  vector_spec dim sp -> base_action_spec (be_cfg e) (Ok sp) = Ok sp' ->
  Forall2 (fun s k => wf_scenario n (h + k) s) data ks -> Forall (fun k => 0 < k) ks ->
  make_dm (sc0 :: data) = Ok w -> legal (conforms sp') hist ->
  map outcome_of (snd (dm_run (base_env reg e) (fun s _ => base_reward reg e s)
                         (base_to_action (be_cfg e) (Ok sp)) w hist)) = protocol ks None hist.
Proof.
  intros H1 H2 H3 H4 H5 H6 HV HB H7 H8 H9 HL.
  refine (dm_protocol _ _ _ _ _ _ (base_episodic reg e n h dim sp H1 H2 H3 H4 H5 H6 HV) sc0 data ks hist w H7 H8 H9 _).
  intros a Ha. destruct (base_spec (be_cfg e) dim sp HV) as (sp2 & E & Es & _). rewrite HB in E. injection E as <-.
  destruct (HL a Ha) as [D _]. rewrite D, Es, H1. simpl. lia.
Qed.

(** The valid part of the specs.  Beside data of the data part's shape, Action.validate
    accepts a matrix of validities exactly when it has the shape and type of the valid
    part; likewise a vector in the planning environment. *)
Definition has_spec (sp : aspec) (t : tensor) : Prop :=
  t_shape t = as_shape sp /\
  e_kind (t_type t) = match as_dtype sp with Dfloat32 => Kfloat | Dint32 => Kint | Dbool => Kbool end.
Theorem C63_valid_part {S : Scalar} c dim sp sp' (data valid : tensor) :
  vector_spec dim sp -> base_action_spec c (Ok sp) = Ok sp' ->
  (t_shape data = bs_shape sp' -> length (t_shape valid) = 2 ->
     (act_validate data valid = Ok tt <-> has_spec (base_valid_spec c) valid)) /\
  (t_shape data = bs_shape sp -> length (t_shape valid) = 1 ->
     (act_validate data valid = Ok tt <-> has_spec planning_valid_spec valid)).
Proof.
  intros HV HB. destruct (base_spec c dim sp HV) as (sp2 & E & Es & _). rewrite HB in E. injection E as <-.
  destruct HV as (Hs & _). rewrite Es, Hs.
  destruct data as [ds dt], valid as [vs [k bits]]. unfold has_spec, act_validate, assert_type, base_valid_spec, planning_valid_spec.
  cbn [t_shape t_type e_kind as_shape as_dtype]. split; intros -> L.
  - destruct vs as [|a [|b [|x vs]]]; try discriminate L.
    unfold assert_equal_shape_prefix, assert_equal_shape. cbn [length Nat.sub map firstn hd forallb last dims_eqb map2 e_kind t_type].
    rewrite Nat.eqb_refl. cbn [andb].
    destruct (Nat.eqb_spec (c_max_num_objects c) a) as [<-|Na]; cbn [andb guard bind].
    + destruct (Nat.eqb_spec b 1) as [->|Nb]; cbn [guard bind].
      * destruct k; cbn [kind_eqb andb guard]; split; intros H; try discriminate H; try (destruct H as [_ H]; discriminate H); auto.
      * split; [intros H; discriminate H|]. intros [H _]. congruence.
    + split; [intros H; discriminate H|]. intros [H _]. congruence.
  - destruct vs as [|a [|x vs]]; try discriminate L.
    unfold assert_equal_shape_prefix, assert_equal_shape. cbn [length Nat.sub map firstn hd forallb last dims_eqb map2 e_kind t_type andb guard bind].
    destruct (Nat.eqb_spec a 1) as [->|Nb]; cbn [guard bind].
    + destruct k; cbn [kind_eqb andb guard]; split; intros H; try discriminate H; try (destruct H as [_ H]; discriminate H); auto.
    + split; [intros H; discriminate H|]. intros [H _]. congruence.
Qed.

(** Repeating an action of the planning environment's spec for every object, as its
    dynamics does, gives arrays of the multi-agent environment's spec. *)
Theorem C63_planning_spec_repeats {S : Scalar} c dim sp sp' :
  vector_spec dim sp -> base_action_spec c (Ok sp) = Ok sp' ->
  tile_second_last (bs_shape sp) (c_max_num_objects c) = Ok (bs_shape sp') /\
  tile_second_last (as_shape planning_valid_spec) (c_max_num_objects c) = Ok (as_shape (base_valid_spec c)) /\
  as_dtype planning_valid_spec = as_dtype (base_valid_spec c).
Proof.
  intros HV HB. destruct (base_spec c dim sp HV) as (sp2 & E & Es & _). rewrite HB in E. injection E as <-.
  destruct HV as (Hs & _). rewrite Es, Hs. repeat split.
Qed.

Example C63_ex_valid : act_validate (mkT [3; 2] (mket Kfloat 32)) (mkT [3; 1] (mket Kbool 8)) = Ok tt /\
  has_spec (base_valid_spec (mkcfg 3 1 SDC false)) (mkT [3; 1] (mket Kbool 8)) /\
  act_validate (mkT [3; 2] (mket Kfloat 32)) (mkT [2; 1] (mket Kbool 8)) = Err AssertionError.
Proof. repeat split. Qed.

(** A scalar conforms to the squeezed spec of a one-column discrete action exactly
    when the vector of length one conforms to the environment's spec, and stepping
    with either is the same. *)
Theorem C63_squeeze {S : Scalar} {X} sp :
  vector_spec 1 sp ->
  exists sp', dm_action_spec true (Ok sp) = Ok sp' /\ bs_shape sp' = [] /\ bs_dtype sp' = bs_dtype sp /\
    (forall x, conforms sp' (scalar x) <-> conforms sp (vec1 [x])) /\
    (forall x (ps : pstate X), planning_to_action (Ok sp) ps (scalar x) = Ok (mkact [x] true) /\
       planning_to_action (Ok sp) ps (vec1 [x]) = Ok (mkact [x] true)).
Proof.
  intros V. destruct (squeeze_spec sp V) as (sp' & A & B & C & D). exists sp'. repeat (split; [assumption|]).
  intros x ps. destruct V as (E & _). unfold planning_to_action, planning_action_spec. cbn [bind]. rewrite E. split; reflexivity.
Qed.

(* ---------------- what is returned ---------------- *)

(** Scenarios shaped like the first one of the stream: for every history of calls,
    every returned observation has the leaf shapes of observation_spec and every
    reward the shape of reward_spec; the discount is 1. *)
Theorem C63_time_steps_conform {S : Scalar} {RA} (e : benv) n T (to_action : state -> RA -> res (list act)) s0 data w h :
  c_max_num_objects (be_cfg e) = n -> c_init_steps (be_cfg e) <= T ->
  Forall (scenario_like n T s0) (s0 :: data) -> make_dm (s0 :: data) = Ok w ->
  exists spec, dm_observation_spec (base_env initial_registry e) state_leaves w = Ok spec /\
    forall ts, In (Ok ts) (snd (dm_run (base_env initial_registry e)
                  (fun s _ => base_reward initial_registry e s) to_action w h)) ->
      state_leaves (ts_obs ts) = spec /\
      (forall r, ts_reward ts = Some r -> [length r] = as_shape (base_reward_spec (be_cfg e))) /\
      (forall d, ts_discount ts = Some d -> forall x, In x d -> x = true).
Proof.
  intros En Hi D Hw. destruct (base_conform e n T to_action s0 data w h En Hi D Hw) as (spec & E & H).
  exists spec. split; [exact E|]. intros ts Hin. destruct (H ts Hin) as [H1 H2]. split; [exact H1|]. split.
  - intros r Hr. simpl. now rewrite (H2 r Hr), En.
  - intros d Hd x Hx.
    destruct (discount_one (base_env initial_registry e) (fun s _ => base_reward initial_registry e s) to_action)
      with (h := h) (w := w) (r := Ok (A := dm_timestep state (list F)) ts) (ts := ts) as [(_ & _ & K)|(_ & _ & l & K & L)]; auto.
    + intros s y [<-|[]]. reflexivity.
    + congruence.
    + rewrite K in Hd. injection Hd as <-. auto.
Qed.

(** The published discount spec can be built; a scalar conforms to it exactly if it
    is between 0 and 1, so the discount 1 that is returned does. *)
Theorem C63_discount_conforms :
  exists sp, discount_spec (S := XR) = Ok sp /\ bs_shape sp = [] /\ bs_dtype sp = Dfloat32 /\
    (forall r, conforms sp (scalar (A := F (Scalar := XR)) (Fin r)) <-> (0 <= r <= 1)%R) /\
    conforms sp (scalar (f1 (S := XR))).
Proof.
  assert (G : discount_spec (S := XR) = Ok (Specs.mkbs (S := XR) [] Dfloat32 (scalar (A := F (Scalar := XR)) (Fin 0)) (scalar (A := F (Scalar := XR)) (Fin 1)))).
  { assert (A0 : f0 (S := XR) = Fin 0) by (cbn; f_equal; lra).
    assert (A1 : f1 (S := XR) = Fin 1) by (cbn; f_equal; lra).
    unfold discount_spec. rewrite A0, A1. unfold bounded_array. cbn. unfold Rltb. destruct (Rlt_dec 1 0); [lra|reflexivity]. }
  eexists. split; [exact G|]. split; [reflexivity|]. split; [reflexivity|].
  assert (W : forall r, conforms (Specs.mkbs (S := XR) [] Dfloat32 (scalar (A := F (Scalar := XR)) (Fin 0)) (scalar (A := F (Scalar := XR)) (Fin 1))) (scalar (A := F (Scalar := XR)) (Fin r)) <-> (0 <= r <= 1)%R).
  { intros r. split.
    - intros [_ H]. destruct (H [] (Fin 0) (Fin 1)) as [A B]; [constructor|left; auto|left; auto|].
      cbn in A, B. unfold Rleb in A, B. destruct (Rle_dec 0 r), (Rle_dec r 1); try discriminate. lra.
    - intros [A B]. split; [reflexivity|]. intros i lo hi Hi [[_ ->]|[Hl ->]] [[_ ->]|[Hl' ->]];
        cbn; unfold Rleb; destruct (Rle_dec 0 r), (Rle_dec r 1); try lra; auto. }
  split; [exact W|].
  replace (f1 (S := XR)) with (Fin 1) by (cbn; f_equal; lra). apply W. lra.
Qed.

(** Complete-state actions are not limited: all but NaN conform. *)
Theorem C63_state_conforms :
  exists sp, state_action_spec (S := XR) = Ok sp /\ bs_shape sp = [5] /\ bs_dtype sp = Dfloat32 /\
    forall a : arr (F (Scalar := XR)), conforms sp a <-> dims a = [5] /\ forall i, i < 5 -> cell a [i] <> NaN.
Proof.
  eexists. split; [reflexivity|]. split; [reflexivity|]. split; [reflexivity|]. intros a. split.
  - intros [D H]. split; [exact D|]. intros i Hi E.
    destruct (H [i] MInf PInf) as [A _]; [constructor; [exact Hi|constructor]|left; auto|left; auto|].
    rewrite E in A. discriminate A.
  - intros [D H]. split; [exact D|]. cbn [bs_shape bs_min bs_max]. intros i lo hi Hi [[_ ->]|[Hl _]] [[_ ->]|[Hl' _]].
    + apply inside_vec in Hi as (j & -> & Hj). specialize (H j Hj). destruct (cell a [j]) eqn:E; rewrite ?E; cbn; auto.
    + inversion Hi; subst. discriminate Hl'.
    + inversion Hi; subst. discriminate Hl.
    + inversion Hi; subst. discriminate Hl.
Qed.

(* ---------------- what is not checked ---------------- *)

(** Neither the shape nor the bounds of an action are checked: only the number of
    entries and their row-major order count. *)
Theorem C63_only_entries_count {S : Scalar} {X} c dsp s (ps : pstate X) (a b : arr F) :
  flat a = flat b ->
  base_to_action c dsp s a = base_to_action c dsp s b /\
  planning_to_action dsp ps a = planning_to_action dsp ps b.
Proof. intros E. unfold base_to_action, planning_to_action. now rewrite E. Qed.

(** So a matrix with the axes exchanged is accepted, and the objects get each
    other's entries. *)
Definition xdp : delta_params (S := QS) := mkdp (S := QS) (flit 1 10) (q 6) (q 6) (q 3).
Definition xact : arr (F (Scalar := QS)) := mkA [3; 2] (fun i => q (10 * Z.of_nat (nth 0 i 0) + Z.of_nat (nth 1 i 0))).
Theorem C63_shape_checked_refuted :
  exists sp, delta_action_spec xdp = Ok sp /\
    ~ dims xact = [2; 3] /\
    base_to_action (mkcfg 2 1 SDC false) (Ok sp) ex_state xact
    = Ok [mkact [q 0; q 1; q 10] true; mkact [q 11; q 20; q 21] true].
Proof. eexists. split; [reflexivity|]. split; [discriminate|]. reflexivity. Qed.

(** A conforming DeltaGlobal action moves a controlled object by at most the limits. *)
Theorem C63_conforming_moves_within_limits n T q c s acts s' mask (t i : nat) sp a p x y mx my :
  wf_state n T s -> env_step (DeltaGlobal (S := XR) q) c s acts = Ok s' ->
  env_control_mask s c = Ok mask -> nth_error mask i = Some true ->
  s_t s = Z.of_nat t -> t + 1 < T ->
  dl_mx q = Fin mx -> dl_my q = Fin my ->
  delta_action_spec q = Ok sp -> nth_error acts i = Some a -> conforms sp (vec1 (a_data a)) ->
  at2 (s_sim s) i t = Some p -> p_x p = Fin x -> p_y p = Fin y ->
  exists p' x' y', at2 (s_sim s') i (t + 1) = Some p' /\ p_x p' = Fin x' /\ p_y p' = Fin y' /\
    (Rabs (x' - x) <= mx /\ Rabs (y' - y) <= my)%R.
Proof.
  intros W H Hm Hi Et Ht Mx My Hs Ha [Hd Hb] Hp Px Py.
  destruct (step_controlled_pose n T _ c s acts s' mask t W H Hm Et Ht) as (cur & us & Lc & Hc & Hu & K).
  assert (Hin : i < n).
  { pose proof (nth_error_Some_lt _ _ _ Hi) as Hl. rewrite <- (control_mask_length n T s c mask W Hm). exact Hl. }
  assert (Hcur : nth_error cur i = Some p) by (rewrite Hc by exact Hin; exact Hp).
  destruct (delta_vec q sp Hs) as (Es & _). rewrite Es in Hd. unfold vec1 in Hd. cbn [dims] in Hd. injection Hd as Hd.
  destruct (a_data a) as [|dx [|dy [|dyaw [|? ?]]]] eqn:Ea; try discriminate Hd.
  assert (Esp : sp = mkbs [3] Dfloat32 (vec1 (fst (delta_spec q))) (vec1 (snd (delta_spec q)))).
  { apply (vec_spec_of 3) in Hs; [apply Hs|lia|reflexivity|reflexivity]. }
  assert (B : forall j lo hi v, j < 3 -> nth_error (fst (delta_spec q)) j = Some lo -> nth_error (snd (delta_spec q)) j = Some hi ->
            nth_error [dx; dy; dyaw] j = Some v -> fleb lo v = true /\ fleb v hi = true).
  { intros j lo hi v Hj L1 L2 L3. destruct (Hb [j] lo hi) as [X1 X2].
    - rewrite Es. apply inside_vec; eauto.
    - right. rewrite Esp. split; [reflexivity|]. cbn [bs_min bs_max vec1 cell hd]. symmetry. now apply nth_error_nth.
    - right. rewrite Esp. split; [reflexivity|]. cbn [bs_min bs_max vec1 cell hd]. symmetry. now apply nth_error_nth.
    - cbn [cell vec1 hd] in X1, X2. rewrite (nth_error_nth _ _ _ L3) in X1, X2. auto. }
  destruct (B 0 _ _ dx ltac:(lia) eq_refl eq_refl eq_refl) as [X1 X2].
  destruct (B 1 _ _ dy ltac:(lia) eq_refl eq_refl eq_refl) as [Y1 Y2].
  rewrite Mx, fopp_Fin in *. rewrite My, fopp_Fin in *.
  assert (G : forall v m, fleb (Scalar := XR) (Fin (- m)) v = true -> fleb (Scalar := XR) v (Fin m) = true ->
              exists r, v = Fin r /\ (Rabs r <= m)%R).
  { intros v m A1 A2. destruct v as [r| | |]; try discriminate. exists r. split; [reflexivity|].
    rewrite fleb_Fin in A1, A2. apply Rleb_true in A1, A2. apply Rabs_le. lra. }
  destruct (G _ _ X1 X2) as (rx & -> & Bx). destruct (G _ _ Y1 Y2) as (ry & -> & By).
  destruct (per_object_Ok _ _ _ _ Hu) as (_ & _ & PK). destruct (PK i a p Ha Hcur) as (u & Eu & Hus).
  unfold delta_global_update in Eu. rewrite Ea in Eu. injection Eu as <-.
  destruct (K i _ Hi Hus) as (p' & Hp' & Ux & Uy & _). cbn [u_x u_y] in Ux, Uy.
  exists p', (x + rx)%R, (y + ry)%R. split; [exact Hp'|].
  rewrite Ux, Uy, Px, Py, !fadd_Fin. split; [reflexivity|]. split; [reflexivity|].
  replace (x + rx - x)%R with rx by ring. replace (y + ry - y)%R with ry by ring. auto.
Qed.

(** StateDynamics has a spec, but with scalar bounds, of which the multi-agent
    environment cannot take rows: its action_spec raises, and so does every step of
    the dm_env wrapper around it, whatever the action. *)
Theorem C63_state_dynamics_in_dm_env_refuted {S : Scalar} reg (e : benv) (w : dmenv state state) a s sp :
  state_action_spec = Ok sp ->
  dm_initialized w = true -> dm_done w = false -> dm_cur w = Some s ->
  (exists r, base_reward reg e s = Ok r) ->
  base_action_spec (be_cfg e) state_action_spec = Err IndexError /\
  dm_step (base_env reg e) (fun s _ => base_reward reg e s)
    (base_to_action (be_cfg e) state_action_spec) w a = (w, Err IndexError).
Proof.
  intros Hs I D C (r & Hr). pose proof (base_spec_state (be_cfg e) sp Hs) as E. split; [exact E|].
  unfold dm_step. rewrite I, D, C, Hr. cbn [negb bind]. unfold base_to_action. rewrite E. reflexivity.
Qed.

(** The planning environment is not affected: its spec is the model's. *)
Theorem C63_state_dynamics_in_planning {S : Scalar} {X} sp (ps : pstate X) a :
  state_action_spec = Ok sp -> dims a = [5] ->
  planning_to_action state_action_spec ps a = Ok (mkact (flat a) true).
Proof.
  intros H D. destruct (bounded_array_Ok _ _ _ _ _ H) as [E _]. unfold planning_to_action, planning_action_spec.
  rewrite H, E. cbn [bind bs_shape]. rewrite flat_length, D. reflexivity.
Qed.

(** The hypotheses are met: real limits 6, 6, 3; the StateDynamics spec exists. *)
Example C63_ex_specs :
  (exists sp, delta_action_spec (mkdp (S := XR) (Fin (1 / 10)) (Fin 6) (Fin 6) (Fin 3)) = Ok sp /\
     conforms sp (vec1 (S := XR) [Fin 1; Fin (-6); Fin 0])) /\
  (exists sp, state_action_spec (S := XR) = Ok sp).
Proof.
  split.
  - destruct (proj1 (C63_limits (mkdp (S := XR) (Fin (1 / 10)) (Fin 6) (Fin 6) (Fin 3)) 6 6 3 eq_refl eq_refl eq_refl)) as [sp E]; [lra|].
    exists sp. split; [exact E|].
    apply (vec_spec_of 3) in E as [_ ->]; [|lia|reflexivity|reflexivity].
    split; [reflexivity|]. intros i lo hi Hi Bl Bh. apply inside_vec in Hi as (j & -> & Hj).
    destruct Bl as [[Z _]|[_ ->]]; [discriminate Z|]. destruct Bh as [[Z _]|[_ ->]]; [discriminate Z|].
    destruct j as [|[|[|j]]]; [| | |lia]; cbn; rewrite ?fopp_Fin; split; apply Rleb_true; lra.
  - eexists. reflexivity.
Qed.

Example C63_ex_scenario_like : scenario_like 3 4 ex_state ex_state.
Proof. split; [apply ex_wf|]. auto. Qed.

Print Assumptions C63_shipped_specs.
Print Assumptions C63_multi_agent_spec.
Print Assumptions C63_limits.
Print Assumptions C63_delta_conforms.
Print Assumptions C63_bicycle_conforms.
Print Assumptions C63_discrete_conforms.
Print Assumptions C63_conforming_actions_accepted.
Print Assumptions C63_squeeze.
Print Assumptions C63_time_steps_conform.
Print Assumptions C63_only_entries_count.
Print Assumptions C63_shape_checked_refuted.
Print Assumptions C63_conforming_moves_within_limits.
Print Assumptions C63_state_dynamics_in_dm_env_refuted.
Print Assumptions C63_state_dynamics_in_planning.
Print Assumptions C63_bounds_checked.
Print Assumptions C63_discount_conforms.
Print Assumptions C63_state_conforms.
Print Assumptions C63_valid_part.
Print Assumptions C63_planning_spec_repeats.
