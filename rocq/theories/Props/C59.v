(** C59: the scenarios of a batch are simulated independently.
    A batched state has arrays of shape (..., num_objects, ...); [scenario s b]
    (Spec/BatchSpec.v) is the single scenario stored at batch index [b].  [rmap]
    applies a function to a successful result and keeps an exception, so the
    equations below say: the batched call succeeds exactly when the call on the
    scenario alone does, raises the same exception otherwise, and on success
    holds at index [b] exactly what the call on that scenario alone returns. *)
From Coq Require Import List ZArith QArith Bool Lia.
From Verif.Lib Require Import Base JaxIndex Scalar QScalar.
From Verif.Model Require Import Operations State Dynamics BaseEnv Dyn_State Dyn_Delta
  Dyn_Bicycle Batch.
From Verif.Spec Require Import StateSpec BatchSpec.
From Verif.Proofs Require Import Core P_Batch.
Import ListNotations.
Local Open Scope nat_scope.

Section C59.
  Context {S : Scalar}.

  (** reset. *)
  Theorem C59_reset B n T c s b :
    loaded_batch B n T s -> 0 < n -> inside B b ->
    rmap (fun s' => scenario s' b) (b_reset c s) = env_reset c (scenario s b).
  Proof. exact (b_reset_eq B n T c s b). Qed.

  (** It succeeds for every batch shape when the sizes fit; the new timestep is
      one scalar for the whole batch. *)
  Theorem C59_reset_succeeds B n T c s :
    loaded_batch B n T s -> c_max_num_objects c = n -> c_init_steps c <= T ->
    exists s', b_reset c s = Ok s' /\ batch_of B n T s' /\ dims (b_t s') = [].
  Proof.
    intros W H1 H2. destruct (b_reset_Ok B n T c s W H1 H2) as [s' H].
    exists s'. split; auto. exact (b_reset_shape B n T c s s' W H).
  Qed.

  (** step, for every dynamics model that works object by object. *)
  Theorem C59_step f inv B n T w c s a b :
    batch_of B n T s -> dims (b_t s) = [] -> 0 < n -> 0 < T ->
    column_checked f -> actions_of B n w a -> inside B b ->
    rmap (fun s' => scenario s' b) (b_step (b_elementwise f) c s a)
    = env_step (mkdyn (per_object f) inv) c (scenario s b) (vector a b).
  Proof. exact (b_step_eq f inv B n T w c s a b). Qed.

  (** A whole episode: reset, then one step per action array. *)
  Theorem C59_episode f inv B n T w c s acts b :
    loaded_batch B n T s -> 0 < n -> 0 < T ->
    column_checked f -> Forall (actions_of B n w) acts -> inside B b ->
    rmap (fun s' => scenario s' b) (b_episode (b_elementwise f) c s acts)
    = run_episode (mkdyn (per_object f) inv) c (scenario s b)
        (map (fun a => vector a b) acts).
  Proof. exact (b_episode_eq f inv B n T w c s acts b). Qed.

  (** Hence what happens to a scenario does not depend on the batch it is in, on
      its place there, or on the actions of the other scenarios. *)
  Theorem C59_independence f B B' n T w c s s' acts acts' b b' :
    loaded_batch B n T s -> loaded_batch B' n T s' -> 0 < n -> 0 < T ->
    column_checked f -> Forall (actions_of B n w) acts -> Forall (actions_of B' n w) acts' ->
    inside B b -> inside B' b' ->
    scenario s b = scenario s' b' ->
    map (fun a => vector a b) acts = map (fun a => vector a b') acts' ->
    rmap (fun r => scenario r b) (b_episode (b_elementwise f) c s acts)
    = rmap (fun r => scenario r b') (b_episode (b_elementwise f) c s' acts').
  Proof.
    intros W W' Hn HT CC A A' I I' Es Ea.
    rewrite (C59_episode f (fun _ _ _ => Err ValueError) B n T w) by auto.
    rewrite (C59_episode f (fun _ _ _ => Err ValueError) B' n T w) by auto.
    rewrite Es, Ea. reflexivity.
  Qed.

  (** The shipped dynamics models work object by object and fail only because of
      the number of action columns. *)
  Theorem C59_shipped_dynamics :
    (StateDynamics = mkdyn (per_object state_update) state_inverse /\
     column_checked state_update) /\
    (forall q, DeltaGlobal q = mkdyn (per_object (delta_global_update q)) (delta_global_inverse q) /\
     column_checked (delta_global_update q)) /\
    (forall q, DeltaLocal q = mkdyn (per_object (delta_local_update q)) (delta_local_inverse q) /\
     column_checked (delta_local_update q)) /\
    (forall q, InvertibleBicycleModel q
               = mkdyn (per_object (bicycle_update q)) (bicycle_inverse q) /\
     column_checked (bicycle_update q)).
  Proof.
    split; [|split; [|split]]; [split; [reflexivity|]|intros q; split; [reflexivity|]..];
      intros w.
    - destruct (Nat.le_gt_cases 5 w) as [H|H]; [left|right; exists AssertionError];
        intros [d v] p E; simpl in *; unfold state_update; simpl;
        do 5 (destruct d as [|? d]; simpl in *; try lia; eauto).
    - destruct (Nat.eq_dec w 3) as [H|H].
      + left. intros [d v] p E; cbn [a_data] in E; unfold delta_global_update; cbn [a_data].
        destruct d as [|x0 [|x1 [|x2 [|x3 d]]]]; simpl in E; try lia. eauto.
      + right. exists (if (w mod 3 =? 0)%nat then AssertionError else ValueError).
        intros [d v] p E; cbn [a_data] in E; subst w; unfold delta_global_update; cbn [a_data].
        destruct d as [|x0 [|x1 [|x2 [|x3 d]]]]; try reflexivity. now destruct H.
    - destruct (Nat.le_gt_cases 3 w) as [H|H]; 
        [left|right; exists (if w =? 2 then ValueError else TypeError)];
        intros [d v] p E; cbn [a_data] in E; subst w; unfold delta_local_update; cbn [a_data];
        do 3 (destruct d as [|? d]; simpl in *; try lia; eauto).
      unfold delta_global_update. simpl. eauto.
    - destruct (Nat.le_gt_cases 2 w) as [H|H]; [left|right; exists AssertionError];
        intros [d v] p E; simpl in *; unfold bicycle_update; simpl;
        do 2 (destruct d as [|? d]; simpl in *; try lia; eauto).
  Qed.

  (** Reading the current frame works for one clock per scenario as well. *)
  Theorem C59_current_frame B n T s : batch_of B n T s -> 0 < T ->
    exists cs cl, b_current_sim s = Ok cs /\ b_current_log s = Ok cl /\
      dims cs = B ++ [n; 1] /\ dims cl = B ++ [n; 1] /\
      forall b, inside B b ->
        current_sim (scenario s b) = Ok (map (fun r => hd invalid_pt r) (matrix cs b)) /\
        current_log (scenario s b) = Ok (map (fun r => hd invalid_pt r) (matrix cl b)).
  Proof. exact (b_current_eq B n T s). Qed.

  (** So does advancing by the log. *)
  Theorem C59_update_by_log B n T s k b :
    batch_of B n T s -> 0 < n -> inside B b ->
    rmap (fun s' => scenario s' b) (b_update_state_by_log s k)
    = update_state_by_log (scenario s b) k.
  Proof. exact (b_update_state_by_log_eq B n T s k b). Qed.

  (** truncation and termination have one flag per scenario, its own. *)
  Theorem C59_episode_end B n T s : batch_of B n T s -> 0 < n ->
    dims (b_termination s) = B /\
    exists tr, b_truncation s = Ok tr /\ dims tr = B /\
      forall b, inside B b ->
        cell tr b = truncation (scenario s b) /\
        cell (b_termination s) b = termination (scenario s b).
  Proof.
    intros W Hn. split; [exact (batch_shape B n T s W)|].
    destruct (b_truncation_eq B n T s W Hn) as (tr & H & D & E).
    exists tr. repeat split; auto.
  Qed.

  (** is_done and remaining_timesteps have the shape of the clock: one entry for the
      whole batch after reset, else one per scenario.  Either way the entry that
      belongs to a scenario is the scenario's own. *)
  Theorem C59_is_done B n T s : batch_of B n T s -> 0 < n ->
    dims (b_is_done s) = dims (b_t s) /\ dims (b_remaining s) = dims (b_t s) /\
    forall b, inside B b ->
      let entry := firstn (length (dims (b_t s))) b in
      cell (b_is_done s) entry = is_done (scenario s b) /\
      cell (b_remaining s) entry = remaining_timesteps (scenario s b).
  Proof.
    intros (D1 & D2 & D3 & D4) Hn. split; [reflexivity|]. split; [reflexivity|]. intros b I.
    unfold b_is_done, b_remaining, is_done, remaining_timesteps, b_num_timesteps. simpl.
    rewrite (rect_num_timesteps n T _ (matrix_rect _ _ _ _ _ D2 I) Hn), D2, last_app2. split; reflexivity.
  Qed.

  (** forward refuses actions that are not one per object of every scenario, and a
      control mask or reference trajectory with other leading dimensions, whatever
      the dynamics. *)
  Theorem C59_forward_refuses d a sim ref ctl t inj :
    (dims a <> removelast (dims sim) -> b_forward d a sim ref ctl t inj = Err AssertionError) /\
    (dims ctl <> firstn (length (dims ctl)) (dims sim) ->
     b_forward d a sim ref ctl t inj = Err AssertionError) /\
    (firstn (length (dims ctl)) (dims ref) <> firstn (length (dims ctl)) (dims sim) ->
     b_forward d a sim ref ctl t inj = Err AssertionError).
  Proof.
    assert (E : forall x y, x <> y -> dims_eqb x y = false).
    { intros x y N. destruct (dims_eqb x y) eqn:X; auto. apply dims_eqb_eq in X. contradiction. }
    unfold b_forward. split; [|split]; intros H.
    - rewrite (E (removelast (dims sim)) (dims a)) by congruence. reflexivity.
    - destruct (dims_eqb (removelast (dims sim)) (dims a)); [|reflexivity]. cbn [guard bind].
      rewrite (E (firstn (length (dims ctl)) (dims sim)) (dims ctl)) by congruence.
      rewrite andb_false_r. reflexivity.
    - destruct (dims_eqb (removelast (dims sim)) (dims a)); [|reflexivity]. cbn [guard bind].
      rewrite (E (firstn (length (dims ctl)) (dims sim)) (firstn (length (dims ctl)) (dims ref))) by congruence.
      reflexivity.
  Qed.

  (** Refuted expectation (simulator_state.py:60-61: "timestep: The current
      simulation timestep index of shape (...)", and step takes any state of shape
      (...)): a batch whose timestep has the batch shape can not be stepped, by no
      dynamics model, configuration and action. *)
  Theorem C59_own_clocks_cannot_step_refuted d c s a s' :
    dims (b_t s) <> [] -> b_step d c s a <> Ok s'.
  Proof. exact (b_step_own_clock d c s a s'). Qed.

  (** For a well-shaped batch the exception is a ValueError. *)
  Theorem C59_own_clocks_value_error f B n T w c s a :
    batch_of B n T s -> B <> [] -> dims (b_t s) = B -> 0 < n -> 0 < T ->
    (forall x p, length (a_data x) = w -> exists u, f x p = Ok u) -> actions_of B n w a ->
    b_step (b_elementwise f) c s a = Err ValueError.
  Proof. exact (b_step_own_clock_error f B n T w c s a). Qed.

  (** Validation accepts a loaded batch whose timestep has the batch shape ... *)
  Theorem C59_loaded_batch_validates B n T s m r :
    batch_of B n T s -> dims (b_t s) = B -> dims (b_tls s) = B ++ m ->
    (forall rg, b_rg s = Some rg -> dims rg = B ++ r) ->
    b_validate s = Ok tt.
  Proof.
    intros W Dt Dl Dr. pose proof (batch_shape B n T s W) as Sh.
    destruct W as (D1 & D2 & D3 & _). unfold b_validate. rewrite Sh.
    assert (F : forall x, firstn (length B) (B ++ x) = B) by (intros; now apply firstn_pre).
    rewrite D1, D2, D3, Dl, Dt, F. unfold guard.
    rewrite forallb_map_firstn; [reflexivity|].
    intros x Hx. apply in_app_iff in Hx as [Hx|Hx].
    - simpl in Hx. repeat destruct Hx as [<-|Hx]; auto; [apply firstn_all|destruct Hx].
    - destruct (b_rg s) as [rg|]; simpl in Hx; [|destruct Hx].
      destruct Hx as [<-|[]]. rewrite (Dr rg) by auto. apply F.
  Qed.

  (** ... but (refuted expectation) rejects every batch that has been reset. *)
  Theorem C59_reset_batch_invalid_refuted B n T c s s' :
    loaded_batch B n T s -> B <> [] -> b_reset c s = Ok s' ->
    b_validate s' = Err AssertionError.
  Proof.
    intros W HB H. destruct (b_reset_shape B n T c s s' W H) as [W' Dt].
    pose proof (batch_shape B n T s' W') as Sh. destruct W' as (D1 & D2 & D3 & _).
    unfold b_validate. rewrite Sh, Dt. unfold guard.
    match goal with |- (if ?x then _ else _) = _ => assert (E : x = false) end.
    { apply not_true_is_false. intros E. rewrite forallb_forall in E.
      specialize (E []). rewrite D1, firstn_pre in E by auto.
      assert (In [] (map (firstn (length B))
        ([B ++ [n; T]; dims (b_log s'); dims (b_tls s'); dims (b_meta s'); []] ++
         match b_rg s' with Some rg => [dims rg] | None => [] end))) as Hin.
      { apply in_map_iff. exists []. split; [apply firstn_nil|]. apply in_app_iff. left.
        simpl. auto 10. }
      apply E in Hin. apply dims_eqb_eq in Hin. congruence. }
    rewrite E. reflexivity.
  Qed.
End C59.

(** Two scenarios of two objects and three steps; object 0 of scenario 0 and
    object 1 of scenario 1 are the SDC. *)
Definition ex_num (z : Z) : @F QS := inject_Z z.
Definition ex_pt (idx : list nat) : @pt QS :=
  let k := Z.of_nat (100 * nth 0 idx 0 + 10 * nth 1 idx 0 + nth 2 idx 0) in
  mkpt (ex_num k) (ex_num 0) (ex_num 0) (ex_num 1) (ex_num 0) (ex_num 0) true k
    (ex_num 4) (ex_num 2) (ex_num 1).
Definition ex_meta (idx : list nat) : meta :=
  let sdc := (nth 0 idx 0 =? nth 1 idx 0) in mkmeta 1 1 sdc true true false sdc.
Definition ex_batch (t : arr Z) : bstate (S := QS) :=
  mkbs (mkA [2; 2; 3] ex_pt) (mkA [2; 2; 3] ex_pt)
    (mkA [2; 0; 3] (fun _ => mktl (ex_num 0) (ex_num 0) (ex_num 0) 0 0 false))
    (mkA [2; 2] ex_meta) t None None.
Definition ex_acts : arr (act (S := QS)) :=
  mkA [2; 2] (fun idx => mkact (map ex_num [Z.add 500 (Z.of_nat (nth 0 idx 0)); 1%Z; 0%Z; 1%Z; 1%Z]) true).
Definition ex_cfg : envcfg := mkcfg 2 1 SDC false.
Definition ex_xs (r : res (bstate (S := QS))) : option (list (list (list Z))) :=
  match r with
  | Ok s => Some (map (fun b => map (map (fun p : pt (S := QS) => Qnum (p_x p)))
                             (s_sim (scenario s b))) [[0]; [1]])
  | Err _ => None
  end.

Example C59_ex_shapes :
  loaded_batch [2] 2 3 (ex_batch (scalar 0%Z)) /\
  batch_of [2] 2 3 (ex_batch (scalar 0%Z)) /\
  actions_of [2] 2 5 ex_acts /\ inside [2] [1].
Proof.
  split; [|split; [|split]].
  - split; reflexivity.
  - repeat split. now left.
  - split; reflexivity.
  - constructor; [lia|constructor].
Qed.

(** One step: the SDC of each scenario goes where its own action says, the other
    object follows its own log. *)
Example C59_ex_episode :
  ex_xs (b_episode (b_elementwise state_update) ex_cfg (ex_batch (scalar 0%Z)) [ex_acts])
  = Some [[[0; 500; -1]; [10; 11; -1]]; [[100; 101; -1]; [110; 501; -1]]]%Z.
Proof. vm_compute. reflexivity. Qed.

(** Clocks 0 and 2 of three steps: scenario 1 is done, scenario 0 is not. *)
Example C59_ex_is_done :
  map (cell (b_is_done (ex_batch (mkA [2] (fun i => if nth 0 i 0 =? 0 then 0%Z else 2%Z))))) [[0]; [1]]
  = [false; true] /\
  map (cell (b_remaining (ex_batch (mkA [2] (fun i => if nth 0 i 0 =? 0 then 0%Z else 2%Z))))) [[0]; [1]]
  = [2; 0]%Z.
Proof. split; vm_compute; reflexivity. Qed.

(** A control mask without the batch dimension is refused. *)
Example C59_ex_forward_refuses :
  b_forward (b_elementwise state_update) ex_acts (mkA [2; 2; 3] ex_pt) (mkA [2; 2; 3] ex_pt)
    (mkA [3] (fun _ => true)) (scalar 0%Z) false = Err AssertionError.
Proof. vm_compute. reflexivity. Qed.

(** Clocks 0 and 2: reading works, stepping raises. *)
Example C59_ex_own_clocks :
  b_step (b_elementwise state_update) ex_cfg
    (ex_batch (mkA [2] (fun i => if nth 0 i 0 =? 0 then 0%Z else 2%Z))) ex_acts
  = Err ValueError /\
  rmap (fun x => map (fun b => map (map p_ts) (matrix x b)) [[0]; [1]])
    (b_current_sim (ex_batch (mkA [2] (fun i => if nth 0 i 0 =? 0 then 0%Z else 2%Z))))
  = Ok [[[0]; [10]]; [[102]; [112]]]%Z.
Proof. split; vm_compute; reflexivity. Qed.

Print Assumptions C59_reset.
Print Assumptions C59_reset_succeeds.
Print Assumptions C59_step.
Print Assumptions C59_episode.
Print Assumptions C59_independence.
Print Assumptions C59_shipped_dynamics.
Print Assumptions C59_current_frame.
Print Assumptions C59_update_by_log.
Print Assumptions C59_episode_end.
Print Assumptions C59_is_done.
Print Assumptions C59_forward_refuses.
Print Assumptions C59_own_clocks_cannot_step_refuted.
Print Assumptions C59_own_clocks_value_error.
Print Assumptions C59_loaded_batch_validates.
Print Assumptions C59_reset_batch_invalid_refuted.
