(** C20: the discrete action-space wrapper agrees with the wrapped dynamics. *)
From Coq Require Import List ZArith Reals Lra Lia Bool.
From Verif.Lib Require Import Base JaxIndex Scalar XR.
From Verif.Model Require Import Operations State Dynamics BaseEnv Dyn_State Dyn_Delta Discretizer.
From Verif.Spec Require Import StateSpec GeomSpec DynSpec DiscSpec.
From Verif.Proofs Require Import Core P_Discretizer P_DiscWrap P_Delta P_Actions.
From Verif.Props Require Import ExR.
Import ListNotations.
Open Scope R_scope.

(** An environment step with discrete actions is the step of the wrapped dynamics
    with the decoded actions ([kvs]: index and validity flag per object). *)
Theorem C20_step_is_decoded_step w c s kvs (acts : list (act (S := XR))) :
  Forall2 (fun kv a => make_continuous (dw_disc w) (fst kv) = Ok (a_data a) /\ a_valid a = snd kv)
    kvs acts ->
  env_step (DiscreteActionSpaceWrapper w) c s
    (map (fun kv => mkact (S := XR) [Fin (IZR (fst kv))] (snd kv)) kvs)
  = env_step (dw_cont w) c s acts.
Proof. exact (wrapper_step w c s kvs acts). Qed.

(** The advertised action range [lo, hi] of the wrapper is the legal one: exactly
    the [num_actions] indices are in it, each of them decodes to a continuous action
    that encodes back to it, and every encoding falls into it. *)
Theorem C20_action_spec d mins maxs bins bi w : disc_bounds mins maxs bins ->
  make_wrapper (S := XR) d (map Fin mins, map Fin maxs) bins bi = Ok w ->
  let lo := fst (dw_spec w) in let hi := snd (dw_spec w) in
  (hi - lo + 1 = num_actions bins)%Z /\
  (forall k, (lo <= k <= hi)%Z -> exists r, make_continuous (dw_disc w) k = Ok r /\
     length r = length mins /\ discretize (dw_disc w) r = Ok k) /\
  (forall vs k, discretize (dw_disc w) vs = Ok k -> (lo <= k <= hi)%Z).
Proof. exact (wrapper_spec d mins maxs bins bi w). Qed.

(** In both inverse modes, for every number type and every trajectory, the inverse
    is a legal index for every object, valid or not. *)
Theorem C20_inverse_legal {S : Scalar} d spec bins bi w tr ms t acts :
  make_wrapper d spec bins bi = Ok w -> Forall (fun b => (0 <= b)%Z) bins ->
  dw_inverse w tr ms t = Ok acts ->
  Forall (fun a => exists k, a_data a = [fofZ k] /\ (0 <= k <= num_actions bins - 1)%Z) acts.
Proof. exact (wrapper_inverse_legal d spec bins bi w tr ms t acts). Qed.

(** The search never fails when every candidate action can be applied. *)
Theorem C20_search_total {S : Scalar} d spec bins w n T (tr : traj) ms t (ok : act -> Prop) :
  make_wrapper d spec bins false = Ok w -> dyn_total d ok ->
  (forall r v, In r (dw_all_cont w) -> ok (mkact r v)) ->
  rect n T tr -> (t + 1 < T)%nat -> length ms = n ->
  exists acts, dw_inverse w tr ms (Z.of_nat t) = Ok acts.
Proof. exact (search_total d spec bins w n T tr ms t ok). Qed.

(** The search is optimal: with [b j] the rectangle of the object after simulating
    discrete action [j] for one step, the answer [k] minimises the corner error to
    the logged rectangle over the whole action space and is the smallest such. *)
Theorem C20_search_optimal d spec bins w n T tr ms t acts i x (b : Z -> rbox) l bl :
  make_wrapper (S := XR) d spec bins false = Ok w -> Forall (fun b => (0 <= b)%Z) bins ->
  rect n T tr -> (t + 1 < T)%nat -> length ms = n -> (i < n)%nat ->
  at2 tr i (t + 1) = Some l -> has_box l bl ->
  (forall j r sim q, (0 <= j < num_actions bins)%Z -> make_continuous (dw_disc w) j = Ok r ->
     forward d (map (fun row => mkact r (valid_pair t row)) tr) tr tr
       (map m_is_sdc ms) (Z.of_nat t) false = Ok sim ->
     at2 sim i (t + 1) = Some q -> has_box q (b j)) ->
  dw_inverse w tr ms (Z.of_nat t) = Ok acts ->
  nth_error acts i = Some (mkact [x] true) ->
  exists k, x = Fin (IZR k) /\ (0 <= k < num_actions bins)%Z /\
    forall j, (0 <= j < num_actions bins)%Z ->
      corner_err (b k) bl <= corner_err (b j) bl /\
      ((j < k)%Z -> corner_err (b k) bl < corner_err (b j) bl).
Proof. exact (search_optimal d spec bins w n T tr ms t acts i x b l bl). Qed.

(** The same with the candidates spelled out for DeltaGlobal and the SDC: the
    rectangle shifted and turned by the decoded (dx, dy, dyaw). *)
Theorem C20_search_optimal_delta dt mx my myaw bins w n T tr ms t acts i m x p0 l b0 bl :
  dt <> 0 -> 0 < mx -> 0 < my -> 0 < myaw ->
  length bins = 3%nat -> Forall (fun b => (1 <= b)%Z) bins ->
  make_wrapper (DeltaGlobal (dparams dt mx my myaw)) (delta_spec (dparams dt mx my myaw)) bins false = Ok w ->
  rect n T tr -> (t + 1 < T)%nat -> length ms = n ->
  nth_error ms i = Some m -> m_is_sdc m = true ->
  at2 tr i t = Some p0 -> has_box p0 b0 -> at2 tr i (t + 1) = Some l -> has_box l bl ->
  dw_inverse w tr ms (Z.of_nat t) = Ok acts ->
  nth_error acts i = Some (mkact [x] true) ->
  exists k r, x = Fin (IZR k) /\ (0 <= k < num_actions bins)%Z /\ make_continuous (dw_disc w) k = Ok r /\
    forall j r', (0 <= j < num_actions bins)%Z -> make_continuous (dw_disc w) j = Ok r' ->
      corner_err (moved_box b0 r) bl <= corner_err (moved_box b0 r') bl /\
      ((j < k)%Z -> corner_err (moved_box b0 r) bl < corner_err (moved_box b0 r') bl).
Proof. exact (search_delta_optimal dt mx my myaw bins w n T tr ms t acts i m x p0 l b0 bl). Qed.

(** Objects not valid at both steps are flagged invalid and carry the code of the
    all-zeros action. *)
Theorem C20_search_invalid_default d spec bins w n T tr ms t acts i a :
  make_wrapper (S := XR) d spec bins false = Ok w ->
  rect n T tr -> (t + 1 < T)%nat -> length ms = n ->
  dw_inverse w tr ms (Z.of_nat t) = Ok acts ->
  nth_error acts i = Some a ->
  exists row k, nth_error tr i = Some row /\ a_valid a = valid_pair t row /\
    discretize (dw_disc w) (repeat (Fin 0) (length (fst spec))) = Ok k /\
    (a_valid a = false -> a_data a = [Fin (IZR k)]).
Proof. exact (search_invalid d spec bins w n T tr ms t acts i a). Qed.

(** Optimality is about the SDC only.  The search simulates the candidates with
    only the SDC controlled, so any other object gets index 0 whatever its log
    says: the per-object reading of the doc string is false. *)
Theorem C20_search_non_sdc_gets_zero d spec bins w n T tr ms t acts i m x :
  make_wrapper (S := XR) d spec bins false = Ok w ->
  rect n T tr -> (t + 1 < T)%nat -> length ms = n ->
  nth_error ms i = Some m -> m_is_sdc m = false ->
  dw_inverse w tr ms (Z.of_nat t) = Ok acts ->
  nth_error acts i = Some (mkact [x] true) -> x = Fin (IZR 0).
Proof. exact (search_non_sdc d spec bins w n T tr ms t acts i m x). Qed.

(** The hypotheses hold: DeltaGlobal with 2 bins per axis on the log of ExR. *)
Example C20_example :
  exists w acts x,
    make_wrapper (DeltaGlobal (dparams 1 1 1 1)) (delta_spec (dparams 1 1 1 1)) [2; 2; 2]%Z false = Ok w /\
    rect 1 3 rlog /\ has_box (rpt 0 10) (mkrbox 0 0 4 2 0) /\
    dw_inverse w rlog (s_meta rscn) (Z.of_nat 0) = Ok acts /\
    nth_error acts 0 = Some (mkact [x] true).
Proof.
  assert (DB : disc_bounds [- (1); - (1); - (1)] [1; 1; 1] [2; 2; 2]%Z).
  { split; [reflexivity|]. split; [reflexivity|]. split.
    - intros [|[|[|j]]] lo hi H1 H2; simpl in *; try (injection H1 as <-; injection H2 as <-; lra).
      destruct j; discriminate.
    - intros [|[|[|j]]] b H; simpl in *; try (injection H as <-; lia). destruct j; discriminate. }
  destruct (wrapper_total (DeltaGlobal (dparams 1 1 1 1)) _ _ _ false DB) as [w HW].
  assert (HR : rect 1 3 rlog) by (apply rscn_wf).
  destruct (search_total _ _ _ _ 1%nat 3%nat rlog (s_meta rscn) 0
              (fun a => length (a_data a) = 3%nat) HW) as [acts HA]; auto.
  - apply delta_global_total.
  - intros r v Hr. destruct (make_wrapper_Ok _ _ _ _ _ HW) as (_ & HD & _ & _ & _ & HM & _).
    apply In_nth_error in Hr as (j & Hj).
    pose proof (nth_error_Some_lt _ _ _ Hj) as Lj. rewrite (mapM_length _ _ _ HM) in Lj.
    destruct (nth_error_lt_Some (seq 0 (Z.to_nat (num_actions [2; 2; 2]%Z))) j Lj) as [k Hk].
    destruct (mapM_nth _ _ _ _ _ HM Hk) as (r' & Hr' & Hn). rewrite Hj in Hn. injection Hn as <-.
    destruct (decode_Fin _ _ _ _ (Z.of_nat k) DB HD) as (lr & Hlr & Llr). rewrite Hr' in Hlr.
    injection Hlr as ->. simpl. now rewrite map_length.
  - exists w, acts. 
    destruct (make_wrapper_Ok _ _ _ _ _ HW) as (E1 & _ & _ & E4 & _).
    pose proof HA as HI. unfold dw_inverse in HI. rewrite E4, E1 in HI.
    destruct (search_Ok 1 3 rlog (s_meta rscn) 0%nat _ _ _ _ HR ltac:(lia) eq_refl HI) as [_ HS].
    destruct (HS 0%nat ltac:(lia)) as (row & v & k & l & Hrow & Hv & _ & Ha & _).
    injection Hrow as <-. simpl in Hv. subst v.
    eexists. split; [exact HW|]. split; [exact HR|]. split; [repeat split|]. split; [exact HA|exact Ha].
Qed.

Print Assumptions C20_step_is_decoded_step.
Print Assumptions C20_action_spec.
Print Assumptions C20_inverse_legal.
Print Assumptions C20_search_total.
Print Assumptions C20_search_optimal.
Print Assumptions C20_search_optimal_delta.
Print Assumptions C20_search_invalid_default.
Print Assumptions C20_search_non_sdc_gets_zero.
