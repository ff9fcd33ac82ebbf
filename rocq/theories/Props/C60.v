(** C60: metrics and rewards of a batch, scenario by scenario.
    [scenario s b] (Spec/BatchSpec.v) is the single scenario at batch index [b];
    [vector m b] the results of its objects.  Every statement compares the batched
    call with the same call on that scenario alone. *)
From Coq Require Import String.
From Coq Require Import List ZArith QArith Bool Lia.
From Verif.Lib Require Import Base JaxIndex Scalar QScalar.
From Verif.Model Require Import Operations State Dynamics BaseEnv Geometry Discretizer
  Comfort Metrics Batch BatchMetrics.
From Verif.Spec Require Import StateSpec BatchSpec.
From Verif.Proofs Require Import Core P_Batch P_BatchMetrics P_BatchSdc P_BatchReward.
Import ListNotations.
Local Open Scope nat_scope.

(** A batched metric [f] gives one result per object and agrees with the metric
    [g] of single scenarios. *)
Definition per_object_of {S : Scalar} (B : list nat) (n : nat) (s : bstate)
  (f : bstate -> res (arr mres)) (g : state -> res (list mres)) : Prop :=
  exists m, f s = Ok m /\ dims m = B ++ [n] /\
    forall b, inside B b -> g (scenario s b) = Ok (vector m b).
(** The same for a metric with one result per scenario. *)
Definition per_scenario_of {S : Scalar} (B : list nat) (s : bstate)
  (f : bstate -> res (arr mres)) (g : state -> res mres) : Prop :=
  exists m, f s = Ok m /\ dims m = B /\
    forall b, inside B b -> g (scenario s b) = Ok (cell m b).

Definition object_metric (name : string) : Prop :=
  In name ["log_divergence"; "overlap"; "offroad"; "kinematic_infeasibility"]%string.

(** The SDC metrics and their functions on a batch and on one scenario. *)
Inductive sdc_metric {S : Scalar} : string -> (bstate -> res (arr mres)) -> (state -> res mres) -> Prop :=
| SdcWrongWay : sdc_metric "sdc_wrongway" b_wrongway wrongway_compute
| SdcProgression : sdc_metric "sdc_progression" b_progression progression_compute
| SdcOffRoute : sdc_metric "sdc_off_route" b_off_route off_route_compute.

Section C60.
  Context {S : Scalar}.

  (** Metrics of the objects of the current step.  Each scenario may have its own
      clock. *)
  Theorem C60_object_metrics B n T s : batch_of B n T s -> 0 < T ->
    per_object_of B n s b_log_divergence log_divergence_compute /\
    per_object_of B n s b_overlap overlap_compute.
  Proof. intros W HT. split; [exact (b_log_divergence_eq B n T s W HT)|exact (b_overlap_eq B n T s W HT)]. Qed.

  Theorem C60_offroad B n T m s : batch_of B n T s -> 0 < T -> has_roadgraph B m s -> 0 < m ->
    per_object_of B n s b_offroad offroad_compute.
  Proof. intros W HT (rg & H & D) Hm. exact (b_offroad_eq B n T m s rg W HT H D Hm). Qed.

  (** Kinematic infeasibility needs the shared clock that reset leaves. *)
  Theorem C60_kinematic B n T k s : batch_of B n T s -> dims (b_t s) = [] -> 2 <= T ->
    per_object_of B n s (b_kim k) (kim_compute k).
  Proof. exact (b_kim_eq B n T k s). Qed.
  Theorem C60_kinematic_own_clocks_refuted k s : dims (b_t s) <> [] -> b_kim k s = Err TypeError.
  Proof. exact (b_kim_own_clock k s). Qed.

  (** Metrics of the SDC. *)
  Theorem C60_sdc_metrics B n T p k s name f g : batch_of B n T s -> 0 < n -> 0 < T ->
    has_paths B p k s -> 0 < p -> 0 < k -> sdc_metric name f g -> per_scenario_of B s f g.
  Proof.
    intros W Hn HT (pts & on & PB) Hp Hk [].
    - exact (b_wrongway_eq B n T p k s pts on W HT PB Hp Hk).
    - exact (b_progression_eq B n T p k s pts on W Hn HT PB Hp Hk).
    - exact (b_off_route_eq B n T p k s pts on W HT PB Hp Hk).
  Qed.

  Lemma object_named B n T m s name : batch_of B n T s -> dims (b_t s) = [] -> 2 <= T ->
    has_roadgraph B m s -> 0 < m -> object_metric name ->
    named_object B n s b_initial_registry initial_registry name.
  Proof.
    intros W Ht HT Hr Hm H. assert (HT' : 0 < T) by lia.
    destruct H as [<-|[<-|[<-|[<-|[]]]]]; eexists; eexists; (split; [reflexivity|]); (split; [reflexivity|]).
    - destruct (proj1 (C60_object_metrics B n T s W HT')) as (x & H1 & H2 & H3).
      exists x. split; [exact H1|]. split; [exact H2|]. intros b I. rewrite H3 by exact I. reflexivity.
    - destruct (proj2 (C60_object_metrics B n T s W HT')) as (x & H1 & H2 & H3).
      exists x. split; [exact H1|]. split; [exact H2|]. intros b I. rewrite H3 by exact I. reflexivity.
    - destruct (C60_offroad B n T m s W HT' Hr Hm) as (x & H1 & H2 & H3).
      exists x. split; [exact H1|]. split; [exact H2|]. intros b I. rewrite H3 by exact I. reflexivity.
    - destruct (C60_kinematic B n T kim_default s W Ht HT) as (x & H1 & H2 & H3).
      exists x. split; [exact H1|]. split; [exact H2|]. intros b I. rewrite H3 by exact I. reflexivity.
  Qed.

  (** A reward made of object metrics, for every batch shape and all weights. *)
  Theorem C60_reward B n T m s rewards mask :
    batch_of B n T s -> dims (b_t s) = [] -> 2 <= T -> has_roadgraph B m s -> 0 < m ->
    (forall r, In r rewards -> object_metric (fst r)) -> dims mask = B ++ [n] ->
    exists r, b_linear_reward b_initial_registry rewards s mask = Ok r /\ dims r = B ++ [n] /\
      forall b, inside B b ->
        linear_reward initial_registry rewards (scenario s b) (vector mask b) = Ok (vector r b).
  Proof.
    intros W Ht HT Hr Hm H Dm. apply b_reward_eq; [|exact Dm]. apply Forall_forall. intros name Hn.
    apply in_map_iff in Hn. destruct Hn as (r & <- & Hi). eapply object_named; eauto.
  Qed.

  Lemma sdc_lookup name f g : sdc_metric name f g ->
    lookup name b_initial_registry = Some f /\
    lookup name initial_registry = Some (fun s => let* m := g s in Ok (Scalar0 m)).
  Proof. intros []; split; reflexivity. Qed.

  (** A reward with an SDC metric is right for a single scenario and for a batch
      of one ... *)
  Theorem C60_sdc_reward_one B n T p k s name f g w mask :
    B = [] \/ B = [1] ->
    batch_of B n T s -> 0 < n -> 0 < T -> has_paths B p k s -> 0 < p -> 0 < k ->
    sdc_metric name f g -> dims mask = B ++ [n] ->
    exists r, b_linear_reward b_initial_registry [(name, w)] s mask = Ok r /\ dims r = B ++ [n] /\
      forall b, inside B b ->
        linear_reward initial_registry [(name, w)] (scenario s b) (vector mask b) = Ok (vector r b).
  Proof.
    intros HB W Hn HT HP Hp Hk HS Dm.
    destruct (C60_sdc_metrics B n T p k s name f g W Hn HT HP Hp Hk HS) as (m & H1 & D1 & C1).
    destruct (sdc_lookup name f g HS) as [L1 L2].
    rewrite (b_reward_single _ s name w f m mask L1 H1).
    assert (D1' : dims (amap masked_value m) = B) by exact D1.
    destruct (amap2_one fmul (amap masked_value m) mask B n HB D1' Dm) as (me & G1 & E1 & K1).
    rewrite G1. cbn [bind].
    assert (Dz : dims (amap (fun _ : F => f0) mask) = B ++ [n]) by exact Dm.
    assert (De : dims (amap (fun x => fmul x w) me) = B ++ [n]) by exact E1.
    destruct (amap2_same fadd _ _ B [n] Dz De) as (r & G2 & E2 & K2).
    exists r. split; [exact G2|]. split; [exact E2|]. intros b I.
    unfold linear_reward, run_metrics. cbn [map fst snd fold_left bind]. rewrite L2.
    rewrite C1 by exact I. cbn [bind dict_set lookup]. rewrite String.eqb_refl. cbn [metric_times_mask bind].
    rewrite (vector_amap2 fadd _ _ r B n b Dz De G2 I), !vector_amap.
    unfold bcast2. rewrite !map_length, Nat.eqb_refl. do 3 f_equal.
    rewrite (vector_eq me B n [] b E1 I), (vector_eq mask B n [] b Dm I), map_tabulate.
    apply tabulate_ext. intros j Hj. rewrite K1 by auto. reflexivity.
  Qed.

  (** ... but not for larger batches: the metric has shape (batch,) and is
      multiplied with a mask of shape (batch, num_objects), so the batch axis of
      the metric meets the object axis of the mask.  In general that is an
      exception ... *)
  Theorem C60_sdc_reward_raises_refuted B0 n T p k s name f g w mask :
    batch_of [B0] n T s -> 0 < n -> 0 < T -> has_paths [B0] p k s -> 0 < p -> 0 < k ->
    sdc_metric name f g -> dims mask = [B0; n] ->
    B0 <> 1 -> n <> 1 -> B0 <> n ->
    b_linear_reward b_initial_registry [(name, w)] s mask = Err TypeError.
  Proof.
    intros W Hn HT HP Hp Hk HS Dm N1 N2 N3.
    destruct (C60_sdc_metrics [B0] n T p k s name f g W Hn HT HP Hp Hk HS) as (m & H1 & D1 & C1).
    destruct (sdc_lookup name f g HS) as [L1 L2].
    rewrite (b_reward_single _ s name w f m mask L1 H1).
    rewrite (amap2_k_kn fmul (amap masked_value m) mask B0 n D1 Dm N1 N2 N3). reflexivity.
  Qed.

  (** ... with as many scenarios as objects it is silently wrong: object [j] of
      scenario [i] is rewarded with the metric of scenario [j] ... *)
  Theorem C60_sdc_reward_crossed_refuted n T p k s name f g w mask :
    batch_of [n] n T s -> 0 < n -> 0 < T -> has_paths [n] p k s -> 0 < p -> 0 < k ->
    sdc_metric name f g -> dims mask = [n; n] ->
    exists r, b_linear_reward b_initial_registry [(name, w)] s mask = Ok r /\ dims r = [n; n] /\
      forall i j, i < n -> j < n ->
        exists v, g (scenario s [j]) = Ok v /\
          cell r [i; j] = fadd f0 (fmul (fmul (masked_value v) (cell mask [i; j])) w).
  Proof.
    intros W Hn HT HP Hp Hk HS Dm.
    destruct (C60_sdc_metrics [n] n T p k s name f g W Hn HT HP Hp Hk HS) as (m & H1 & D1 & C1).
    destruct (sdc_lookup name f g HS) as [L1 L2].
    rewrite (b_reward_single _ s name w f m mask L1 H1).
    destruct (amap2_n_nn fmul (amap masked_value m) mask n D1 Dm) as (me & G1 & E1 & K1).
    rewrite G1. cbn [bind].
    assert (Dz : dims (amap (fun _ : F => f0) mask) = [n] ++ [n]) by exact Dm.
    assert (De : dims (amap (fun x => fmul x w) me) = [n] ++ [n]) by exact E1.
    destruct (amap2_same fadd _ _ [n] [n] Dz De) as (r & G2 & E2 & K2).
    exists r. split; [exact G2|]. split; [exact E2|]. intros i j Hi Hj.
    exists (cell m [j]). split; [apply C1; now apply inside1|].
    specialize (K2 [i] [j] (proj2 (inside1 n i) Hi) (proj2 (inside1 n j) Hj)). cbn [app] in K2. rewrite K2.
    cbn [amap cell]. rewrite K1 by auto. reflexivity.
  Qed.

  (** ... and with one object per scenario it has the wrong shape. *)
  Theorem C60_sdc_reward_shape_refuted B0 T p k s name f g w mask :
    batch_of [B0] 1 T s -> 0 < T -> has_paths [B0] p k s -> 0 < p -> 0 < k ->
    sdc_metric name f g -> dims mask = [B0; 1] ->
    exists r, b_linear_reward b_initial_registry [(name, w)] s mask = Ok r /\ dims r = [B0; B0].
  Proof.
    intros W HT HP Hp Hk HS Dm.
    destruct (C60_sdc_metrics [B0] 1 T p k s name f g W Nat.lt_0_1 HT HP Hp Hk HS) as (m & H1 & D1 & C1).
    destruct (sdc_lookup name f g HS) as [L1 L2].
    rewrite (b_reward_single _ s name w f m mask L1 H1).
    destruct (amap2_k_k1 fmul (amap masked_value m) mask B0 D1 Dm) as (me & G1 & E1).
    rewrite G1. cbn [bind].
    destruct (amap2_k1_kk fadd (amap (fun _ : F => f0) mask) (amap (fun x => fmul x w) me) B0 Dm E1) as (r & G2 & E2).
    exists r. auto.
  Qed.
End C60.

(** [k] scenarios of [n] objects and three steps; the simulated objects of
    scenario [b] are [b + 1] meters ahead of the log, the SDC is object 0 and the
    only path lies near the origin, 100 [b] meters away from scenario [b]. *)
Definition ex_num (z : Z) : @F QS := inject_Z z.
Definition ex_pt (ahead : bool) (idx : list nat) : @pt QS :=
  let k := Z.of_nat (100 * nth 0 idx 0 + 10 * nth 1 idx 0 + nth 2 idx 0
                     + if ahead then nth 0 idx 0 + 1 else 0) in
  mkpt (ex_num k) (ex_num 0) (ex_num 0) (ex_num 1) (ex_num 0) (ex_num 0) true k
    (ex_num 4) (ex_num 2) (ex_num 1).
Definition ex_meta (idx : list nat) : meta :=
  let sdc := (nth 1 idx 0 =? 0) in mkmeta 1 1 sdc true true false sdc.
Definition ex_batch (k n : nat) (t : arr Z) : bstate (S := QS) :=
  mkbs (mkA [k; n; 3] (ex_pt true)) (mkA [k; n; 3] (ex_pt false))
    (mkA [k; 0; 3] (fun _ => mktl (ex_num 0) (ex_num 0) (ex_num 0) 0 0 false))
    (mkA [k; n] ex_meta) t
    (Some (mkA [k; 1; 2] (fun i => mkpp (ex_num (Z.of_nat (5 * nth 2 i 0))) (ex_num 0) (ex_num 0) 0 true
                                     (ex_num (Z.of_nat (5 * nth 2 i 0)))),
           mkA [k; 1] (fun _ => true)))
    (Some (mkA [k; 2] (fun i => mkrg (ex_num 0) (ex_num 3) (ex_num 0) (ex_num 1) (ex_num 0) (ex_num 0)
                                  15 (Z.of_nat (nth 1 i 0)) true))).
Definition ex_mask (k n : nat) : arr (@F QS) := mkA [k; n] (fun _ => ex_num 1).

Example C60_ex_hypotheses :
  batch_of [2] 3 3 (ex_batch 2 3 (scalar 1%Z)) /\ has_paths [2] 1 2 (ex_batch 2 3 (scalar 1%Z)) /\
  has_roadgraph [2] 2 (ex_batch 2 3 (scalar 1%Z)) /\ dims (ex_mask 2 3) = [2] ++ [3] /\ inside [2] [1] /\
  object_metric "log_divergence" /\ batch_of [2] 2 3 (ex_batch 2 2 (mkA [2] (fun _ => 1%Z))).
Proof.
  split; [repeat split; now left|]. split; [eexists; eexists; repeat split|].
  split; [eexists; repeat split|]. split; [reflexivity|]. split; [constructor; [lia|constructor]|].
  split; [now left|]. repeat split. now right.
Qed.

Definition ex_show (r : res (arr (@F QS))) : option (list nat * list (list (list Z))) :=
  match r with
  | Ok x => Some (dims x, map (fun b => [map Qnum (vector x b)]) [[0]; [1]])
  | Err _ => None
  end.

(** Each scenario is charged its own divergence. *)
Example C60_ex_reward :
  ex_show (b_linear_reward b_initial_registry [("log_divergence"%string, ex_num (-1))]
             (ex_batch 2 3 (scalar 1%Z)) (ex_mask 2 3))
  = Some ([2; 3], [[[-1; -1; -1]]; [[-2; -2; -2]]]%Z).
Proof. vm_compute. reflexivity. Qed.

(** The wrong-way distances are 0 and 98 ... *)
Example C60_ex_wrongway :
  rmap (fun m : arr (mres (S := QS)) => (dims m, map (fun b => Qnum (mr_value (cell m b))) [[0]; [1]]))
    (b_wrongway (ex_batch 2 2 (scalar 1%Z)))
  = Ok ([2], [0; 98]%Z).
Proof. vm_compute. reflexivity. Qed.

(** ... so object 0 of either scenario should get 0 or 98 according to its
    scenario, but two scenarios of two objects get them by object; two scenarios of
    three objects raise; two scenarios of one object give a 2 x 2 reward. *)
Example C60_ex_crossed :
  ex_show (b_linear_reward b_initial_registry [("sdc_wrongway"%string, ex_num 1)]
             (ex_batch 2 2 (scalar 1%Z)) (ex_mask 2 2))
  = Some ([2; 2], [[[0; 98]]; [[0; 98]]]%Z) /\
  b_linear_reward b_initial_registry [("sdc_wrongway"%string, ex_num 1)]
    (ex_batch 2 3 (scalar 1%Z)) (ex_mask 2 3) = Err TypeError /\
  rmap dims (b_linear_reward b_initial_registry [("sdc_wrongway"%string, ex_num 1)]
    (ex_batch 2 1 (scalar 1%Z)) (ex_mask 2 1)) = Ok [2; 2].
Proof. split; [|split]; vm_compute; reflexivity. Qed.

Print Assumptions C60_object_metrics.
Print Assumptions C60_offroad.
Print Assumptions C60_kinematic.
Print Assumptions C60_kinematic_own_clocks_refuted.
Print Assumptions C60_sdc_metrics.
Print Assumptions C60_reward.
Print Assumptions C60_sdc_reward_one.
Print Assumptions C60_sdc_reward_raises_refuted.
Print Assumptions C60_sdc_reward_crossed_refuted.
Print Assumptions C60_sdc_reward_shape_refuted.
