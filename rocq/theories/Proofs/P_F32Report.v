(** Collision and log divergence reports in float32. *)
From Coq Require Import List ZArith Reals Lra Lia Bool.
From Flocq Require Import IEEE754.BinarySingleNaN.
From Verif.Lib Require Import Base JaxIndex Scalar XR F32.
From Verif.Model Require Import Operations State Dynamics BaseEnv Dyn_State Expert Geometry Comfort Metrics Discretizer.
From Verif.Spec Require Import StateSpec GeomSpec DynSpec MetricSpec F32Spec F32EpisodeSpec F32GeomSpec.
From Verif.Proofs Require Import Core Episode P_Actions P_Metrics P_Expert P_F32 P_F32Wrap P_F32Bicycle P_F32Overlap.
Import ListNotations.
Open Scope R_scope.

Lemma overlap_sym_any {S : Scalar} (a b : box) : has_overlap a b = has_overlap b a.
Proof. unfold has_overlap. apply andb_comm. Qed.

Lemma overlap_report32 lm P n T (s : state (S := F32 lm)) t ms j p (bx : nat -> rbox) :
  accurate32 lm -> 1 <= P <= 2 ^ 60 ->
  wf_state n T s -> s_t s = Z.of_nat t -> (t < T)%nat -> overlap_compute s = Ok ms ->
  (forall i q, at2 (s_sim s) i t = Some q -> box32 P (pt_box q) (bx i)) ->
  at2 (s_sim s) j t = Some p ->
  exists v, nth_error ms j = Some (mkmres v (p_valid p)) /\ (fin v 0 \/ fin v 1) /\
    (fin v 1 -> exists i, i <> j /\ sim_valid s i t /\ share (grown (P / 2 ^ 20) (bx i)) (grown (P / 2 ^ 20) (bx j))) /\
    (forall i, i <> j -> sim_valid s i t -> wide (2 * (P / 2 ^ 20)) (bx i) -> wide (2 * (P / 2 ^ 20)) (bx j) ->
       share (grown (- (P / 2 ^ 20)) (bx i)) (grown (- (P / 2 ^ 20)) (bx j)) -> fin v 1).
Proof.
  intros AC HP W Ht HT H HB Hp.
  destruct (overlap_metric n T s t ms j p W Ht HT H Hp) as (_ & b & E1 & E2).
  exists (fbool (S := F32 lm) b). split; [exact E1|].
  assert (F1 : fin (f1 (S := F32 lm)) 1) by exact (ofZ_fin 1 ltac:(simpl; lia)).
  assert (F0 : fin (f0 (S := F32 lm)) 0) by exact (ofZ_fin 0 ltac:(simpl; lia)).
  split; [destruct b; [right; exact F1 | left; exact F0]|].
  split.
  - intros Fv. assert (B : b = true).
    { destruct b; [reflexivity|]. pose proof (fin_fun _ _ _ Fv F0). lra. }
    apply E2 in B as (i & q & Hij & Hq & Vq & Ho). exists i. split; [exact Hij|]. split; [exists q; auto|].
    exact (proj1 (overlap_test32 lm AC P HP _ _ _ _ (HB _ _ Hq) (HB _ _ Hp)) Ho).
  - intros i Hij (q & Hq & Vq) (W1 & W2) (W3 & W4) Sh.
    assert (B : b = true).
    { apply E2. exists i, q. split; [exact Hij|]. split; [exact Hq|]. split; [exact Vq|].
      exact (proj2 (overlap_test32 lm AC P HP _ _ _ _ (HB _ _ Hq) (HB _ _ Hp)) W1 W2 W3 W4 Sh). }
    rewrite B. exact F1.
Qed.

Lemma log_divergence_value {S : Scalar} n T s t ms j p l :
  wf_state n T s -> s_t s = Z.of_nat t -> (t < T)%nat -> log_divergence_compute s = Ok ms ->
  at2 (s_sim s) j t = Some p -> at2 (s_log s) j t = Some l ->
  nth_error ms j = Some (mkmres (log_divergence p l) (p_valid p && p_valid l)).
Proof.
  intros (R & RL & _ & Hn & _) Ht HT H Hp Hl.
  unfold log_divergence_compute in H. rewrite Ht in H.
  apply bind_Ok in H as (cur & Hc & H). apply bind_Ok in H as (log & Hlg & H). apply Ok_inj in H. subst ms.
  destruct (dynamic_index_at n T _ _ _ R HT Hc) as [L A].
  destruct (dynamic_index_at n T _ _ _ RL HT Hlg) as [L' A'].
  destruct (at2_Some_lt _ _ _ _ _ _ R Hp) as [Hj _].
  rewrite nth_error_map2, A, A', Hp, Hl by auto. reflexivity.
Qed.

Lemma divergence_report32 lm n T (s : state (S := F32 lm)) t ms j p l x y x' y' B :
  wf_state n T s -> s_t s = Z.of_nat t -> (t < T)%nat -> log_divergence_compute s = Ok ms ->
  at2 (s_sim s) j t = Some p -> at2 (s_log s) j t = Some l ->
  fin (p_x p) x -> fin (p_y p) y -> fin (p_x l) x' -> fin (p_y l) y' -> 1 <= B <= 2 ^ 40 -> GeomSpec.dist (x, y) (x', y') <= B ->
  exists v d, nth_error ms j = Some (mkmres v (p_valid p && p_valid l)) /\ fin v d /\ 0 <= d /\
    Rabs (d - GeomSpec.dist (x, y) (x', y')) <= B / 2 ^ 21.
Proof.
  intros W Ht HT H Hp Hl X Y X' Y' HB HD.
  destruct (divergence32 lm p l x y x' y' B X Y X' Y' HB HD) as (d & Fd & D0 & De).
  exists (log_divergence p l), d. split; [exact (log_divergence_value n T s t ms j p l W Ht HT H Hp Hl)|]. auto.
Qed.

Lemma divergence_same lm (p l : pt (S := F32 lm)) x y :
  p_x p = p_x l -> p_y p = p_y l -> fin (p_x l) x -> fin (p_y l) y -> fin (log_divergence p l) 0.
Proof.
  intros E1 E2 X Y. unfold log_divergence, norm2. rewrite E1, E2.
  assert (N : Rabs 0 <= b32 127) by (rewrite Rabs_R0; apply Raux.bpow_ge_0).
  assert (D : forall (a : f32) r, fin a r -> fin (Bminus mode_NE a a) 0).
  { intros a r Fa. pose proof (sub_fin _ _ _ _ Fa Fa) as Q. rewrite Rminus_eq_0, rnd_0 in Q. exact (Q N). }
  pose proof (D _ _ X) as DX. pose proof (D _ _ Y) as DY.
  pose proof (mul_fin _ _ _ _ DX DX) as MX. rewrite Rmult_0_l, rnd_0 in MX. specialize (MX N).
  pose proof (mul_fin _ _ _ _ DY DY) as MY. rewrite Rmult_0_l, rnd_0 in MY. specialize (MY N).
  pose proof (add_fin _ _ _ _ MX MY) as A. rewrite Rplus_0_l, rnd_0 in A. specialize (A N).
  pose proof (sqrt_fin _ _ A (Rle_refl 0)) as Q. rewrite sqrt_0, rnd_0 in Q. exact Q.
Qed.

Lemma expert_divergence32 lm n T c (s s' : state (S := F32 lm)) k i :
  wf_scenario n T s -> run_policy StateDynamics c (infer_expert_action StateDynamics) s k = Ok s' ->
  (1 <= c_init_steps c)%nat -> (c_init_steps c + k <= T)%nat -> (i < n)%nat ->
  (exists l x y, at2 (s_log s) i (c_init_steps c + k - 1) = Some l /\ fin (p_x l) x /\ fin (p_y l) y) ->
  exists ms v b, log_divergence_compute s' = Ok ms /\ nth_error ms i = Some (mkmres v b) /\ fin v 0.
Proof.
  intros W H HI HL Hi (l & x & y & Hl & Fx & Fy).
  destruct (run_policy_episode _ _ _ _ _ _ H) as (acts & La & HE).
  destruct (episode_basic _ _ _ _ _ _ _ W HE ltac:(lia)) as (Wf & SS & _ & Ck & _).
  destruct (expert_replay n T c s k s' i (c_init_steps c + k - 1) W H HI HL Hi ltac:(lia))
    as (p & l' & Hp & Hl' & (E1 & E2 & _) & _).
  rewrite Hl in Hl'. assert (l = l') as <- by congruence.
  destruct (log_divergence_total n T s' Wf) as [ms Hms].
  assert (Hlog : s_log s' = s_log s) by (apply SS). rewrite <- Hlog in Hl.
  exists ms, (log_divergence p l), (p_valid p && p_valid l). split; [exact Hms|]. split.
  - apply (log_divergence_value n T s' (c_init_steps c + k - 1)); auto; [|lia]. rewrite Ck, La. lia.
  - exact (divergence_same lm p l x y E1 E2 Fx Fy).
Qed.
