(** Proofs for C27: totality and the map without road edges. *)
From Coq Require Import Reals ZArith List Lia Lra Bool.
From Verif.Lib Require Import Base JaxIndex Scalar XR.
From Verif.Model Require Import Operations State Dynamics Geometry Discretizer Comfort Metrics.
From Verif.Spec Require Import StateSpec GeomSpec DiscSpec MetricSpec.
From Verif.Proofs Require Import Core P_Pose P_DiscWrap P_Metrics.
Import ListNotations.

Lemma offroad_total {S : Scalar} n T s rg : wf_state n T s -> s_rg s = Some rg ->
  (rg <> [] -> exists ms, offroad_compute s = Ok ms /\ length ms = n) /\
  (rg = [] -> exists e, offroad_compute s = Err e).
Proof.
  intros (R & RL & LM & Hn & HT) Hrg. unfold offroad_compute.
  destruct (dynamic_index_total n T (s_sim s) (s_t s) R HT) as [cur Hc]. rewrite Hc, Hrg. cbn [bind].
  destruct (dynamic_index_Ok n T _ _ _ R Hc) as [L _]. split; intros H.
  - destruct (mapM_total (fun p => let* b := is_offroad1 rg p in Ok (mkmres (fbool b) true)) cur) as [ms E].
    { intros p _. unfold is_offroad1.
      destruct (mapM_total (fun c => signed_distance rg (fst c, snd c, fmul f1 (p_z p))) (bbox_corners p)) as [ds E].
      - intros c _. now apply signed_distance_total.
      - rewrite E. cbn [bind]. eauto. }
    exists ms. split; [exact E|]. now rewrite (mapM_length _ _ _ E).
  - subst rg. destruct cur as [|p cur]; [simpl in L; lia|]. eexists. reflexivity.
Qed.

Open Scope R_scope.

(** One lane centre point (type 2) at the origin, direction +y; a car to its right. *)
Definition lane : redge := mkre (0, 0, 0) (0, 1, 0) 2 4 true.
Definition lane_pt : pt (S := XR) :=
  mkpt (S := XR) (Fin 10) (Fin 0) (Fin 0) (Fin 0) (Fin 0) (Fin 0) true 0%Z (Fin 4) (Fin 2) (Fin 1).
Definition lane_state : state (S := XR) :=
  mkstate [[lane_pt]] [[lane_pt]] [] [mkmeta 1 1 true true true false false] 0 None (Some (map fedge [lane])).

Lemma lane_signed x y z : 0 < x -> exists d, signed_distance (S := XR) (map fedge [lane]) (Fin x, Fin y, Fin z) = Ok d /\ fltb (Scalar := XR) f0 d = true.
Proof.
  intros H. eexists. split; [reflexivity|].
  cbn [map argmin argmin_from nth Nat.sub fedge lane re_p re_d re_type re_id re_valid rg_x rg_y rg_dx rg_dy rg_id].
  unfold cross2. cbn [fst snd Z.eqb Pos.eqb andb]. autorewrite with xr.
  assert (Rltb ((x - 0) * 1 - (y - 0) * 0) ((x - 0) * 1 - (y - 0) * 0) = false) as -> by (apply Rltb_false; lra).
  rewrite norm2_Fin, <- f0_Fin. apply fsign_pos; [apply sqrt_pos| |lra].
  intros _. apply sqrt_lt_R0. nra.
Qed.

Lemma offroad_no_edge : exists (s : state (S := XR)) es ms m,
  wf_state 1 1 s /\ s_rg s = Some (map fedge es) /\ (forall e, In e es -> ~ is_edge e) /\
  offroad_compute s = Ok ms /\ nth_error ms 0 = Some m /\ mr_value m = Fin 1.
Proof.
  assert (W : wf_state 1 1 lane_state).
  { split; [split; [reflexivity | intros r [<-|[]]; reflexivity]|].
    split; [split; [reflexivity | intros r [<-|[]]; reflexivity]|].
    repeat split; auto with arith. }
  destruct (offroad_total 1 1 lane_state (map fedge [lane]) W eq_refl) as [A _].
  destruct (A ltac:(discriminate)) as (ms & E & L). destruct ms as [|m [|]]; try discriminate.
  exists lane_state, [lane], [m], m. split; [exact W|]. split; [reflexivity|].
  split; [intros e [<-|[]] [_ [K|K]]; discriminate|]. split; [exact E|]. split; [reflexivity|].
  unfold offroad_compute in E. apply bind_Ok in E as (cur & Hc & E). apply Ok_inj in Hc. subst cur.
  cbn [s_rg lane_state] in E.
  destruct (mapM_nth _ _ _ 0%nat lane_pt E eq_refl) as (m' & Hm & Hn'). injection Hn' as <-.
  apply bind_Ok in Hm as (o & Ho & Hm). apply Ok_inj in Hm. subst m. cbn [mr_value].
  unfold is_offroad1 in Ho. apply bind_Ok in Ho as (ds & Hds & Ho). apply Ok_inj in Ho.
  unfold bbox_corners in Hds.
  assert (Hb : pt_box lane_pt = fbox (mkrbox 10 0 4 2 0)) by reflexivity.
  rewrite Hb, corners_Fin in Hds. cbn [map rlen rwid] in Hds.
  destruct (mapM_nth _ _ _ 0%nat _ Hds eq_refl) as (d & Hd & Hk).
  assert (E1 : fmul (Scalar := XR) f1 (p_z lane_pt) = Fin 0) by (cbn [p_z lane_pt]; rewrite f1_Fin, fmul_Fin; f_equal; ring).
  rewrite E1 in Hd.
  set (c := rpoint (mkrbox 10 0 4 2 0) (4 / 2) (- (2 / 2))) in Hd.
  assert (Hc' : 0 < fst c) by (unfold c, rpoint; cbn [rx ry ryaw fst]; rewrite cos_0, sin_0; lra).
  destruct c as [cx cy]. cbn [finv fst snd] in Hd, Hc'.
  destruct (lane_signed cx cy 0 Hc') as (d' & Hd' & Pd).
  pose proof (Ok_inj _ _ (eq_trans (eq_sym Hd') Hd)). subst d'.
  assert (o = true) as ->.
  { rewrite <- Ho. apply existsb_exists. exists d. split; [eapply nth_error_In; eauto|exact Pd]. }
  unfold fbool. apply f1_Fin.
Qed.
