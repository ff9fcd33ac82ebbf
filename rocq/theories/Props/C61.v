(** C61: what a rendered scene shows.  A picture is the list of marks that are drawn
    and the axis limits; which marks a scene should have is [shows_scene]
    (Spec/VizSpec.v). *)
From Coq Require Import String.
From Coq Require Import List ZArith QArith Bool Lia Reals Lra.
From Verif.Lib Require Import Base JaxIndex Scalar XR QScalar.
From Verif.Model Require Import Operations State Geometry Discretizer Comfort Metrics Pose
  Observation Batch BatchMetrics Viz.
From Verif.Spec Require Import StateSpec BatchSpec GeomSpec VizSpec.
From Verif.Proofs Require Import Core P_Batch P_Viz P_Metrics.
Import ListNotations.
Local Open Scope nat_scope.

Section C61.
  Context {S : Scalar}.

  (** The marks of a trajectory are exactly those its entries call for: nothing is
      missing and nothing else is drawn. *)
  Theorem C61_trajectory n T (tr : traj) ctl now ids :
    rect n T tr -> 0 < n -> length ctl = n -> now < T ->
    exists ms, plot_trajectory tr ctl (Some (Z.of_nat now)) ids = Ok ms /\
      forall m, In m ms <-> shows tr ctl ids now m.
  Proof.
    intros R Hn Lc Ht. refine (proj2 (plot_trajectory_eq n T tr ctl _ ids now R Hn Lc _)).
    unfold step_of. destruct (Z.eqb_spec (Z.of_nat now) (-1)); [lia|].
    rewrite (proj2 (Z.leb_le 0 _)), (proj2 (Z.ltb_lt _ _)) by lia. cbn [andb]. now rewrite Nat2Z.id.
  Qed.

  (** Invalid entries leave no trace: two trajectories that agree on which entries
      are valid and on the valid ones give the same marks. *)
  Theorem C61_invalid_hidden n T (tr tr' : traj) ctl now ids ms ms' :
    rect n T tr -> rect n T tr' -> 0 < n -> length ctl = n -> now < T ->
    (forall i t p q, at2 tr i t = Some p -> at2 tr' i t = Some q ->
       p_valid p = p_valid q /\ (p_valid p = true -> p = q)) ->
    plot_trajectory tr ctl (Some (Z.of_nat now)) ids = Ok ms ->
    plot_trajectory tr' ctl (Some (Z.of_nat now)) ids = Ok ms' ->
    forall m, In m ms <-> In m ms'.
  Proof.
    intros R R' Hn Lc Ht A E E' m.
    destruct (C61_trajectory n T tr ctl now ids R Hn Lc Ht) as (x & X & HX).
    destruct (C61_trajectory n T tr' ctl now ids R' Hn Lc Ht) as (y & Y & HY).
    rewrite E in X. rewrite E' in Y. injection X as ->. injection Y as ->. rewrite HX, HY.
    assert (G : forall a b : traj, rect n T a -> rect n T b ->
      (forall i t p q, at2 a i t = Some p -> at2 b i t = Some q ->
       p_valid p = p_valid q /\ (p_valid p = true -> p = q)) -> shows a ctl ids now m -> shows b ctl ids now m).
    { clear. intros a b Ra Rb A.
      assert (K : forall i t p, at2 a i t = Some p -> p_valid p = true -> at2 b i t = Some p).
      { intros i t p H V. destruct (at2_Some_lt n T a i t p Ra H) as [Hi Ht].
        destruct (rect_at2 n T b i t Rb Hi Ht) as [q Hq].
        destruct (A i t p q H Hq) as [_ Eq]. rewrite (Eq V). exact Hq. }
      intros [i t p H V Ht|i p c m' H V Ec D|i t p c m' H V Ht Ec D|i j p q m' H1 H2 H3 H4 H5 H6 D|i p X H V].
      - exact (ShowsPast b ctl ids now i t p (K _ _ _ H V) V Ht).
      - exact (ShowsPresent b ctl ids now i p c m' (K _ _ _ H V) V Ec D).
      - exact (ShowsFuture b ctl ids now i t p c m' (K _ _ _ H V) V Ht Ec D).
      - exact (ShowsCollision b ctl ids now i j p q m' (K _ _ _ H1 H4) (K _ _ _ H2 H5) H3 H4 H5 H6 D).
      - exact (ShowsLabel b ctl ids now i p X (K _ _ _ H V) V). }
    split; apply G; auto. intros i t p q Hp Hq. destruct (A i t q p Hq Hp) as [V Eq].
    split; [now symmetry|]. intros Vp. symmetry. apply Eq. congruence.
  Qed.

  (** plot_simulator_state of one scenario: the chosen trajectory, the road graph and
      the lights of the current step, in a window around the SDC. *)
  Theorem C61_scene n T k s use_log cfg h now i p rg :
    wf_state n T s -> rect k T (s_tls s) -> s_rg s = Some rg -> h <> NON_SDC ->
    s_t s = Z.of_nat now -> now < T ->
    vz_center_agent_idx cfg = (-1)%Z -> the_sdc (s_meta s) i ->
    at2 (if use_log : bool then s_log s else s_sim s) i now = Some p ->
    (forall j l, at2 (s_tls s) j now = Some l -> tl_valid l = true -> light_paint (tl_state l) <> None) ->
    exists pic, plot_scene s use_log cfg h = Ok pic /\ pic_limits pic = window p cfg /\
      forall m, In m (pic_marks pic) <->
        shows_scene (if use_log then s_log s else s_sim s) (map (highlighted h) (s_meta s)) rg (s_tls s)
          (vz_show_agent_id cfg) now m.
  Proof.
    intros W Rl Hr Hh Et Ht. apply (plot_scene_eq n T k s use_log cfg h now i p rg W Rl Hr Hh).
    rewrite Et. unfold step_of. destruct (Z.eqb_spec (Z.of_nat now) (-1)); [lia|].
    rewrite (proj2 (Z.leb_le 0 _)), (proj2 (Z.ltb_lt _ _)) by lia. cbn [andb]. now rewrite Nat2Z.id.
  Qed.

  (** plot_observation: the same for the last step of an observer's view. *)
  Theorem C61_observation n T k (o : observation) j v cfg b h i p :
    nth_error o j = Some v -> (b <= -1)%Z -> rect n T (v_traj v) -> rect k T (v_tls v) ->
    length (v_meta v) = n -> 0 < n -> 0 < T -> h <> NON_SDC ->
    vz_center_agent_idx cfg = (-1)%Z -> the_sdc (v_meta v) i -> at2 (v_traj v) i (T - 1) = Some p ->
    (forall j l, at2 (v_tls v) j (T - 1) = Some l -> tl_valid l = true -> light_paint (tl_state l) <> None) ->
    exists pic, plot_observation o j cfg b h = Ok pic /\ pic_limits pic = window p cfg /\
      forall m, In m (pic_marks pic) <->
        shows_scene (v_traj v) (map (highlighted h) (v_meta v)) (v_rg v) (v_tls v)
          (vz_show_agent_id cfg) (T - 1) m.
  Proof. exact (plot_observation_eq n T k o j v cfg b h i p). Qed.

  (** plot_single_agent_brax_timestep: the SDC highlighted, and in addition the paths
      that start at a valid point and the valid metrics. *)
  Theorem C61_brax n T k s metrics use_log cfg now i p rg paths :
    wf_state n T s -> rect k T (s_tls s) -> s_rg s = Some rg -> s_paths s = Some paths ->
    (forall pa, In pa paths -> path_pts pa <> []) ->
    s_t s = Z.of_nat now -> now < T ->
    vz_center_agent_idx cfg = (-1)%Z -> the_sdc (s_meta s) i ->
    at2 (if use_log : bool then s_log s else s_sim s) i now = Some p ->
    (forall j l, at2 (s_tls s) j now = Some l -> tl_valid l = true -> light_paint (tl_state l) <> None) ->
    exists pic, plot_brax_scene s metrics use_log cfg = Ok pic /\ pic_limits pic = window p cfg /\
      forall m, In m (pic_marks pic) <->
        shows_scene (if use_log then s_log s else s_sim s) (map m_is_sdc (s_meta s)) rg (s_tls s)
          (vz_show_agent_id cfg) now m \/
        shows_path paths m \/
        shows_metric metrics (lim_x0 (window p cfg), fadd (lim_y0 (window p cfg)) (flit 10 1)) m.
  Proof.
    intros W Rl Hr Hp Hpn Et Ht. apply (plot_brax_eq n T k s metrics use_log cfg now i p rg paths W Rl Hr Hp Hpn).
    rewrite Et. unfold step_of. destruct (Z.eqb_spec (Z.of_nat now) (-1)); [lia|].
    rewrite (proj2 (Z.leb_le 0 _)), (proj2 (Z.ltb_lt _ _)) by lia. cbn [andb]. now rewrite Nat2Z.id.
  Qed.

  (** A batch index selects the scenario at that index, with its own or the shared
      clock; without one the state must not be batched. *)
  Theorem C61_batch_index K n T s m k b use_log cfg h :
    batch_of [K] n T s -> dims (b_tls s) = [K; m; k] ->
    (b_paths s = None \/ exists a c, has_paths [K] a c s) ->
    (b_rg s = None \/ exists r, has_roadgraph [K] r s) -> b < K ->
    plot_simulator_state s use_log cfg (Z.of_nat b) h = plot_scene (scenario s [b]) use_log cfg h.
  Proof.
    intros W Dl Hp Hr Hb. destruct (index_state_eq K n T s m k b W Dl Hp Hr Hb) as (s' & E & Sh & E').
    unfold plot_simulator_state, select_scene. rewrite (proj2 (Z.ltb_lt (-1) _)) by lia.
    rewrite (batch_shape [K] n T s W). cbn [length Nat.eqb guard bind]. rewrite Nat2Z.id, E. cbn [bind].
    rewrite Sh. cbn [length Nat.eqb guard bind]. now rewrite E'.
  Qed.

  Theorem C61_unbatched n T s m k b use_log cfg h :
    batch_of [] n T s -> dims (b_tls s) = [m; k] ->
    (b_paths s = None \/ exists a c, has_paths [] a c s) ->
    (b_rg s = None \/ exists r, has_roadgraph [] r s) -> (b <= -1)%Z ->
    plot_simulator_state s use_log cfg b h = plot_scene (scenario s []) use_log cfg h.
  Proof.
    intros W Dl Hp Hr Hb. unfold plot_simulator_state, select_scene.
    rewrite (proj2 (Z.ltb_ge (-1) _) Hb). cbn [bind]. rewrite (batch_shape [] n T s W).
    cbn [length Nat.eqb guard bind]. now rewrite (scene_rank0 n T s k W (ex_intro _ m Dl) Hp Hr).
  Qed.

  (** A wrong number of batch dimensions is a ValueError: a batch without an index,
      and an index into a state that has not exactly one batch dimension. *)
  Theorem C61_rank_checked B n T s b use_log cfg h :
    batch_of B n T s -> ((b <= -1)%Z /\ B <> [] \/ (-1 < b)%Z /\ length B <> 1) ->
    plot_simulator_state s use_log cfg b h = Err ValueError.
  Proof.
    intros W [[Hb HB]|[Hb HB]]; unfold plot_simulator_state, select_scene; rewrite (batch_shape B n T s W).
    - rewrite (proj2 (Z.ltb_ge (-1) _) Hb). cbn [bind]. rewrite (batch_shape B n T s W).
      destruct B; [congruence|reflexivity].
    - rewrite (proj2 (Z.ltb_lt (-1) _) Hb). rewrite (proj2 (Nat.eqb_neq _ _) HB). reflexivity.
  Qed.

  (** Refuted expectations.  A valid light in a state without a colour stops the
      rendering (color.py:22-35 has the nine states of the format). *)
  Theorem C61_unknown_light_refuted n T (tls : list (list tlight)) now i l :
    rect n T tls -> now < T -> at2 tls i now = Some l -> tl_valid l = true ->
    (tl_state l < 0 \/ 8 < tl_state l)%Z ->
    plot_traffic_lights tls (Z.of_nat now) = Err KeyError.
  Proof.
    intros R Ht Hi V P. apply (plot_traffic_lights_unknown n T tls _ now i l R); auto.
    - unfold step_of. destruct (Z.eqb_spec (Z.of_nat now) (-1)); [lia|].
      rewrite (proj2 (Z.leb_le 0 _)), (proj2 (Z.ltb_lt _ _)) by lia. cbn [andb]. now rewrite Nat2Z.id.
    - destruct (tl_state l) as [|p|p]; [lia| |reflexivity].
      do 4 (destruct p as [p|p|]; try reflexivity; try lia).
  Qed.

  (** viz.py:115 documents time_idx as optional; without it every call raises. *)
  Theorem C61_time_idx_required_refuted (tr : traj) ctl ids ms :
    plot_trajectory tr ctl None ids <> Ok ms.
  Proof. discriminate. Qed.

  (** utils.py:42 documents center_agent_idx as the agent to center on; every value
      other than -1 raises. *)
  Theorem C61_center_agent_refuted s use_log cfg h pic :
    vz_center_agent_idx cfg <> (-1)%Z -> plot_scene s use_log cfg h <> Ok pic.
  Proof.
    intros C H. unfold plot_scene in H.
    apply bind_Ok in H as (? & _ & H). apply bind_Ok in H as (? & _ & H). apply bind_Ok in H as (? & _ & H).
    apply bind_Ok in H as (? & _ & H). apply bind_Ok in H as (cur & _ & H). apply bind_Ok in H as (lim & H & _).
    unfold center_limits in H. rewrite (proj2 (Z.eqb_neq _ _) C) in H. discriminate.
  Qed.

  (** Road lines have colours (color.py:41-48) and are never drawn. *)
  Theorem C61_road_lines_refuted rg p : In p rg -> (6 <= rg_type p <= 13)%Z ->
    key_lookup (rg_type p) road_colors <> None /\
    ((forall q, In q rg -> rg_type q = rg_type p) -> plot_roadgraph_points rg = []).
  Proof.
    intros Hin Hp. split.
    - assert (G : (rg_type p = 6 \/ rg_type p = 7 \/ rg_type p = 8 \/ rg_type p = 9 \/ rg_type p = 10 \/
                   rg_type p = 11 \/ rg_type p = 12 \/ rg_type p = 13)%Z) by lia.
      decompose [or] G; match goal with H : rg_type p = _ |- _ => rewrite H end; discriminate.
    - intros Hq. destruct (plot_roadgraph_points rg) as [|m ms] eqn:E; [reflexivity|exfalso].
      assert (Hm : In m (plot_roadgraph_points rg)) by (rewrite E; now left).
      apply In_roadgraph in Hm. destruct Hm as (q & c & Hin' & V & P & _). rewrite (Hq q Hin') in P.
      assert (G : (rg_type p = 6 \/ rg_type p = 7 \/ rg_type p = 8 \/ rg_type p = 9 \/ rg_type p = 10 \/
                   rg_type p = 11 \/ rg_type p = 12 \/ rg_type p = 13)%Z) by lia.
      decompose [or] G; match goal with H : rg_type p = _ |- _ => rewrite H in P end; discriminate.
  Qed.

  (** A state that has not been reset (timestep -1, simulator_state.py:60-61) is not
      refused: its last step is rendered. *)
  Theorem C61_before_reset_refuted n T k s use_log cfg h i p rg :
    wf_state n T s -> rect k T (s_tls s) -> s_rg s = Some rg -> h <> NON_SDC ->
    s_t s = (-1)%Z ->
    vz_center_agent_idx cfg = (-1)%Z -> the_sdc (s_meta s) i ->
    at2 (if use_log : bool then s_log s else s_sim s) i (T - 1) = Some p ->
    (forall j l, at2 (s_tls s) j (T - 1) = Some l -> tl_valid l = true -> light_paint (tl_state l) <> None) ->
    exists pic, plot_scene s use_log cfg h = Ok pic /\ pic_limits pic = window p cfg /\
      forall m, In m (pic_marks pic) <->
        shows_scene (if use_log then s_log s else s_sim s) (map (highlighted h) (s_meta s)) rg (s_tls s)
          (vz_show_agent_id cfg) (T - 1) m.
  Proof.
    intros W Rl Hr Hh Et. apply (plot_scene_eq n T k s use_log cfg h (T - 1) i p rg W Rl Hr Hh).
    rewrite Et. unfold step_of. destruct W as (_ & _ & _ & _ & HT). destruct T; [lia|]. reflexivity.
  Qed.
End C61.

(** Over the reals the outline of a box is the rectangle itself: front left, front
    right, rear right, rear left; the arrow points from its two sides to the middle
    of its front. *)
Theorem C61_box_geometry b :
  box_outline (fbox b)
  = [on_box b 1 1; on_box b 1 (-1); on_box b (-1) (-1); on_box b (-1) 1; on_box b 1 1] /\
  box_arrow (fbox b) = [on_box b 0 1; on_box b 0 (-1); on_box b 1 0; on_box b 0 1].
Proof.
  unfold box_outline, box_arrow, on_box, rpoint, fbox. cbn [b_x b_y b_len b_wid b_yaw fst snd].
  rewrite !f2_Fin, !(fdiv_Fin _ 2) by lra. rewrite !fcos_Fin, !fsin_Fin.
  repeat first [rewrite fopp_Fin | rewrite fmul_Fin | rewrite fadd_Fin | rewrite fsub_Fin].
  split; repeat (f_equal; try lra).
Qed.

(** The corners drawn are those the overlap test uses. *)
Theorem C61_outline_is_overlap_box b q :
  In q (box_outline (fbox b)) <-> In q (corners_from_bbox (fbox b)).
Proof.
  assert (E : corners_from_bbox (fbox b) = [on_box b 1 (-1); on_box b 1 1; on_box b (-1) 1; on_box b (-1) (-1)]).
  { unfold corners_from_bbox, on_box, rpoint, fbox. cbn [b_x b_y b_len b_wid b_yaw fst snd map].
    rewrite !f2_Fin, !(fdiv_Fin _ 2) by lra. rewrite !fcos_Fin, !fsin_Fin.
    repeat first [rewrite fopp_Fin | rewrite fmul_Fin | rewrite fadd_Fin | rewrite fsub_Fin].
    repeat (f_equal; try lra). }
  rewrite E, (proj1 (C61_box_geometry b)). simpl. tauto.
Qed.

(** The red outlines of the simulated scene are those of the valid objects whose
    overlap metric is 1, for all inputs including infinities and NaN. *)
Theorem C61_red_iff_overlap_metric n T k (s : state (S := XR)) cfg h now i p rg ms pic outline :
  wf_state n T s -> rect k T (s_tls s) -> s_rg s = Some rg -> h <> NON_SDC ->
  s_t s = Z.of_nat now -> now < T ->
  vz_center_agent_idx cfg = (-1)%Z -> the_sdc (s_meta s) i -> at2 (s_sim s) i now = Some p ->
  (forall j l, at2 (s_tls s) j now = Some l -> tl_valid l = true -> light_paint (tl_state l) <> None) ->
  plot_scene s false cfg h = Ok pic -> overlap_compute s = Ok ms ->
  (In (Outline outline collision_paint) (pic_marks pic) <->
   exists j q, at2 (s_sim s) j now = Some q /\ nth_error ms j = Some (mkmres (Fin 1%R) true) /\
     outline = box_outline (pt_box q)).
Proof.
  intros W Rl Hr Hh Et Ht C Sd Hp Hl Hpic Hms.
  destruct (C61_scene n T k s false cfg h now i p rg W Rl Hr Hh Et Ht C Sd Hp Hl) as (pic' & X & _ & M).
  rewrite Hpic in X. injection X as ->. rewrite M. unfold shows_scene. split.
  - intros [H|[H|H]].
    + inversion H as [i' t' p' E1 V E2 E3|i' p' c m' E1 V Ec D Em|i' t' p' c m' E1 V E2 Ec D Em
        |a b q r m' E1 E2 N V1 V2 O D Em|i' p' E1 E2 V Em]; subst.
      * destruct D as [D|D]; [|discriminate]. injection D as _ D. destruct c; discriminate.
      * destruct D as [D|D]; [|discriminate]. injection D as _ D. destruct c; discriminate.
      * destruct D as [D|D]; [|discriminate]. injection D as ->. exists a, q. split; [exact E1|]. split; [|reflexivity].
        destruct (overlap_metric n T s now ms a q W Et Ht Hms E1) as (_ & bb & Hn & Hb).
        assert (bb = true) as ->.
        { apply Hb. exists b, r. split; [congruence|]. split; [exact E2|]. split; [exact V2|].
          unfold has_overlap in *. rewrite andb_comm. exact O. }
        rewrite Hn, V1. unfold fbool. now rewrite f1_Fin.
    + destruct H as (? & ? & _ & _ & _ & X). discriminate.
    + destruct H as (? & ? & ? & _ & _ & _ & X). discriminate.
  - intros (j & q & E1 & Hn & ->). left.
    destruct (overlap_metric n T s now ms j q W Et Ht Hms E1) as (_ & bb & Hn' & Hb).
    rewrite Hn in Hn'. injection Hn' as Ev Eb. destruct bb.
    + destruct (proj1 Hb eq_refl) as (a & r & N & E2 & V & O).
      apply (ShowsCollision _ _ _ _ j a q r _ E1 E2); [congruence|auto|auto| |now left].
      unfold has_overlap in *. rewrite andb_comm. exact O.
    + exfalso. unfold fbool in Ev. rewrite f0_Fin in Ev. injection Ev. lra.
Qed.

(** A road with two cars that touch the same ground, an invalid third and one far
    away, over two steps; a lane center, a road line and an invalid road edge; a
    green and an invalid light. *)
Definition ex_q (z : Z) : @F QS := inject_Z z.
Definition ex_car (x y : Z) (v : bool) : pt (S := QS) :=
  mkpt (ex_q x) (ex_q y) (ex_q 0) (ex_q 0) (ex_q 0) (ex_q 0) v 0 (ex_q 4) (ex_q 2) (ex_q 1).
Definition ex_tr : traj (S := QS) :=
  [[ex_car 0 0 true; ex_car 10 0 true]; [ex_car 1 0 true; ex_car 13 1 true];
   [ex_car 0 0 true; ex_car 10 0 false]; [ex_car 90 0 false; ex_car 100 0 true]].
Definition ex_rg : list (rgpt (S := QS)) :=
  [mkrg (ex_q 5) (ex_q 0) (ex_q 0) (ex_q 1) (ex_q 0) (ex_q 0) 1 7 true;
   mkrg (ex_q 5) (ex_q 3) (ex_q 0) (ex_q 1) (ex_q 0) (ex_q 0) 6 8 true;
   mkrg (ex_q 5) (ex_q 6) (ex_q 0) (ex_q 1) (ex_q 0) (ex_q 0) 15 9 false].
Definition ex_tls : list (list (tlight (S := QS))) :=
  [[mktl (ex_q 7) (ex_q 0) (ex_q 0) 4 0 true; mktl (ex_q 7) (ex_q 0) (ex_q 0) 6 0 true];
   [mktl (ex_q 8) (ex_q 0) (ex_q 0) 4 0 true; mktl (ex_q 8) (ex_q 0) (ex_q 0) 99 0 false]].
Definition ex_m (sdc : bool) : meta := mkmeta 1 1 sdc true true false false.
Definition ex_scene : state (S := QS) :=
  mkstate ex_tr ex_tr ex_tls [ex_m false; ex_m true; ex_m false; ex_m false] 1 None (Some ex_rg).
Definition ex_viz : viz_config (S := QS) := mkviz (ex_q 75) (ex_q 75) (ex_q 75) (ex_q 75) true (-1).

Example C61_ex_hypotheses :
  wf_state 4 2 ex_scene /\ rect 2 2 (s_tls ex_scene) /\ the_sdc (s_meta ex_scene) 1 /\
  (forall j l, at2 (s_tls ex_scene) j 1 = Some l -> tl_valid l = true -> light_paint (tl_state l) <> None).
Proof.
  split; [|split; [|split]].
  - split; [split; [reflexivity | intros r [<-|[<-|[<-|[<-|[]]]]]; reflexivity]|].
    split; [split; [reflexivity | intros r [<-|[<-|[<-|[<-|[]]]]]; reflexivity]|].
    repeat split; auto with arith.
  - split; [reflexivity | intros r [<-|[<-|[]]]; reflexivity].
  - split; [eexists; split; reflexivity|]. intros [|j] m Hj H; [|lia]. injection H as <-. reflexivity.
  - intros [|[|j]] l H V; [injection H as <-; discriminate|injection H as <-; discriminate|].
    destruct j; discriminate.
Qed.

(** The two colliding cars are drawn once more in red, the SDC in the colour of
    controlled objects, the past as dots, one lane point, one light; the window is
    centered on the SDC. *)
Definition kind (m : mark (S := QS)) : string * rgb :=
  match m with
  | Outline _ c => ("outline"%string, c) | Arrow _ c => ("arrow"%string, c)
  | Dot _ c => ("dot"%string, c) | Label _ i => ("label"%string, (inject_Z (Z.of_nat i), 0, 0)%Q)
  | RoadDot _ c => ("road"%string, c) | LightDot _ c => ("light"%string, c)
  | PathDot _ _ => ("path"%string, (0, 0, 0)%Q) | MetricText _ _ _ => ("text"%string, (0, 0, 0)%Q)
  end.
Example C61_ex_scene :
  rmap (fun pic => (map kind (filter (fun m => match m with Arrow _ _ => false | _ => true end) (pic_marks pic)),
                    map Qnum [lim_x0 (pic_limits pic); lim_x1 (pic_limits pic)]))
    (plot_scene ex_scene false ex_viz SDC)
  = Ok ([("label", (0, 0, 0)%Q); ("label", (1, 0, 0)%Q); ("label", (3, 0, 0)%Q);
         ("outline", highlight_paint); ("dot", past_paint); ("dot", past_paint); ("dot", past_paint);
         ("outline", other_paint); ("outline", other_paint);
         ("outline", collision_paint); ("outline", collision_paint);
         ("road", grey 230); ("light", (0, 1, 0)%Q)]%string,
        [-62; 88]%Z).
Proof. vm_compute. reflexivity. Qed.

Example C61_ex_overlap_metric :
  rmap (map (fun m : mres (S := QS) => (Qnum (mr_value m), mr_valid m))) (overlap_compute ex_scene)
  = Ok [(1%Z, true); (1%Z, true); (1%Z, false); (0%Z, true)].
Proof. vm_compute. reflexivity. Qed.

(** The view of an observer: its last step, with the other objects in grey. *)
Example C61_ex_observation :
  let v := mkview ex_tr [true; false; false; false]
             (from_center_and_yaw (ex_q 0, ex_q 0) (ex_q 0) true)
             (s_meta ex_scene) ex_rg ex_tls [] in
  rmap (fun pic => (map kind (pic_marks pic), Qnum (lim_x1 (pic_limits pic))))
    (plot_observation [v] 0 ex_viz (-1) VALID)
  = rmap (fun pic => (map kind (pic_marks pic), Qnum (lim_x1 (pic_limits pic))))
    (plot_scene ex_scene true ex_viz VALID) /\
  plot_observation [v] 0 ex_viz 0 VALID = Err ValueError.
Proof. split; vm_compute; reflexivity. Qed.

(** A batch of two: the first is the scene above, the second is empty of lights and
    has its own clock. *)
Definition ex_bs : bstate (S := QS) :=
  mkbs (mkA [2; 4; 2] (fun i => nth (nth 2 i 0) (nth (nth 1 i 0) ex_tr []) (ex_car 0 0 false)))
    (mkA [2; 4; 2] (fun i => nth (nth 2 i 0) (nth (nth 1 i 0) ex_tr []) (ex_car 0 0 false)))
    (mkA [2; 1; 2] (fun i => mktl (ex_q 7) (ex_q 0) (ex_q 0) 6 0 (nth 0 i 0 =? 0)))
    (mkA [2; 4] (fun i => ex_m (nth 1 i 0 =? 1))) (mkA [2] (fun i => Z.of_nat (1 - nth 0 i 0)))
    None (Some (mkA [2; 3] (fun i => nth (nth 1 i 0) ex_rg (mkrg (ex_q 0) (ex_q 0) (ex_q 0) (ex_q 0) (ex_q 0) (ex_q 0) 0 0 false)))).
Example C61_ex_batch :
  batch_of [2] 4 2 ex_bs /\ has_roadgraph [2] 3 ex_bs /\
  rmap (fun pic => length (pic_marks pic)) (plot_simulator_state ex_bs false ex_viz 0 SDC) = Ok 18 /\
  rmap (fun pic : picture (S := QS) => Qnum (lim_x0 (pic_limits pic))) (plot_simulator_state ex_bs false ex_viz 1 SDC) = Ok (-74)%Z /\
  plot_simulator_state ex_bs false ex_viz (-1) SDC = Err ValueError.
Proof.
  split; [repeat split; now right|]. split; [eexists; split; reflexivity|].
  split; [|split]; vm_compute; reflexivity.
Qed.

(** A light in a state the format does not have, a picture centered on agent 0, and
    paths: the second starts at an invalid point and is not drawn. *)
Example C61_ex_unknown_light :
  plot_traffic_lights (S := QS) [[mktl (ex_q 7) (ex_q 0) (ex_q 0) 9 0 true]] 0 = Err KeyError.
Proof. reflexivity. Qed.
Example C61_ex_center_agent :
  plot_scene ex_scene false (mkviz (ex_q 75) (ex_q 75) (ex_q 75) (ex_q 75) true 0) SDC = Err IndexError.
Proof. vm_compute. reflexivity. Qed.
Definition ex_pp (x : Z) (v : bool) : pathpt (S := QS) := mkpp (ex_q x) (ex_q 0) (ex_q 0) 1 v (ex_q x).
Example C61_ex_paths :
  rmap (map (fun m : mark (S := QS) => match m with PathDot p on => (Qnum (fst p), on) | _ => (0%Z, false) end))
    (plot_path_points [mkpath [ex_pp 1 true; ex_pp 2 false; ex_pp 3 true] true;
                       mkpath [ex_pp 4 false; ex_pp 5 true] false])
  = Ok [(1%Z, true); (3%Z, true)].
Proof. vm_compute. reflexivity. Qed.

Print Assumptions C61_trajectory.
Print Assumptions C61_invalid_hidden.
Print Assumptions C61_scene.
Print Assumptions C61_observation.
Print Assumptions C61_brax.
Print Assumptions C61_batch_index.
Print Assumptions C61_unbatched.
Print Assumptions C61_rank_checked.
Print Assumptions C61_unknown_light_refuted.
Print Assumptions C61_time_idx_required_refuted.
Print Assumptions C61_center_agent_refuted.
Print Assumptions C61_road_lines_refuted.
Print Assumptions C61_before_reset_refuted.
Print Assumptions C61_box_geometry.
Print Assumptions C61_outline_is_overlap_box.
Print Assumptions C61_red_iff_overlap_metric.
