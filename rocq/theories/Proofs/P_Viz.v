(** Proofs for C61. *)
From Coq Require Import String.
From Coq Require Import List ZArith QArith Bool Lia.
From Verif.Lib Require Import Base JaxIndex Scalar.
From Verif.Model Require Import Operations State Geometry Discretizer Comfort Metrics Pose
  Observation Batch BatchMetrics Viz.
From Verif.Spec Require Import StateSpec BatchSpec VizSpec.
From Verif.Proofs Require Import Core P_Batch P_BatchMetrics.
Import ListNotations.
Local Open Scope nat_scope.

Lemma In_mapi {A B} (f : nat -> A -> B) l y :
  In y (mapi f l) <-> exists i a, nth_error l i = Some a /\ y = f i a.
Proof.
  split.
  - intros H. apply In_nth_error in H. destruct H as [i H]. rewrite nth_error_mapi in H.
    destruct (nth_error l i) as [a|] eqn:E; [|discriminate]. injection H as <-. eauto.
  - intros (i & a & H & ->). apply (nth_error_In _ i). rewrite nth_error_mapi, H. reflexivity.
Qed.

Lemma existsb_nth (l : list bool) : existsb (fun b => b) l = true <-> exists j, nth_error l j = Some true.
Proof.
  rewrite existsb_exists. split.
  - intros (b & H & ->). apply In_nth_error in H. exact H.
  - intros (j & H). exists true. split; [exact (nth_error_In _ _ H)|reflexivity].
Qed.

Section Viz.
  Context {S : Scalar}.

  Lemma In_entries (tr : traj) i t p : In (i, t, p) (entries tr) <-> at2 tr i t = Some p.
  Proof.
    unfold entries, at2. rewrite in_concat. split.
    - intros (r & H & H'). apply In_mapi in H. destruct H as (k & row & E & ->).
      apply In_mapi in H'. destruct H' as (t' & p' & E' & X). injection X as -> -> ->. now rewrite E.
    - intros H. destruct (nth_error tr i) as [r|] eqn:E; [|discriminate].
      exists (mapi (fun t p => (i, t, p)) r). split; apply In_mapi; eauto.
  Qed.

  Lemma In_boxes sel now c (tr : traj) m :
    In m (plot_boxes (map (fun e : nat * nat * pt => box_at now (snd (fst e)) (snd e))
            (filter sel (filter (fun e => p_valid (snd e)) (entries tr)))) c false) <->
    exists i t p, at2 tr i t = Some p /\ p_valid p = true /\ sel (i, t, p) = true /\
      drawn (box_at now t p) c m.
  Proof.
    unfold plot_boxes, drawn. rewrite in_app_iff, !map_map, !in_map_iff. split.
    - intros [(e & <- & H)|(e & <- & H)]; apply filter_In in H; destruct H as [H H2];
        apply filter_In in H; destruct H as [H H1]; destruct e as [[i t] p]; apply In_entries in H;
        exists i, t, p; auto.
    - intros (i & t & p & H & H1 & H2 & [->| ->]); [left|right]; exists (i, t, p); (split; [reflexivity|]);
        (apply filter_In; split; [apply filter_In; split; [now apply In_entries|exact H1]|exact H2]).
  Qed.

  Definition column (tr : traj) (now : nat) : list pt :=
    flat_map (fun r => match nth_error r now with Some p => [p] | None => [] end) tr.

  Lemma column_nth n T (tr : traj) now : rect n T tr -> now < T ->
    length (column tr now) = n /\ forall i, nth_error (column tr now) i = at2 tr i now.
  Proof.
    intros [L R] Hn. subst n. induction tr as [|r tr IH].
    - split; [reflexivity|]. intros [|i]; reflexivity.
    - destruct IH as [IH1 IH2]; [intros q Hq; apply R; now right|].
      cbn [column flat_map]. fold (column tr now).
      assert (Lr : now < length r) by (rewrite (R r) by (now left); exact Hn).
      destruct (nth_error r now) as [p|] eqn:E; [|apply nth_error_None in E; lia].
      split; [simpl; now rewrite IH1|]. intros [|i]; unfold at2; simpl; [now rewrite E|]. exact (IH2 i).
  Qed.

  Lemma nth_nth_error {A} (l : list A) i d a : nth_error l i = Some a -> nth i l d = a.
  Proof. intros H. exact (nth_error_nth l i d H). Qed.

  Lemma collide_spec n T (tr : traj) now i p : rect n T tr -> now < T -> at2 tr i now = Some p ->
    (existsb (fun b => b) (map2 andb (map p_valid (column tr now))
       (nth i (compute_pairwise_overlaps (map pt_box (column tr now))) [])) = true <->
     exists j q, at2 tr j now = Some q /\ i <> j /\ p_valid q = true /\
       has_overlap (pt_box p) (pt_box q) = true).
  Proof.
    intros R Hn H. destruct (column_nth n T tr now R Hn) as [L E].
    assert (X : nth_error (compute_pairwise_overlaps (map pt_box (column tr now))) i
      = Some (mapi (fun j bj => if i =? j then false else has_overlap (pt_box p) bj) (map pt_box (column tr now)))).
    { unfold compute_pairwise_overlaps. rewrite nth_error_mapi, nth_error_map, E, H. reflexivity. }
    rewrite (nth_nth_error _ _ _ _ X), existsb_nth. split.
    - intros (j & H1). rewrite nth_error_map2, nth_error_map, nth_error_mapi, nth_error_map, E in H1.
      destruct (at2 tr j now) as [q|] eqn:Eq; [|discriminate]. cbn [option_map] in H1.
      injection H1 as H1. apply andb_true_iff in H1. destruct H1 as [H1 H2].
      destruct (Nat.eqb_spec i j); [discriminate|]. exists j, q. auto.
    - intros (j & q & Eq & N & V & O). exists j.
      rewrite nth_error_map2, nth_error_map, nth_error_mapi, nth_error_map, E, Eq. cbn [option_map].
      rewrite V, (proj2 (Nat.eqb_neq _ _) N), O. reflexivity.
  Qed.

  Lemma In_overlap n T (tr : traj) now m : rect n T tr -> now < T ->
    In m (plot_boxes (map (fun q => pt_box (fst q))
       (filter (fun q => snd q && p_valid (fst q))
          (mapi (fun i p => (p, existsb (fun b => b) (map2 andb (map p_valid (column tr now))
             (nth i (compute_pairwise_overlaps (map pt_box (column tr now))) [])))) (column tr now))))
       overlap_color false) <->
    exists i j p q, at2 tr i now = Some p /\ at2 tr j now = Some q /\ i <> j /\
      p_valid p = true /\ p_valid q = true /\ has_overlap (pt_box p) (pt_box q) = true /\
      drawn (pt_box p) overlap_color m.
  Proof.
    intros R Hn. destruct (column_nth n T tr now R Hn) as [L E].
    unfold plot_boxes. rewrite in_app_iff, !map_map, !in_map_iff.
    assert (G : forall x, In x (filter (fun q => snd q && p_valid (fst q))
          (mapi (fun i p => (p, existsb (fun b => b) (map2 andb (map p_valid (column tr now))
             (nth i (compute_pairwise_overlaps (map pt_box (column tr now))) [])))) (column tr now))) <->
      snd x = true /\ exists i j q, at2 tr i now = Some (fst x) /\ at2 tr j now = Some q /\ i <> j /\
        p_valid (fst x) = true /\ p_valid q = true /\ has_overlap (pt_box (fst x)) (pt_box q) = true).
    { intros [p b]. rewrite filter_In, In_mapi. cbn [fst snd]. split.
      - intros [(i & p' & H & X) Hb]. injection X as <- ->. apply andb_true_iff in Hb. destruct Hb as [Hb V].
        split; [exact Hb|]. rewrite E in H. apply (collide_spec n T tr now i p R Hn H) in Hb.
        destruct Hb as (j & q & H1 & H2 & H3 & H4). exists i, j, q. auto 7.
      - intros (-> & i & j & q & H1 & H2 & H3 & H4 & H5 & H6). split; [|now rewrite H4].
        exists i, p. split; [now rewrite E|]. f_equal. symmetry.
        apply (collide_spec n T tr now i p R Hn H1). exists j, q. auto. }
    split.
    - intros [(x & <- & H)|(x & <- & H)]; apply G in H; destruct H as (_ & i & j & q & H1 & H2 & H3 & H4 & H5 & H6);
        exists i, j, (fst x), q; unfold drawn; auto 9.
    - intros (i & j & p & q & H1 & H2 & H3 & H4 & H5 & H6 & [->| ->]); [left|right];
        exists (p, true); (split; [reflexivity|]); apply G; cbn [fst snd]; (split; [reflexivity|]); exists i, j, q; auto 7.
  Qed.

  Lemma ctl_nth (ctl : list bool) n i : length ctl = n -> i < n -> nth_error ctl i = Some (nth i ctl false).
  Proof. intros L H. apply nth_error_nth'. now rewrite L. Qed.

  Lemma box_at_now now p : box_at now now p = pt_box p.
  Proof. unfold box_at. now rewrite Nat.eqb_refl. Qed.
  Lemma box_at_other now t p : t <> now -> box_at now t p = tenth (pt_box p).
  Proof. intros H. unfold box_at. now rewrite (proj2 (Nat.eqb_neq _ _) H). Qed.

  Lemma In_bounding_boxes n T (tr : traj) ctl now m : rect n T tr -> length ctl = n -> now < T ->
    In m (plot_bounding_boxes tr now ctl) <-> shows tr ctl false now m.
  Proof.
    intros R Lc Hn. unfold plot_bounding_boxes. fold (column tr now). cbv zeta.
    rewrite !in_app_iff, !In_boxes, (In_overlap n T tr now m R Hn). cbn [fst snd]. split.
    - intros [H|[H|[H|H]]].
      + destruct H as (i & t & p & H & V & Hs & D). apply andb_true_iff in Hs. destruct Hs as [Hs Hc].
        apply Nat.leb_le in Hs. destruct (at2_Some_lt n T tr i t p R H) as [Hi Ht].
        pose proof (ctl_nth ctl n i Lc Hi) as Ec. rewrite Hc in Ec.
        destruct (Nat.eq_dec t now) as [->|N].
        * rewrite box_at_now in D. exact (ShowsPresent tr ctl false now i p true m H V Ec D).
        * rewrite box_at_other in D by auto. exact (ShowsFuture tr ctl false now i t p true m H V ltac:(lia) Ec D).
      + unfold plot_boxes in H. rewrite map_map, in_map_iff in H. destruct H as (e & <- & H).
        apply filter_In in H. destruct H as [H Hs]. apply filter_In in H. destruct H as [H V].
        destruct e as [[i t] p]. apply In_entries in H. cbn [fst snd] in *.
        apply negb_true_iff, Nat.leb_gt in Hs. rewrite box_at_other by lia.
        exact (ShowsPast tr ctl false now i t p H V Hs).
      + destruct H as (i & t & p & H & V & Hs & D). apply andb_true_iff in Hs. destruct Hs as [Hs Hc].
        apply Nat.leb_le in Hs. apply negb_true_iff in Hc. destruct (at2_Some_lt n T tr i t p R H) as [Hi Ht].
        pose proof (ctl_nth ctl n i Lc Hi) as Ec. rewrite Hc in Ec.
        destruct (Nat.eq_dec t now) as [->|N].
        * rewrite box_at_now in D. exact (ShowsPresent tr ctl false now i p false m H V Ec D).
        * rewrite box_at_other in D by auto. exact (ShowsFuture tr ctl false now i t p false m H V ltac:(lia) Ec D).
      + destruct H as (i & j & p & q & H1 & H2 & H3 & H4 & H5 & H6 & D).
        exact (ShowsCollision tr ctl false now i j p q m H1 H2 H3 H4 H5 H6 D).
    - intros [i t p H V Ht|i p c m' H V Ec D|i t p c m' H V Ht Ec D|i j p q m' H1 H2 H3 H4 H5 H6 D|i p X]; [| | | |discriminate].
      + right. left. unfold plot_boxes. rewrite map_map, in_map_iff. exists (i, t, p). cbn [fst snd].
        split; [rewrite box_at_other by lia; reflexivity|].
        apply filter_In. split; [apply filter_In; split; [now apply In_entries|exact V]|].
        cbn [fst snd]. apply negb_true_iff, Nat.leb_gt. exact Ht.
      + destruct c; [left|right; right; left]; exists i, now, p; (split; [exact H|]); (split; [exact V|]);
          (split; [rewrite Nat.leb_refl; rewrite (nth_nth_error _ _ false _ Ec); reflexivity|]); now rewrite box_at_now.
      + destruct c; [left|right; right; left]; exists i, t, p; (split; [exact H|]); (split; [exact V|]);
          (split; [rewrite (proj2 (Nat.leb_le _ _)) by lia; rewrite (nth_nth_error _ _ false _ Ec); reflexivity|]);
          now rewrite box_at_other by lia.
      + right. right. right. exists i, j, p, q. auto 8.
  Qed.

  Lemma shows_ids tr ctl ids now m : shows tr ctl ids now m <->
    shows tr ctl false now m \/
    (ids = true /\ exists i p, at2 tr i now = Some p /\ p_valid p = true /\
       m = Label (fsub (p_x p) f2, fadd (p_y p) f2) i).
  Proof.
    split.
    - intros [i t p H V Ht|i p c m' H V Ec D|i t p c m' H V Ht Ec D|i j p q m' H1 H2 H3 H4 H5 H6 D|i p X H V].
      + left. exact (ShowsPast tr ctl false now i t p H V Ht).
      + left. exact (ShowsPresent tr ctl false now i p c m' H V Ec D).
      + left. exact (ShowsFuture tr ctl false now i t p c m' H V Ht Ec D).
      + left. exact (ShowsCollision tr ctl false now i j p q m' H1 H2 H3 H4 H5 H6 D).
      + right. split; [exact X|]. exists i, p. auto.
    - intros [[i t p H V Ht|i p c m' H V Ec D|i t p c m' H V Ht Ec D|i j p q m' H1 H2 H3 H4 H5 H6 D|i p X H V]|(E & i & p & H & V & ->)].
      + exact (ShowsPast tr ctl ids now i t p H V Ht).
      + exact (ShowsPresent tr ctl ids now i p c m' H V Ec D).
      + exact (ShowsFuture tr ctl ids now i t p c m' H V Ht Ec D).
      + exact (ShowsCollision tr ctl ids now i j p q m' H1 H2 H3 H4 H5 H6 D).
      + discriminate.
      + now apply ShowsLabel.
  Qed.

  (** -1 is the last step, other steps are themselves. *)
  Definition step_of (T : nat) (t : Z) : option nat :=
    if (t =? -1)%Z then (if T =? 0 then None else Some (T - 1))
    else if ((0 <=? t) && (t <? Z.of_nat T))%Z then Some (Z.to_nat t) else None.

  Lemma plot_trajectory_eq n T (tr : traj) ctl t ids now : rect n T tr -> 0 < n -> length ctl = n ->
    step_of T t = Some now ->
    now < T /\
    exists ms, plot_trajectory tr ctl (Some t) ids = Ok ms /\ forall m, In m ms <-> shows tr ctl ids now m.
  Proof.
    intros R Hn Lc E.
    assert (Z1 : let t' := (if (t =? -1)%Z then (Z.of_nat T - 1)%Z else t) in
              t' = Z.of_nat now /\ now < T).
    { unfold step_of in E. destruct (Z.eqb_spec t (-1)).
      - destruct (Nat.eqb_spec T 0); [discriminate|]. injection E as <-. split; lia.
      - destruct ((0 <=? t) && (t <? Z.of_nat T))%Z eqn:B; [|discriminate]. injection E as <-.
        apply andb_true_iff in B. destruct B as [B1 B2]. apply Z.leb_le in B1. apply Z.ltb_lt in B2. split; lia. }
    cbv zeta in Z1. destruct Z1 as [Z1 Z2]. split; [exact Z2|].
    unfold plot_trajectory. rewrite (rect_num_timesteps n T tr R Hn), Z1.
    rewrite (proj2 (Z.ltb_lt _ _)) by lia. rewrite (proj2 (Z.leb_le 0 _)) by lia. cbn [guard bind].
    rewrite Lc, (proj1 R), Nat.eqb_refl. cbn [guard bind]. eexists. split; [reflexivity|]. intros m.
    rewrite Nat2Z.id, in_app_iff, (In_bounding_boxes n T tr ctl now m R Lc Z2), (shows_ids tr ctl ids).
    assert (G : In m (if ids then flat_map (fun e : nat * nat * pt => if p_valid (snd e) && (snd (fst e) =? now)
          then [Label (fsub (p_x (snd e)) f2, fadd (p_y (snd e)) f2) (fst (fst e))] else []) (entries tr) else []) <->
       (ids = true /\ exists i p, at2 tr i now = Some p /\ p_valid p = true /\
          m = Label (fsub (p_x p) f2, fadd (p_y p) f2) i)).
    { destruct ids; [|split; [intros []|intros [X _]; discriminate]]. rewrite in_flat_map. split.
      - intros ([[i t'] p] & H & H'). cbn [fst snd] in H'. apply In_entries in H. split; [reflexivity|].
        destruct (p_valid p) eqn:V; [|destruct H']. destruct (Nat.eqb_spec t' now) as [->|N]; [|destruct H'].
        destruct H' as [<-|[]]. exists i, p. auto.
      - intros (_ & i & p & H & V & ->). exists (i, now, p). split; [now apply In_entries|]. cbn [fst snd].
        rewrite V, Nat.eqb_refl. now left. }
    rewrite G. tauto.
  Qed.

  (** Road graph. *)
  Lemma In_insert z l y : In y (insert_unique z l) <-> y = z \/ In y l.
  Proof.
    induction l as [|x l IH]; simpl; [intuition|].
    destruct (z <? x)%Z; [simpl; intuition|]. destruct (Z.eqb_spec z x); [subst; simpl; intuition|].
    simpl. rewrite IH. intuition.
  Qed.
  Lemma In_unique l y : In y (unique l) <-> In y l.
  Proof. induction l as [|x l IH]; simpl; [tauto|]. rewrite In_insert, IH. intuition. Qed.

  Lemma road_paint_spec ty :
    road_paint ty = if existsb (Z.eqb ty) road_shown then Some (road_color ty) else None.
  Proof.
    destruct ty as [|p|p]; try reflexivity.
    do 5 (destruct p as [p|p|]; try reflexivity).
  Qed.

  Lemma In_roadgraph rg m : In m (plot_roadgraph_points rg) <-> shows_road rg m.
  Proof.
    unfold plot_roadgraph_points, shows_road. rewrite in_flat_map. split.
    - intros (ty & _ & H). destruct (existsb (Z.eqb ty) road_shown) eqn:E; [|destruct H].
      apply in_map_iff in H. destruct H as (p & <- & H). apply filter_In in H. destruct H as [H T].
      apply Z.eqb_eq in T. subst ty. apply filter_In in H. destruct H as [H V].
      exists p, (road_color (rg_type p)). rewrite road_paint_spec, E. auto.
    - intros (p & c & H & V & C & ->). exists (rg_type p).
      rewrite In_unique. rewrite road_paint_spec in C.
      destruct (existsb (Z.eqb (rg_type p)) road_shown); [|discriminate]. injection C as <-.
      assert (Hf : In p (filter rg_valid rg)) by (apply filter_In; auto).
      split; [now apply in_map|]. apply in_map_iff. exists p. split; [reflexivity|].
      apply filter_In. split; [exact Hf|apply Z.eqb_refl].
  Qed.

  (** Traffic lights. *)
  Lemma light_paint_spec st : key_lookup st light_colors = light_paint st.
  Proof.
    destruct st as [|p|p]; try reflexivity.
    do 4 (destruct p as [p|p|]; try reflexivity).
  Qed.

  Lemma frame_mapM {A} n T (x : list (list A)) t now : rect n T x -> step_of T t = Some now ->
    (-1 <= t)%Z /\
    exists cur, mapM (fun r : list A =>
        let k := if (t <? 0)%Z then (t + Z.of_nat (length r))%Z else t in
        let* _ := guard ((0 <=? k) && (k <? Z.of_nat (length r)))%Z IndexError in
        match nth_error r (Z.to_nat k) with Some l => Ok l | None => Err IndexError end) x = Ok cur /\
      length cur = n /\ forall i, nth_error cur i = at2 x i now.
  Proof.
    intros [L R] E. unfold step_of in E.
    assert (B : now < T /\ ((t = (-1)%Z /\ now = T - 1) \/ t = Z.of_nat now) /\ (-1 <= t)%Z).
    { destruct (Z.eqb_spec t (-1)).
      - destruct (Nat.eqb_spec T 0); [discriminate|]. injection E as <-. split; [lia|]. split; [left; lia|lia].
      - destruct ((0 <=? t) && (t <? Z.of_nat T))%Z eqn:B; [|discriminate]. injection E as <-.
        apply andb_true_iff in B. destruct B as [B1 B2]. apply Z.leb_le in B1. apply Z.ltb_lt in B2.
        split; [lia|]. split; [right; lia|lia]. }
    destruct B as (B1 & B2 & B3). split; [exact B3|]. subst n.
    match goal with |- context [mapM ?g x] => set (f := g) end.
    induction x as [|r x IH].
    - exists []. split; [reflexivity|]. split; [reflexivity|]. intros [|i]; reflexivity.
    - destruct IH as (cur & H1 & H2 & H3); [intros q Hq; apply R; now right|].
      pose proof (R r (or_introl eq_refl)) as Lr.
      destruct (nth_error r now) as [p|] eqn:En; [|apply nth_error_None in En; lia].
      exists (p :: cur). cbn [mapM]. rewrite H1. unfold f at 1. cbv zeta.
      assert (K : (if (t <? 0)%Z then (t + Z.of_nat (length r))%Z else t) = Z.of_nat now).
      { destruct (Z.ltb_spec t 0); destruct B2 as [[B2 B2']|B2]; lia. }
      rewrite K. rewrite (proj2 (Z.leb_le 0 _)) by lia. rewrite (proj2 (Z.ltb_lt _ _)) by lia.
      cbn [andb guard bind]. rewrite Nat2Z.id, En. cbn [bind]. split; [reflexivity|].
      split; [simpl; now rewrite H2|]. intros [|i]; unfold at2; simpl; [now rewrite En|exact (H3 i)].
  Qed.

  Lemma plot_traffic_lights_eq n T (tls : list (list tlight)) t now : rect n T tls -> step_of T t = Some now ->
    (forall i l, at2 tls i now = Some l -> tl_valid l = true -> light_paint (tl_state l) <> None) ->
    exists ms, plot_traffic_lights tls t = Ok ms /\ forall m, In m ms <-> shows_light tls now m.
  Proof.
    intros R E Hc. destruct (frame_mapM n T tls t now R E) as (_ & cur & H1 & H2 & H3).
    unfold plot_traffic_lights. cbv zeta in H1 |- *. rewrite H1. cbn [bind].
    assert (G : forall l, (forall x, In x l -> light_paint (tl_state x) <> None) ->
      exists ms, mapM (fun l => match key_lookup (tl_state l) light_colors with
                   | Some c => Ok (LightDot (tl_x l, tl_y l) c)
                   | None => Err KeyError end) l = Ok ms /\
        forall m, In m ms <-> exists x c, In x l /\ light_paint (tl_state x) = Some c /\ m = LightDot (tl_x x, tl_y x) c).
    { induction l as [|x l IH]; intros Hl.
      - exists []. split; [reflexivity|]. intros m. split; [intros []|intros (x & c & [] & _)].
      - destruct IH as (ms & G1 & G2); [intros; apply Hl; now right|].
        cbn [mapM]. rewrite light_paint_spec. pose proof (Hl x (or_introl eq_refl)) as Nx.
        destruct (light_paint (tl_state x)) as [c|] eqn:Ex; [|congruence]. cbn [bind]. rewrite G1. cbn [bind].
        eexists. split; [reflexivity|]. intros m. simpl. rewrite G2. split.
        + intros [<-|(y & c' & H & H' & H'')]; [exists x, c; auto|exists y, c'; auto].
        + intros (y & c' & [<-|H] & H' & H''); [left; rewrite Ex in H'; injection H' as <-; auto|right; eauto]. }
    destruct (G (filter tl_valid cur)) as (ms & G1 & G2).
    { intros x Hx. apply filter_In in Hx. destruct Hx as [Hx V]. apply In_nth_error in Hx. destruct Hx as [i Hi].
      rewrite H3 in Hi. exact (Hc i x Hi V). }
    exists ms. split; [exact G1|]. intros m. rewrite G2. unfold shows_light. split.
    - intros (x & c & Hx & P & ->). apply filter_In in Hx. destruct Hx as [Hx V]. apply In_nth_error in Hx.
      destruct Hx as [i Hi]. rewrite H3 in Hi. exists i, x, c. auto.
    - intros (i & x & c & Hi & V & P & ->). exists x, c. split; [|auto]. apply filter_In. split; [|exact V].
      apply (nth_error_In _ i). now rewrite H3.
  Qed.

  (** An unknown state of a valid light is an error. *)
  Lemma plot_traffic_lights_unknown n T (tls : list (list tlight)) t now i l : rect n T tls -> step_of T t = Some now ->
    at2 tls i now = Some l -> tl_valid l = true -> light_paint (tl_state l) = None ->
    plot_traffic_lights tls t = Err KeyError.
  Proof.
    intros R E Hi V P. destruct (frame_mapM n T tls t now R E) as (_ & cur & H1 & H2 & H3).
    unfold plot_traffic_lights. cbv zeta in H1 |- *. rewrite H1. cbn [bind].
    assert (Hin : In l (filter tl_valid cur)).
    { apply filter_In. split; [|exact V]. apply (nth_error_In _ i). now rewrite H3. }
    induction (filter tl_valid cur) as [|x r IH]; [destruct Hin|]. cbn [mapM]. rewrite light_paint_spec.
    destruct Hin as [->|Hin]; [now rewrite P|]. destruct (light_paint (tl_state x)); [|reflexivity].
    cbn [bind]. rewrite (IH Hin). reflexivity.
  Qed.

  (** Centering. *)
  Lemma center_limits_eq (cur : list pt) ms cfg k p :
    vz_center_agent_idx cfg = (-1)%Z -> first_sdc 0 ms = Some k -> nth_error cur k = Some p ->
    length cur = length ms ->
    center_limits cur ms cfg = Ok (mklim (fsub (p_x p) (vz_back_x cfg)) (fadd (p_x p) (vz_front_x cfg))
                                         (fsub (p_y p) (vz_back_y cfg)) (fadd (p_y p) (vz_front_y cfg))).
  Proof.
    intros C F N L. unfold center_limits. rewrite C. cbn [Z.eqb Pos.eqb].
    assert (G : forall j, first_sdc j ms = Some (j + k) ->
              exists m r, filter (fun q => m_is_sdc (snd q)) (combine cur ms) = (p, m) :: r).
    { clear F. revert cur k N L. induction ms as [|m ms IH]; intros [|c cur] k N L j F; try discriminate.
      cbn [combine filter snd]. cbn [first_sdc] in F. destruct (m_is_sdc m).
      - injection F as F. assert (k = 0) by lia. subst k. cbn in N. injection N as ->. eauto.
      - destruct k as [|k].
        + exfalso. assert (X : forall ms i a, first_sdc i ms = Some a -> i <= a).
          { clear. induction ms as [|m ms IH]; intros i a H; [discriminate|]. simpl in H.
            destruct (m_is_sdc m); [injection H as <-; lia|]. apply IH in H. lia. }
          apply X in F. lia.
        + cbn in N. apply (IH cur k N (ltac:(simpl in L; lia)) (Datatypes.S j)). rewrite F. f_equal. lia. }
    destruct (G 0 F) as (m & r & ->). reflexivity.
  Qed.
End Viz.

Section Scene.
  Context {S : Scalar}.

  Lemma first_sdc_le ms : forall i a, first_sdc i ms = Some a -> i <= a.
  Proof.
    induction ms as [|m ms IH]; intros i a H; [discriminate|]. simpl in H.
    destruct (m_is_sdc m); [injection H as <-; lia|]. apply IH in H. lia.
  Qed.

  Lemma the_sdc_first ms i : the_sdc ms i -> first_sdc 0 ms = Some i.
  Proof.
    intros [(m & H & Hm) Hf].
    assert (G : forall ms i j, nth_error ms i = Some m ->
              (forall k m, k < i -> nth_error ms k = Some m -> m_is_sdc m = false) ->
              first_sdc j ms = Some (j + i)).
    { clear - Hm. induction ms as [|a ms IH]; intros [|i] j H Hf; try discriminate.
      - injection H as ->. simpl. rewrite Hm. f_equal. lia.
      - simpl. rewrite (Hf 0 a) by (auto; lia). rewrite (IH i (Datatypes.S j) H).
        + f_equal. lia.
        + intros k m' Hk E. apply (Hf (Datatypes.S k) m'); [lia|exact E]. }
    exact (G ms i 0 H Hf).
  Qed.

  Lemma highlight_mask ms h : h <> NON_SDC -> get_control_mask ms h = Ok (map (highlighted h) ms).
  Proof. intros H. destruct h; try reflexivity. congruence. Qed.

  Lemma scene_parts n T k (tr : traj) (tls : list (list tlight)) ms t now i p ids cfg ctl :
    rect n T tr -> rect k T tls -> length ms = n -> length ctl = n -> 0 < n -> step_of T t = Some now ->
    vz_center_agent_idx cfg = (-1)%Z -> the_sdc ms i -> at2 tr i now = Some p ->
    (forall j l, at2 tls j now = Some l -> tl_valid l = true -> light_paint (tl_state l) <> None) ->
    exists boxes lights cur,
      plot_trajectory tr ctl (Some t) ids = Ok boxes /\ plot_traffic_lights tls t = Ok lights /\
      current_frame tr t = Ok cur /\ center_limits cur ms cfg = Ok (window p cfg) /\
      (forall m, In m boxes <-> shows tr ctl ids now m) /\
      (forall m, In m lights <-> shows_light tls now m).
  Proof.
    intros R Rl Lm Lc Hn E C Sd Hp Hl.
    destruct (plot_trajectory_eq n T tr ctl t ids now R Hn Lc E) as (_ & boxes & B1 & B2).
    destruct (plot_traffic_lights_eq k T tls t now Rl E Hl) as (lights & L1 & L2).
    destruct (frame_mapM n T tr t now R E) as (_ & cur & F1 & F2 & F3).
    exists boxes, lights, cur. split; [exact B1|]. split; [exact L1|]. split; [exact F1|].
    split; [|auto]. apply (center_limits_eq cur ms cfg i p C (the_sdc_first ms i Sd)); [now rewrite F3|congruence].
  Qed.

  Lemma plot_scene_eq n T k s use_log cfg h now i p rg :
    wf_state n T s -> rect k T (s_tls s) -> s_rg s = Some rg -> h <> NON_SDC ->
    step_of T (s_t s) = Some now ->
    vz_center_agent_idx cfg = (-1)%Z -> the_sdc (s_meta s) i ->
    at2 (if use_log : bool then s_log s else s_sim s) i now = Some p ->
    (forall j l, at2 (s_tls s) j now = Some l -> tl_valid l = true -> light_paint (tl_state l) <> None) ->
    exists pic, plot_scene s use_log cfg h = Ok pic /\ pic_limits pic = window p cfg /\
      forall m, In m (pic_marks pic) <->
        shows_scene (if use_log then s_log s else s_sim s) (map (highlighted h) (s_meta s)) rg (s_tls s)
          (vz_show_agent_id cfg) now m.
  Proof.
    intros (R1 & R2 & Lm & Hn & HT) Rl Hrg Hh E C Sd Hp Hl.
    destruct use_log.
    - destruct (scene_parts n T k (s_log s) (s_tls s) (s_meta s) (s_t s) now i p (vz_show_agent_id cfg) cfg
                  (map (highlighted h) (s_meta s)) R2 Rl Lm ltac:(now rewrite map_length) Hn E C Sd Hp Hl)
        as (boxes & lights & cur & P1 & P2 & P3 & P4 & P5 & P6).
      unfold plot_scene. cbv zeta. rewrite (highlight_mask (s_meta s) h Hh). cbn [bind].
      rewrite P1, Hrg. cbn [bind].
      rewrite P2. cbn [bind]. rewrite P3. cbn [bind]. rewrite P4. cbn [bind].
      eexists. split; [reflexivity|]. split; [reflexivity|]. intros m. cbn [pic_marks].
      rewrite !in_app_iff, P5, P6, In_roadgraph. reflexivity.
    - destruct (scene_parts n T k (s_sim s) (s_tls s) (s_meta s) (s_t s) now i p (vz_show_agent_id cfg) cfg
                  (map (highlighted h) (s_meta s)) R1 Rl Lm ltac:(now rewrite map_length) Hn E C Sd Hp Hl)
        as (boxes & lights & cur & P1 & P2 & P3 & P4 & P5 & P6).
      unfold plot_scene. cbv zeta. rewrite (highlight_mask (s_meta s) h Hh). cbn [bind].
      rewrite P1, Hrg. cbn [bind].
      rewrite P2. cbn [bind]. rewrite P3. cbn [bind]. rewrite P4. cbn [bind].
      eexists. split; [reflexivity|]. split; [reflexivity|]. intros m. cbn [pic_marks].
      rewrite !in_app_iff, P5, P6, In_roadgraph. reflexivity.
  Qed.

  Lemma plot_observation_eq n T k (o : observation) j v cfg b h i p :
    nth_error o j = Some v -> (b <= -1)%Z -> rect n T (v_traj v) -> rect k T (v_tls v) ->
    length (v_meta v) = n -> 0 < n -> 0 < T -> h <> NON_SDC ->
    vz_center_agent_idx cfg = (-1)%Z -> the_sdc (v_meta v) i -> at2 (v_traj v) i (T - 1) = Some p ->
    (forall j l, at2 (v_tls v) j (T - 1) = Some l -> tl_valid l = true -> light_paint (tl_state l) <> None) ->
    exists pic, plot_observation o j cfg b h = Ok pic /\ pic_limits pic = window p cfg /\
      forall m, In m (pic_marks pic) <->
        shows_scene (v_traj v) (map (highlighted h) (v_meta v)) (v_rg v) (v_tls v)
          (vz_show_agent_id cfg) (T - 1) m.
  Proof.
    intros Hv Hb R Rl Lm Hn HT Hh C Sd Hp Hl.
    assert (E : step_of T (Z.of_nat T - 1) = Some (T - 1)).
    { unfold step_of. destruct (Z.eqb_spec (Z.of_nat T - 1) (-1)); [lia|].
      rewrite (proj2 (Z.leb_le 0 _)) by lia. rewrite (proj2 (Z.ltb_lt _ _)) by lia. cbn [andb]. f_equal. lia. }
    destruct (scene_parts n T k _ (v_tls v) (v_meta v) _ (T - 1) i p (vz_show_agent_id cfg) cfg
                (map (highlighted h) (v_meta v)) R Rl Lm ltac:(now rewrite map_length) Hn E C Sd Hp Hl)
      as (boxes & lights & cur & P1 & P2 & P3 & P4 & P5 & P6).
    unfold plot_observation. cbv zeta. rewrite (proj2 (Z.leb_le _ _) Hb), Hv. cbn [guard bind].
    rewrite (rect_num_timesteps n T _ R Hn), (highlight_mask (v_meta v) h Hh). cbn [bind].
    rewrite P1. cbn [bind]. rewrite P2. cbn [bind]. rewrite P3. cbn [bind]. rewrite P4. cbn [bind].
    eexists. split; [reflexivity|]. split; [reflexivity|]. intros m. cbn [pic_marks].
    rewrite !in_app_iff, P5, P6, In_roadgraph. reflexivity.
  Qed.

  Lemma plot_path_points_eq paths : (forall pa, In pa paths -> path_pts pa <> []) ->
    exists ms, plot_path_points paths = Ok ms /\ forall m, In m ms <-> shows_path paths m.
  Proof.
    intros H. unfold plot_path_points.
    match goal with |- context [mapM ?g paths] => set (f := g) end.
    assert (G : exists l, mapM f paths = Ok l /\ forall m, In m (concat l) <-> shows_path paths m).
    { induction paths as [|pa r IH].
      - exists []. split; [reflexivity|]. intros m. split; [intros []|intros (pa & p & [] & _)].
      - destruct IH as (l & G1 & G2); [intros; apply H; now right|].
        cbn [mapM]. rewrite G1. pose proof (H pa (or_introl eq_refl)) as Hp. unfold f.
        destruct (path_pts pa) as [|p0 q] eqn:Ep; [congruence|]. cbn [bind].
        eexists. split; [reflexivity|]. intros m. cbn [concat]. rewrite in_app_iff, G2. split.
        + intros [Hm|(pa' & p & Hi & Hm)]; [|exists pa', p; split; [now right|exact Hm]].
          destruct (pp_valid p0) eqn:V0; [|destruct Hm]. apply in_map_iff in Hm. destruct Hm as (p & <- & Hm).
          apply filter_In in Hm. destruct Hm as [Hm V]. exists pa, p. split; [now left|].
          split; [eauto|]. rewrite Ep. auto.
        + intros (pa' & p & [->|Hi] & (p0' & r' & E0 & V0) & Hm & V & ->).
          * left. rewrite E0 in Ep. injection Ep as -> ->. rewrite V0. apply in_map_iff. exists p. split; [reflexivity|].
            apply filter_In. split; [|exact V]. now rewrite E0 in Hm.
          * right. exists pa', p. split; [exact Hi|]. split; [eauto|auto]. }
    destruct G as (l & G1 & G2). rewrite G1. cbn [bind]. eauto.
  Qed.

  Lemma plot_brax_eq n T k s metrics use_log cfg now i p rg paths :
    wf_state n T s -> rect k T (s_tls s) -> s_rg s = Some rg -> s_paths s = Some paths ->
    (forall pa, In pa paths -> path_pts pa <> []) ->
    step_of T (s_t s) = Some now ->
    vz_center_agent_idx cfg = (-1)%Z -> the_sdc (s_meta s) i ->
    at2 (if use_log : bool then s_log s else s_sim s) i now = Some p ->
    (forall j l, at2 (s_tls s) j now = Some l -> tl_valid l = true -> light_paint (tl_state l) <> None) ->
    exists pic, plot_brax_scene s metrics use_log cfg = Ok pic /\ pic_limits pic = window p cfg /\
      forall m, In m (pic_marks pic) <->
        shows_scene (if use_log then s_log s else s_sim s) (map m_is_sdc (s_meta s)) rg (s_tls s)
          (vz_show_agent_id cfg) now m \/
        shows_path paths m \/
        shows_metric metrics (lim_x0 (window p cfg), fadd (lim_y0 (window p cfg)) (flit 10 1)) m.
  Proof.
    intros (R1 & R2 & Lm & Hn & HT) Rl Hrg Hpa Hpn E C Sd Hp Hl.
    destruct use_log.
    - destruct (scene_parts n T k (s_log s) (s_tls s) (s_meta s) (s_t s) now i p (vz_show_agent_id cfg) cfg
                  (map m_is_sdc (s_meta s)) R2 Rl Lm ltac:(now rewrite map_length) Hn E C Sd Hp Hl)
        as (boxes & lights & cur & P1 & P2 & P3 & P4 & P5 & P6).
      destruct (plot_path_points_eq paths Hpn) as (dots & Q1 & Q2).
      unfold plot_brax_scene. cbv zeta. cbn [bind]. rewrite P1, Hrg, Hpa. cbn [bind].
      rewrite P2. cbn [bind]. rewrite Q1. cbn [bind]. rewrite P3. cbn [bind]. rewrite P4. cbn [bind].
      eexists. split; [reflexivity|]. split; [reflexivity|]. intros m. cbn [pic_marks].
      rewrite !in_app_iff, P5, P6, Q2, In_roadgraph.
      assert (G : forall at_, In m (flat_map (fun m : string * mres => if mr_valid (snd m)
                     then [MetricText at_ (fst m) (mr_value (snd m))] else []) metrics) <->
                   shows_metric metrics at_ m).
      { intros at_. rewrite in_flat_map. unfold shows_metric. split.
        - intros ([nm r] & Hi & Hm). cbn [fst snd] in Hm. destruct (mr_valid r) eqn:V; [|destruct Hm].
          destruct Hm as [<-|[]]. exists nm, r. auto.
        - intros (nm & r & Hi & V & ->). exists (nm, r). split; [exact Hi|]. cbn [fst snd]. rewrite V. now left. }
      rewrite G. unfold shows_scene. tauto.
    - destruct (scene_parts n T k (s_sim s) (s_tls s) (s_meta s) (s_t s) now i p (vz_show_agent_id cfg) cfg
                  (map m_is_sdc (s_meta s)) R1 Rl Lm ltac:(now rewrite map_length) Hn E C Sd Hp Hl)
        as (boxes & lights & cur & P1 & P2 & P3 & P4 & P5 & P6).
      destruct (plot_path_points_eq paths Hpn) as (dots & Q1 & Q2).
      unfold plot_brax_scene. cbv zeta. cbn [bind]. rewrite P1, Hrg, Hpa. cbn [bind].
      rewrite P2. cbn [bind]. rewrite Q1. cbn [bind]. rewrite P3. cbn [bind]. rewrite P4. cbn [bind].
      eexists. split; [reflexivity|]. split; [reflexivity|]. intros m. cbn [pic_marks].
      rewrite !in_app_iff, P5, P6, Q2, In_roadgraph.
      assert (G : forall at_, In m (flat_map (fun m : string * mres => if mr_valid (snd m)
                     then [MetricText at_ (fst m) (mr_value (snd m))] else []) metrics) <->
                   shows_metric metrics at_ m).
      { intros at_. rewrite in_flat_map. unfold shows_metric. split.
        - intros ([nm r] & Hi & Hm). cbn [fst snd] in Hm. destruct (mr_valid r) eqn:V; [|destruct Hm].
          destruct Hm as [<-|[]]. exists nm, r. auto.
        - intros (nm & r & Hi & V & ->). exists (nm, r). split; [exact Hi|]. cbn [fst snd]. rewrite V. now left. }
      rewrite G. unfold shows_scene. tauto.
  Qed.
End Scene.

Section BatchScene.
  Context {S : Scalar}.

  Lemma matrix0 {A} (x : arr A) n k : dims x = [n; k] -> rows x = matrix x [].
  Proof.
    intros D. unfold rows. rewrite D. cbn [hd].
    exact (rows_matrix x [] n k [] D (Forall2_nil _)).
  Qed.
  Lemma vector0 {A} (x : arr A) n : dims x = [n] -> row x [] = vector x [].
  Proof. intros D. exact (row_vector x [] n [] D (Forall2_nil _)). Qed.

  Lemma scene_rank0 n T s k :
    batch_of [] n T s -> (exists m, dims (b_tls s) = [m; k]) ->
    (b_paths s = None \/ exists a c, has_paths [] a c s) ->
    (b_rg s = None \/ exists m, has_roadgraph [] m s) ->
    as_scene s = scenario s [].
  Proof.
    intros (D1 & D2 & D3 & D4) (m & Dl) Hp Hr. unfold as_scene, scenario.
    assert (Et : cell (b_t s) [] = clock (b_t s) []) by (unfold clock; destruct D4 as [-> | ->]; reflexivity).
    rewrite (matrix0 _ n T D1), (matrix0 _ n T D2), (matrix0 _ m k Dl), (vector0 _ n D3), Et.
    f_equal.
    - destruct Hp as [->|(a & c & pts & on & E & E1 & E2)]; [reflexivity|]. rewrite E. cbn [option_map].
      unfold paths_at. cbn [fst snd]. rewrite (matrix0 _ a c E1), (vector0 _ a E2). reflexivity.
    - destruct Hr as [->|(q & rg & E & E1)]; [reflexivity|]. rewrite E. cbn [option_map].
      now rewrite (vector0 _ q E1).
  Qed.

  Lemma index_leaf_in {A} (x : arr A) d ds k : dims x = d :: ds -> k < d ->
    index_leaf x k = Ok (mkA ds (fun i => cell x (k :: i))).
  Proof. intros D H. unfold index_leaf. rewrite D, (proj2 (Nat.ltb_lt _ _) H). reflexivity. Qed.

  Lemma index_state_eq K n T s m k b :
    batch_of [K] n T s -> dims (b_tls s) = [K; m; k] ->
    (b_paths s = None \/ exists a c, has_paths [K] a c s) ->
    (b_rg s = None \/ exists r, has_roadgraph [K] r s) ->
    b < K ->
    exists s', index_state s b = Ok s' /\ b_shape s' = [] /\ as_scene s' = scenario s [b].
  Proof.
    intros (D1 & D2 & D3 & D4) Dl Hp Hr Hb. unfold index_state.
    rewrite (index_leaf_in (b_sim s) K [n; T] b D1 Hb), (index_leaf_in (b_log s) K [n; T] b D2 Hb),
      (index_leaf_in (b_tls s) K [m; k] b Dl Hb), (index_leaf_in (b_meta s) K [n] b D3 Hb). cbn [bind].
    assert (Et : exists t, index_leaf (b_t s) b = Ok t /\ dims t = [] /\ cell t [] = clock (b_t s) [b]).
    { unfold clock. destruct D4 as [D|D].
      - exists (b_t s). unfold index_leaf. rewrite D. auto.
      - exists (mkA [] (fun i => cell (b_t s) (b :: i))). rewrite (index_leaf_in (b_t s) K [] b D Hb), D. auto. }
    destruct Et as (t & Et & Dt & Ct). rewrite Et. cbn [bind].
    assert (Ep : exists q, (match b_paths s with
                  | None => Ok None
                  | Some (pts, on) => let* p := index_leaf pts b in
                                      let* o := index_leaf on b in Ok (Some (p, o))
                  end) = Ok q /\
        option_map (fun q => map (fun x => mkpath (fst x) (snd x))
                              (combine (rows (fst q)) (row (snd q) []))) q
        = option_map (fun p => paths_at p [b]) (b_paths s)).
    { destruct Hp as [->|(a & c & pts & on & E & E1 & E2)]; [exists None; auto|]. rewrite E.
      rewrite (index_leaf_in pts K [a; c] b E1 Hb), (index_leaf_in on K [a] b E2 Hb). cbn [bind].
      eexists. split; [reflexivity|]. cbn [option_map fst snd]. unfold paths_at. cbn [fst snd].
      rewrite (matrix0 (mkA [a; c] (fun i => cell pts (b :: i))) a c eq_refl),
        (vector0 (mkA [a] (fun i => cell on (b :: i))) a eq_refl).
      unfold matrix, vector. rewrite E1, E2. reflexivity. }
    destruct Ep as (q & Ep & Eq). rewrite Ep. cbn [bind].
    assert (Er : exists q, (match b_rg s with
               | None => Ok None
               | Some r => let* r := index_leaf r b in Ok (Some r)
               end) = Ok q /\
        option_map (fun r => row r []) q = option_map (fun r => vector r [b]) (b_rg s)).
    { destruct Hr as [->|(r & rg & E & E1)]; [exists None; auto|]. rewrite E.
      rewrite (index_leaf_in rg K [r] b E1 Hb). cbn [bind]. eexists. split; [reflexivity|].
      cbn [option_map]. rewrite (vector0 (mkA [r] (fun i => cell rg (b :: i))) r eq_refl). unfold vector. rewrite E1. reflexivity. }
    destruct Er as (r & Er & Err). rewrite Er. cbn [bind].
    eexists. split; [reflexivity|]. split; [reflexivity|].
    unfold as_scene, scenario. cbn [b_sim b_log b_tls b_meta b_t b_paths b_rg].
    rewrite Eq, Err, Ct.
    rewrite (matrix0 (mkA [n; T] (fun i => cell (b_sim s) (b :: i))) n T eq_refl),
      (matrix0 (mkA [n; T] (fun i => cell (b_log s) (b :: i))) n T eq_refl),
      (matrix0 (mkA [m; k] (fun i => cell (b_tls s) (b :: i))) m k eq_refl),
      (vector0 (mkA [n] (fun i => cell (b_meta s) (b :: i))) n eq_refl).
    unfold matrix, vector. rewrite D1, D2, D3, Dl. reflexivity.
  Qed.
End BatchScene.
