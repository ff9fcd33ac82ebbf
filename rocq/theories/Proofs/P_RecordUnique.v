(** A record describes exactly one scenario. *)
From Coq Require Import String.
From Coq Require Import List ZArith Bool Arith Lia.
From Verif.Lib Require Import Base JaxIndex Scalar.
From Verif.Model Require Import Operations State Masked Womd WomdState Batch Loader.
From Verif.Spec Require Import StateSpec WomdSpec LoaderSpec RecordSpec.
From Verif.Proofs Require Import P_RecordRun.
Import ListNotations.
Local Open Scope nat_scope.

Section Unique.
  Context {S : Scalar}.

  Lemma nth_ext_P {A} (P : nat -> A -> Prop) l m : length l = length m ->
    (forall i x, nth_error l i = Some x -> P i x) -> (forall i x, nth_error m i = Some x -> P i x) ->
    (forall i x y, P i x -> P i y -> x = y) -> l = m.
  Proof.
    intros L Hl Hm U. apply nth_error_ext_eq. intros i.
    destruct (nth_error l i) as [x|] eqn:E, (nth_error m i) as [y|] eqn:E'; auto.
    - f_equal. eapply U; eauto.
    - apply nth_error_None in E'. assert (i < length l) by (apply nth_error_Some; congruence). lia.
    - apply nth_error_None in E. assert (i < length m) by (apply nth_error_Some; congruence). lia.
  Qed.

  Lemma rect_ext_P {A} (P : nat -> nat -> A -> Prop) n T l m : rect n T l -> rect n T m ->
    (forall i t x, at2 l i t = Some x -> P i t x) -> (forall i t x, at2 m i t = Some x -> P i t x) ->
    (forall i t x y, P i t x -> P i t y -> x = y) -> l = m.
  Proof.
    intros Rl Rm Hl Hm U. eapply rect_ext; eauto. intros i t Hi Ht.
    destruct (rect_at2 _ _ _ _ _ Rl Hi Ht) as (x & Ex), (rect_at2 _ _ _ _ _ Rm Hi Ht) as (y & Ey).
    rewrite Ex, Ey. f_equal. eapply U; eauto.
  Qed.

  Lemma light_unique e part k l x y : light_of_record e part k l x -> light_of_record e part k l y -> x = y.
  Proof.
    intros (A1 & A2 & A3 & A4 & A5 & A6) (B1 & B2 & B3 & B4 & B5 & B6).
    rewrite A1 in B1. rewrite A2 in B2. rewrite A3 in B3. rewrite A4 in B4. rewrite A5 in B5. rewrite A6 in B6.
    destruct x, y; cbn in *. congruence.
  Qed.
  Lemma object_unique e i x y : object_of_record e i x -> object_of_record e i y -> x = y.
  Proof.
    intros (A1 & A2 & A3 & A4 & A5 & A6 & A7) (B1 & B2 & B3 & B4 & B5 & B6 & B7).
    rewrite A1 in B1. rewrite A2 in B2. rewrite A3 in B3. rewrite A4 in B4. rewrite A5 in B5. rewrite A6 in B6.
    destruct x, y; cbn in *. congruence.
  Qed.
  Lemma road_unique e i x y : road_point_of_record e i x -> road_point_of_record e i y -> x = y.
  Proof.
    intros (A1 & A2 & A3 & A4 & A5 & A6 & A7 & A8 & A9) (B1 & B2 & B3 & B4 & B5 & B6 & B7 & B8 & B9).
    rewrite A1 in B1. rewrite A2 in B2. rewrite A3 in B3. rewrite A4 in B4. rewrite A5 in B5. rewrite A6 in B6.
    rewrite A7 in B7. rewrite A8 in B8. rewrite A9 in B9. destruct x, y; cbn in *. congruence.
  Qed.
  Lemma path_point_unique e K i j x y : path_point_of_record e K i j x -> path_point_of_record e K i j y -> x = y.
  Proof.
    intros (A1 & A2 & A3 & A4 & A5 & A6) (B1 & B2 & B3 & B4 & B5 & B6).
    rewrite A1 in B1. rewrite A2 in B2. rewrite A3 in B3. rewrite A4 in B4. rewrite A5 in B5. rewrite A6 in B6.
    destruct x, y; cbn in *. congruence.
  Qed.

  (** Everything but the box. *)
  Definition same_rest (p q : pt) : Prop :=
    p_x p = p_x q /\ p_y p = p_y q /\ p_z p = p_z q /\ p_vx p = p_vx q /\ p_vy p = p_vy q /\ p_yaw p = p_yaw q /\
    p_valid p = p_valid q /\ p_ts p = p_ts q.
  Lemma frame_unique e part steps i k x y : frame_of_record e part steps i k x -> frame_of_record e part steps i k y -> same_rest x y.
  Proof.
    intros (A1 & A2 & A3 & A4 & A5 & A6 & A7 & A8) (B1 & B2 & B3 & B4 & B5 & B6 & B7 & B8).
    rewrite A1 in B1. rewrite A2 in B2. rewrite A3 in B3. rewrite A4 in B4. rewrite A5 in B5. rewrite A6 in B6.
    rewrite A7 in B7. rewrite A8 in B8. repeat split; congruence.
  Qed.
  Lemma recorded_unique e i t x y : recorded e i t x -> recorded e i t y -> same_rest x y.
  Proof.
    intros (pa & st & k & A & Fa) (pb & st' & k' & B & Fb).
    destruct (step_in_unique _ _ _ _ _ _ _ A B) as (-> & -> & ->). eapply frame_unique; eauto.
  Qed.

  Lemma log_unique n N paths e s s' : scenario_of_record n N paths e s -> scenario_of_record n N paths e s' -> s_log s = s_log s'.
  Proof.
    intros W W'. pose proof W as (_ & R & _ & Hb & _). pose proof W' as (_ & R' & _ & Hb' & _).
    assert (Rest : forall i t, i < n -> t < 91 -> exists p q, at2 (s_log s) i t = Some p /\ at2 (s_log s') i t = Some q /\ same_rest p q).
    { intros i t Hi Ht. destruct (rect_at2 _ _ _ _ _ R Hi Ht) as (x & Ex), (rect_at2 _ _ _ _ _ R' Hi Ht) as (y & Ey).
      exists x, y. repeat (split; [assumption|]). exact (recorded_unique e i t x y (log_recorded _ _ _ _ _ _ _ _ W Ex) (log_recorded _ _ _ _ _ _ _ _ W' Ey)). }
    assert (Val : forall i row row', nth_error (s_log s) i = Some row -> nth_error (s_log s') i = Some row' -> map p_valid row = map p_valid row').
    { intros i row row' Er Er'. apply nth_error_ext_eq. intros t. rewrite !nth_error_map.
      assert (Hi : i < n) by (rewrite <- (proj1 R); apply nth_error_Some; congruence).
      pose proof (rect_row _ _ _ _ _ R Er) as L. pose proof (rect_row _ _ _ _ _ R' Er') as L'.
      destruct (Nat.lt_ge_cases t 91) as [Ht|Ht].
      - destruct (Rest i t Hi Ht) as (p & q & Ep & Eq & Hs). unfold at2 in Ep, Eq. rewrite Er in Ep. rewrite Er' in Eq.
        rewrite Ep, Eq. cbn. f_equal. apply Hs.
      - rewrite (proj2 (nth_error_None row t)), (proj2 (nth_error_None row' t)) by lia. reflexivity. }
    assert (Box : forall name dim i row row' p q, In (name, dim) box_floats ->
      nth_error (s_log s) i = Some row -> nth_error (s_log s') i = Some row' -> In p row -> In q row' -> dim p = dim q).
    { intros name dim i row row' p q Hn Er Er' Hp Hq.
      destruct (Hb name dim i row Hn Er) as (z & Lz & Hz & Dz). destruct (Hb' name dim i row' Hn Er') as (z' & Lz' & Hz' & Dz').
      rewrite (Dz p Hp), (Dz' q Hq), (Val i row row' Er Er'). f_equal.
      apply nth_error_ext_eq. intros t. destruct (Nat.lt_ge_cases t 91) as [Ht|Ht].
      - destruct (step_parts t Ht) as (part & steps & from & k & Hin & Hk & -> & _).
        rewrite (Hz part steps from k Hin Hk), (Hz' part steps from k Hin Hk). reflexivity.
      - rewrite (proj2 (nth_error_None z t)), (proj2 (nth_error_None z' t)) by lia. reflexivity. }
    eapply rect_ext; eauto. intros i t Hi Ht. destruct (Rest i t Hi Ht) as (p & q & Ep & Eq & H1 & H2 & H3 & H4 & H5 & H6 & H7 & H8).
    rewrite Ep, Eq. f_equal. unfold at2 in Ep, Eq.
    destruct (nth_error (s_log s) i) as [row|] eqn:Er; [|discriminate].
    destruct (nth_error (s_log s') i) as [row'|] eqn:Er'; [|discriminate].
    pose proof (nth_error_In _ _ Ep) as Ip. pose proof (nth_error_In _ _ Eq) as Iq.
    assert (B1 : p_len p = p_len q) by (apply (Box "length"%string p_len i row row'); auto; cbn; auto).
    assert (B2 : p_wid p = p_wid q) by (apply (Box "width"%string p_wid i row row'); auto; cbn; auto).
    assert (B3 : p_hei p = p_hei q) by (apply (Box "height"%string p_hei i row row'); auto; cbn; auto).
    destruct p, q; cbn in *. congruence.
  Qed.

  Lemma scenario_unique n N paths e s s' : scenario_of_record n N paths e s -> scenario_of_record n N paths e s' -> s = s'.
  Proof.
    intros W W'. pose proof (log_unique _ _ _ _ _ _ W W') as EL.
    destruct W as (Et & R & _ & _ & Rs & S0 & Sz & Rt & Ht & Lm & Hm & (rg & Erg & Lrg & Hrg) & Hp).
    destruct W' as (Et' & R' & _ & _ & Rs' & S0' & Sz' & Rt' & Ht' & Lm' & Hm' & (rg' & Erg' & Lrg' & Hrg') & Hp').
    assert (ES : s_sim s = s_sim s').
    { eapply rect_ext; eauto. intros i t Hi Htt. destruct t as [|t].
      - rewrite S0, S0' by auto. now rewrite EL.
      - destruct (rect_at2 _ _ _ _ _ Rs Hi Htt) as (x & Ex), (rect_at2 _ _ _ _ _ Rs' Hi Htt) as (y & Ey).
        rewrite Ex, Ey. f_equal. rewrite (Sz i (Datatypes.S t) x), (Sz' i (Datatypes.S t) y); auto; lia. }
    assert (ET : s_tls s = s_tls s').
    { apply (rect_ext_P (fun l t x => exists part steps k, step_in t part steps k /\ light_of_record e part k l x) 16 91); auto.
      - intros l t x Hx. destruct (at2_Some_lt _ _ _ _ _ _ Rt Hx) as [_ Htt].
        destruct (step_parts t Htt) as (part & steps & from & k & Hin & Hk & -> & Hs). eauto 7.
      - intros l t x Hx. destruct (at2_Some_lt _ _ _ _ _ _ Rt' Hx) as [_ Htt].
        destruct (step_parts t Htt) as (part & steps & from & k & Hin & Hk & -> & Hs). eauto 7.
      - intros l t x y (pa & st & k & A & La) (pb & st' & k' & B & Lb).
        destruct (step_in_unique _ _ _ _ _ _ _ A B) as (-> & -> & ->). eapply light_unique; eauto. }
    assert (EM : s_meta s = s_meta s').
    { apply (nth_ext_P (object_of_record e)); auto; [congruence|]. apply object_unique. }
    assert (ER : rg = rg').
    { apply (nth_ext_P (road_point_of_record e)); auto; [congruence|]. apply road_unique. }
    assert (EP : s_paths s = s_paths s').
    { destruct paths as [[P K]|]; [|congruence].
      destruct Hp as (ps & -> & Lp & Hp), Hp' as (ps' & -> & Lp' & Hp'). f_equal.
      apply (nth_ext_P (fun i p => length (path_pts p) = K /\
          option_map nonzero (int_entry e "path_samples/on_route" i) = Some (path_on_route p) /\
          forall j q, nth_error (path_pts p) j = Some q -> path_point_of_record e K i j q)); auto; [congruence|].
      intros i [px bx] [py by_] (A1 & A2 & A3) (B1 & B2 & B3). cbn in *. rewrite A2 in B2. f_equal; [|congruence].
      apply (nth_ext_P (path_point_of_record e K i)); auto; [congruence|]. intros j. apply path_point_unique. }
    destruct s, s'; cbn in *. congruence.
  Qed.
End Unique.
