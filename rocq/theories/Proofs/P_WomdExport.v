(** Lemmas for writing a state to a WOMD dictionary. *)
From Coq Require Import String.
From Coq Require Import List ZArith Bool Arith Lia.
From Verif.Lib Require Import Base JaxIndex Scalar.
From Verif.Model Require Import Operations State Metrics Masked Womd WomdState.
From Verif.Spec Require Import WomdSpec.
From Verif.Proofs Require Import Core P_Womd P_WomdState.
Import ListNotations.
Local Open Scope nat_scope.

Section Export.
  Context {S : Scalar}.

  Lemma Ok_eq {A} (a b : A) : Ok a = Ok b -> a = b.
  Proof. congruence. Qed.

  Lemma getf_In fd k f : getf fd k = Ok f -> In (k, f) fd.
  Proof.
    induction fd as [|[a v] fd IH]; cbn; [discriminate|].
    destruct (String.eqb_spec k a) as [->|]; intros H; [injection H as <-; auto|auto].
  Qed.

  Lemma In_getf fd k f : NoDup (map fst fd) -> In (k, f) fd -> getf fd k = Ok f.
  Proof.
    induction fd as [|[a v] fd IH]; cbn [map fst getf]; intros N H; [contradiction|].
    inversion N as [|? ? Ha Nd]; subst. destruct (String.eqb_spec k a) as [->|Ne].
    - destruct H as [H|H]; [congruence|]. exfalso. apply Ha. apply (in_map fst) in H. exact H.
    - destruct H as [H|H]; [congruence|]. auto.
  Qed.

  Lemma In_same (fd : features) k (f g : feature) : NoDup (map fst fd) -> In (k, f) fd -> In (k, g) fd -> f = g.
  Proof. intros N H1 H2. apply In_getf in H1, H2; auto. congruence. Qed.

  (** Reshaping to the same shape, and adding or removing a last axis of size 1. *)
  Lemma reshape_2 n m i j : i < n -> j < m -> unravel [n; m] (ravel [n; m] [i; j]) = [i; j].
  Proof.
    intros Hi Hj. cbn [ravel unravel size fold_right]. rewrite !Nat.mul_1_r, !Nat.add_0_r, Nat.div_1_r.
    replace ((i * m + j) / m) with i by (rewrite Nat.div_add_l, Nat.div_small by lia; lia).
    replace ((i * m + j) mod m) with j; [reflexivity|].
    rewrite (Nat.add_comm (i * m)), Nat.mod_add, Nat.mod_small by lia. reflexivity.
  Qed.
  Lemma reshape_1 n i : unravel [n] (ravel [n] [i]) = [i].
  Proof. cbn [ravel unravel size fold_right]. rewrite Nat.mul_1_r, Nat.add_0_r, Nat.div_1_r. reflexivity. Qed.
  Lemma reshape_1_21 n i : unravel [n] (ravel [n; 1] [i; 0]) = [i].
  Proof. cbn [ravel unravel size fold_right]. rewrite !Nat.mul_1_r, !Nat.add_0_r, Nat.div_1_r. reflexivity. Qed.

  Lemma reshape_Ok t sh r : reshape t sh = Ok r ->
    size (dims t) = size sh /\ dims r = sh /\ forall idx, cell r idx = cell t (unravel (dims t) (ravel sh idx)).
  Proof.
    unfold reshape. intros H. apply bind_Ok in H as (u & G & H). apply guard_Ok, Nat.eqb_eq in G.
    injection H as <-. auto.
  Qed.

  Lemma mapM_keys {A : Type} (f : string * A -> res (string * tensor)) l out :
    (forall x y, f x = Ok y -> fst y = fst x) -> mapM f l = Ok out -> map fst out = map fst l.
  Proof.
    intros Hf. revert out. induction l as [|a l IH]; intros out H; cbn [mapM] in H.
    - injection H as <-. reflexivity.
    - apply bind_Ok in H as (b & Hb & H). apply bind_Ok in H as (bs & Hbs & H). injection H as <-.
      cbn [map]. f_equal; auto.
  Qed.

  (** The pieces of a successful export. *)
  Lemma export_Ok s fd val out : simulator_state_to_womd_dict s fd val = Ok out ->
    exists yaw pre h cur past cur_tl past_tl rg fut fut_tl,
      getf fd "state/past/bbox_yaw" = Ok yaw /\ ft_shape yaw = pre ++ [h] /\
      (val = true -> s_t s = Z.of_nat h) /\
      dynamic_slice (s_sim s) (s_t s) 1 = Ok cur /\
      dynamic_slice (s_sim s) (s_t s - Z.of_nat h) h = Ok past /\
      dynamic_slice (s_tls s) (s_t s) 1 = Ok cur_tl /\
      dynamic_slice (s_tls s) (s_t s - Z.of_nat h) h = Ok past_tl /\
      s_rg s = Some rg /\ 1 <= length (s_sim s) /\
      get_invalid_future_trajectory fd = Ok fut /\ get_invalid_future_traffic_light fd = Ok fut_tl /\
      map fst out = map fst fd /\
      (NoDup (map fst fd) -> forall name ft, In (name, ft) fd -> exists v,
         get (export_values s rg h cur past cur_tl past_tl fut fut_tl) name = Some v /\
         size (dims v) = size (ft_shape ft) /\ has out name (ft_shape ft) /\
         forall idx, value out name idx = Some (cast (ft_dtype ft) (cell v (unravel (dims v) (ravel (ft_shape ft) idx))))).
  Proof.
    unfold simulator_state_to_womd_dict. intros H.
    apply bind_Ok in H as (yaw & Hyaw & H). apply bind_Ok in H as (h & Hh & H).
    apply bind_Ok in H as (u & G & H). apply guard_Ok in G.
    apply bind_Ok in H as (cur & H1 & H). apply bind_Ok in H as (past & H2 & H).
    apply bind_Ok in H as (cur_tl & H3 & H). apply bind_Ok in H as (past_tl & H4 & H).
    apply bind_Ok in H as (rg & H5 & H). apply bind_Ok in H as (u' & H6 & H). apply guard_Ok, Nat.leb_le in H6.
    apply bind_Ok in H as (fut & H7 & H). apply bind_Ok in H as (fut_tl & H8 & H). cbv zeta in H.
    destruct (rev (ft_shape yaw)) as [|h' pre] eqn:Er; [discriminate|]. injection Hh as ->.
    exists yaw, (rev pre), h, cur, past, cur_tl, past_tl, rg, fut, fut_tl.
    split; [exact Hyaw|]. split; [rewrite <- (rev_involutive (ft_shape yaw)), Er; reflexivity|].
    split; [intros ->; cbn in G; apply Z.eqb_eq in G; lia|].
    do 4 (split; [assumption|]).
    split; [destruct (s_rg s); congruence|]. do 3 (split; [assumption|]).
    set (values := export_values _ _ _ _ _ _ _ _ _) in *.
    assert (K : map fst out = map fst fd).
    { eapply mapM_keys; [|exact H]. intros x y E. apply bind_Ok in E as (v & _ & E).
      apply bind_Ok in E as (r & _ & E). injection E as <-. reflexivity. }
    split; [exact K|]. intros N name ft Hin.
    destruct (mapM_In _ _ _ H) as [_ I]. destruct (I _ Hin) as (b & Hb & Eb).
    apply bind_Ok in Eb as (v & Hv & Eb). apply bind_Ok in Eb as (r & Hr & Eb). injection Eb as <-.
    cbn [fst snd] in *. apply getk_Ok in Hv. apply reshape_Ok in Hr as (Sz & Dr & Cr).
    exists v. split; [exact Hv|]. split; [exact Sz|].
    assert (E : get out name = Some (mkT (dims r) (fun idx => cast (ft_dtype ft) (cell r idx))))
      by (apply In_get; [rewrite K; exact N|exact Hb]).
    split; [eexists; split; [exact E|exact Dr]|]. intros idx. unfold value. rewrite E. cbn. now rewrite Cr.
  Qed.

  Lemma get_update d d' k : get (update d d') k = match get (rev d') k with Some v => Some v | None => get d k end.
  Proof. apply fold_dset_get. Qed.

  Lemma fut_tl_get fd fut_tl k : get_invalid_future_traffic_light fd = Ok fut_tl ->
    contains "traffic_light_state/future" k = false -> get (rev fut_tl) k = None.
  Proof.
    intros H C. apply get_None. rewrite map_rev, <- in_rev. unfold get_invalid_future_traffic_light in H.
    apply mapM_keys in H; [|intros [a [sh []]] y E; cbn in E; try discriminate; injection E as <-; reflexivity].
    rewrite H. intros Hin. apply in_map_iff in Hin as ([a v] & <- & Hin). apply filter_In in Hin as [_ Hin]. cbn in *. congruence.
  Qed.

  Lemma fut_Ok fd fut : get_invalid_future_trajectory fd = Ok fut -> exists fv n T,
    getf fd "state/future/valid" = Ok fv /\ ft_shape fv = [n; T] /\
    forall k, get (rev fut) k =
      get ((("state/future/valid", tensor2 n T (fun _ _ => VI (-1)))
        :: ("state/future/vel_yaw", tensor2 n T (fun _ _ => VF fm1))
        :: ("state/future/speed", tensor2 n T (fun _ _ => VF fm1))
        :: trajectory_to_dict (repeat (repeat invalid_pt T) n) n T "future")%string) k.
  Proof.
    unfold get_invalid_future_trajectory. intros H. apply bind_Ok in H as (fv & Hv & H).
    destruct (ft_shape fv) as [|n [|T [|]]] eqn:E; try discriminate. exists fv, n, T.
    split; [exact Hv|]. split; [exact E|]. apply Ok_eq in H. subst fut. intros k. rewrite get_rev.
    - rewrite !get_dset. cbn [get]. unfold speed, vel_yaw. cbn. reflexivity.
    - do 3 apply dset_keys. cbn. repeat constructor; cbn; intuition discriminate.
  Qed.

  Ltac table H := cbn in H; repeat (destruct H as [H|H]); try contradiction; injection H as <- <-.

  Section Values.
    Context (s : state) (fd : features) (rg : list rgpt) (h : nat) (cur past : traj)
      (cur_tl past_tl : list (list tlight)) (fut fut_tl : dict).
    Hypothesis (Hf : get_invalid_future_trajectory fd = Ok fut) (Hl : get_invalid_future_traffic_light fd = Ok fut_tl).
    Let values := export_values s rg h cur past cur_tl past_tl fut fut_tl.

    Ltac look := unfold values, export_values; rewrite !get_update;
      rewrite (fut_tl_get _ _ _ Hl) by reflexivity;
      destruct (fut_Ok _ _ Hf) as (fv & n' & T' & _ & _ & ->); reflexivity.

    Lemma values_past f g : In (f, g) frame_values -> get values (state_key "past" f) =
      Some (tensor2 (length (s_sim s)) h (fun i t => g (nth t (nth i past []) zero_pt))).
    Proof. intros H. table H; look. Qed.
    Lemma values_current f g : In (f, g) frame_values -> get values (state_key "current" f) =
      Some (tensor2 (length (s_sim s)) 1 (fun i t => g (nth t (nth i cur []) zero_pt))).
    Proof. intros H. table H; look. Qed.
    Lemma values_past_light f g : In (f, g) light_values -> get values (light_key "past" f) =
      Some (tensor2 h (length past_tl) (fun t l => g (nth t (nth l past_tl []) (mktl f0 f0 f0 0 0 false)))).
    Proof. intros H. table H; look. Qed.
    Lemma values_current_light f g : In (f, g) light_values -> get values (light_key "current" f) =
      Some (tensor2 1 (length cur_tl) (fun t l => g (nth t (nth l cur_tl []) (mktl f0 f0 f0 0 0 false)))).
    Proof. intros H. table H; look. Qed.
    Lemma values_past_stamps : get values (light_key "past" "timestamp_micros") =
      Some (tensor1 h (fun t => VI (nth t (map p_ts (nth 0 past [])) 0%Z))).
    Proof. look. Qed.
    Lemma values_current_stamps : get values (light_key "current" "timestamp_micros") =
      Some (tensor1 1 (fun t => VI (nth t (map p_ts (nth 0 cur [])) 0%Z))).
    Proof. look. Qed.
    Lemma values_meta k g : In (k, g) object_values -> get values k =
      Some (tensor1 (length (s_meta s)) (fun i =>
        match nth_error (s_meta s) i with
        | Some m => VI (where_ (m_is_valid m) (g m) (-1)%Z)
        | None => VI (-1)
        end)).
    Proof. intros H. table H; look. Qed.
    Lemma values_road k gs : In (k, gs) road_values -> exists v, get values k = Some v /\
      dims v = (if length gs =? 3 then [length rg; 3] else [length rg]) /\
      forall i c g r, nth_error gs c = Some g -> nth_error rg i = Some r ->
        cell v (if length gs =? 3 then [i; c] else [i]) = g r.
    Proof.
      intros H. table H; (eexists; split; [look|split; [reflexivity|]]; intros i c g r Hg Hr;
        cbn; rewrite (nth_error_nth rg i _ Hr);
        destruct c as [|[|[|c]]]; cbn in Hg; try discriminate; try (injection Hg as <-; reflexivity); destruct c; discriminate).
    Qed.
    Lemma values_future f : In f (map fst frame_values) -> exists n T v,
      getf fd "state/future/valid" = Ok v /\ ft_shape v = [n; T] /\
      exists a, get values (state_key "future" f) = Some a /\ dims a = [n; T] /\
        forall i t, i < n -> t < T ->
          cell a [i; t] = if (String.eqb f "valid" || String.eqb f "timestamp_micros")%bool then VI (-1) else VF fm1.
    Proof.
      intros H. unfold values, export_values. rewrite !get_update.
      rewrite (fut_tl_get _ _ _ Hl) by (cbn in H; repeat (destruct H as [<-|H]); try contradiction; reflexivity).
      destruct (fut_Ok _ _ Hf) as (fv & n & T & E1 & E2 & E3). exists n, T, fv. split; [exact E1|]. split; [exact E2|].
      rewrite E3. cbn in H. repeat (destruct H as [<-|H]); try contradiction;
        (eexists; split; [reflexivity|split; [reflexivity|]]; intros i t Hi Ht; cbn;
         rewrite ?(nth_error_nth (repeat _ n) i _ (nth_error_repeat _ Hi)), ?(nth_error_nth (repeat _ T) t _ (nth_error_repeat _ Ht));
         reflexivity).
    Qed.
    Lemma values_future_light name ft : NoDup (map fst fd) -> In (name, ft) fd ->
      contains "traffic_light_state/future" name = true ->
      exists a, get values name = Some a /\ dims a = ft_shape ft /\
        forall idx, match ft_dtype ft with DInt => cell a idx = VI (-1) | DFloat => cell a idx = VF (f1 * fm1)%F | DBool => False end.
    Proof.
      intros N Hin C. unfold values, export_values. rewrite get_update. unfold get_invalid_future_traffic_light in Hl.
      assert (K : map fst fut_tl = map fst (filter (fun nf => contains "traffic_light_state/future" (fst nf)) fd)).
      { apply mapM_keys in Hl; auto. intros [a [sh []]] y E; cbn in E; try discriminate; injection E as <-; reflexivity. }
      destruct (mapM_In _ _ _ Hl) as [_ I]. destruct (I (name, ft)) as (b & Hb & Eb).
      { apply filter_In. split; auto. }
      assert (N' : NoDup (map fst fut_tl)).
      { rewrite K. clear - N. induction fd as [|[a v] l IH]; [constructor|]. cbn [map fst] in N. inversion N as [|? ? Ha Nd]; subst.
        cbn [filter fst]. destruct (contains _ a); auto. cbn [map fst]. constructor; auto.
        intros Hi. apply Ha. apply in_map_iff in Hi as (x & <- & Hx). apply filter_In in Hx as [Hx _]. now apply in_map. }
      cbn [fst snd] in Eb. destruct (ft_dtype ft); try discriminate; apply Ok_eq in Eb; subst b;
        (rewrite get_rev, (In_get _ _ _ N' Hb) by auto; eexists; split; [reflexivity|split; reflexivity]).
    Qed.
  End Values.

  Lemma nth_at2 {A} (m : list (list A)) i t a d : at2 m i t = Some a -> nth t (nth i m []) d = a.
  Proof.
    unfold at2. destruct (nth_error m i) as [r|] eqn:E; [|discriminate]. intros H.
    rewrite (nth_error_nth m i [] E). now apply nth_error_nth.
  Qed.

  (** All entries of an export whose window of h frames starts at [from]. *)
  Lemma export_all s fd val out n L T t yaw pre h from :
    NoDup (map fst fd) -> scene n L T t s ->
    getf fd "state/past/bbox_yaw" = Ok yaw -> ft_shape yaw = pre ++ [h] -> 
    norm_start (Z.of_nat t - Z.of_nat h) T h = from ->
    simulator_state_to_womd_dict s fd val = Ok out ->
    h <= T /\ map fst out = map fst fd /\ (forall name ft, In (name, ft) fd -> has out name (ft_shape ft)) /\
    exported_frames s fd out "current" n 1 t /\ exported_frames s fd out "past" n h from /\
    exported_lights s fd out "current" L 1 t /\ exported_lights s fd out "past" L h from /\
    exported_stamps s fd out "current" 1 t /\ exported_stamps s fd out "past" h from /\
    (forall k g dt i m, In (k, g) object_values -> In (k, mkfeat [n] dt) fd -> nth_error (s_meta s) i = Some m ->
       value out k [i] = Some (cast dt (VI (if m_is_valid m then g m else (-1)%Z)))) /\
    (exists rg, s_rg s = Some rg /\
     forall k gs g dt i c r, In (k, gs) road_values -> In (k, mkfeat [length rg; length gs] dt) fd ->
       nth_error gs c = Some g -> nth_error rg i = Some r -> value out k [i; c] = Some (cast dt (g r))).
  Proof.
    intros N (Rs & Rl & Lm & Et & Ht & Hn) Hyaw Hsh Hfrom H.
    destruct (export_Ok _ _ _ _ H) as (yaw' & pre' & h' & cur & past & cur_tl & past_tl & rg & fut & fut_tl
      & E1 & E2 & _ & E4 & E5 & E6 & E7 & E8 & E9 & E10 & E11 & E12 & E13).
    assert (yaw' = yaw) by congruence. subst yaw'. rewrite E2 in Hsh. apply app_inj_tail in Hsh as [-> ->].
    rewrite Et in E4, E5, E6, E7.
    assert (HT : h <= T).
    { unfold dynamic_slice in E5. destruct (s_sim s) as [|r rs] eqn:Es; [destruct Rs; cbn in *; lia|].
      cbn [mapM] in E5. apply bind_Ok in E5 as (r' & E5 & _). apply dyn_slice_Ok in E5 as [E5 _].
      rewrite (proj2 Rs r) in E5 by (left; reflexivity). exact E5. }
    specialize (E13 N).
    destruct (dynamic_slice_Ok _ _ _ _ _ _ Rs E4) as [Rc Ac]. destruct (dynamic_slice_Ok _ _ _ _ _ _ Rs E5) as [Rp Ap].
    destruct (dynamic_slice_Ok _ _ _ _ _ _ Rl E6) as [Rcl Acl]. destruct (dynamic_slice_Ok _ _ _ _ _ _ Rl E7) as [Rpl Apl].
    rewrite (norm_start_of_nat t T 1) in Ac, Acl by lia. rewrite Hfrom in Ap, Apl.
    assert (Ln : length (s_sim s) = n) by apply Rs.
    split; [exact HT|]. split; [exact E12|].
    split; [intros name ft Hin; destruct (E13 _ _ Hin) as (v & _ & _ & Hh & _); exact Hh|].
    (* two-dimensional arrays *)
    assert (G2 : forall name a b dt u i k, In (name, mkfeat [a; b] dt) fd ->
       get (export_values s rg h cur past cur_tl past_tl fut fut_tl) name = Some (tensor2 a b u) ->
       i < a -> k < b -> value out name [i; k] = Some (cast dt (u i k))).
    { intros name a b dt u i k Hin Hg Hi Hk. destruct (E13 _ _ Hin) as (v & Hv & _ & _ & Hval).
      rewrite Hg in Hv. injection Hv as <-. rewrite Hval. cbn [ft_shape ft_dtype dims tensor2 cell].
      rewrite reshape_2 by auto. reflexivity. }
    assert (G1 : forall name a dt u i, In (name, mkfeat [a] dt) fd ->
       get (export_values s rg h cur past cur_tl past_tl fut fut_tl) name = Some (tensor1 a u) ->
       value out name [i] = Some (cast dt (u i))).
    { intros name a dt u i Hin Hg. destruct (E13 _ _ Hin) as (v & Hv & _ & _ & Hval).
      rewrite Hg in Hv. injection Hv as <-. rewrite Hval. cbn [ft_shape ft_dtype dims tensor1 cell].
      rewrite reshape_1. reflexivity. }
    assert (Lt : forall l k x, at2 (s_tls s) l k = Some x -> l < L /\ k < T)
      by (intros l k x E; now apply (at2_Some_lt _ _ _ _ _ _ Rl) in E).
    assert (St : forall i k x, at2 (s_sim s) i k = Some x -> i < n /\ k < T)
      by (intros i k x E; now apply (at2_Some_lt _ _ _ _ _ _ Rs) in E).
    split; [|split; [|split; [|split; [|split; [|split; [|split]]]]]].
    - intros f g dt i k p Hf Hin Hk Hp. destruct (St _ _ _ Hp) as [Hi _].
      rewrite (G2 _ _ _ _ (fun i t => g (nth t (nth i cur []) zero_pt)) _ _ Hin); auto.
      + rewrite (nth_at2 _ _ _ p) by (rewrite Ac; auto). reflexivity.
      + rewrite (values_current s fd) with (g := g) by auto. rewrite Ln. reflexivity.
    - intros f g dt i k p Hf Hin Hk Hp. destruct (St _ _ _ Hp) as [Hi _].
      rewrite (G2 _ _ _ _ (fun i t => g (nth t (nth i past []) zero_pt)) _ _ Hin); auto.
      + rewrite (nth_at2 _ _ _ p) by (rewrite Ap; auto). reflexivity.
      + rewrite (values_past s fd) with (g := g) by auto. rewrite Ln. reflexivity.
    - intros f g dt l k x Hf Hin Hk Hx. destruct (Lt _ _ _ Hx) as [Hlt _].
      rewrite (G2 _ _ _ _ (fun t l => g (nth t (nth l cur_tl []) (mktl f0 f0 f0 0 0 false))) _ _ Hin); auto.
      + rewrite (nth_at2 _ _ _ x) by (rewrite Acl; auto). reflexivity.
      + rewrite (values_current_light s fd) with (g := g) by auto. rewrite (proj1 Rcl). reflexivity.
    - intros f g dt l k x Hf Hin Hk Hx. destruct (Lt _ _ _ Hx) as [Hlt _].
      rewrite (G2 _ _ _ _ (fun t l => g (nth t (nth l past_tl []) (mktl f0 f0 f0 0 0 false))) _ _ Hin); auto.
      + rewrite (nth_at2 _ _ _ x) by (rewrite Apl; auto). reflexivity.
      + rewrite (values_past_light s fd) with (g := g) by auto. rewrite (proj1 Rpl). reflexivity.
    - intros dt k p Hin Hk Hp.
      rewrite (G1 _ _ _ _ _ Hin (values_current_stamps s fd rg h cur past cur_tl past_tl fut fut_tl E10 E11)). do 3 f_equal.
      change 0%Z with (p_ts zero_pt). rewrite map_nth, (nth_at2 _ _ _ p) by (rewrite Ac; auto). reflexivity.
    - intros dt k p Hin Hk Hp.
      rewrite (G1 _ _ _ _ _ Hin (values_past_stamps s fd rg h cur past cur_tl past_tl fut fut_tl E10 E11)). do 3 f_equal.
      change 0%Z with (p_ts zero_pt). rewrite map_nth, (nth_at2 _ _ _ p) by (rewrite Ap; auto). reflexivity.
    - intros k g dt i m Hk Hin Hm.
      pose proof (values_meta s fd rg h cur past cur_tl past_tl fut fut_tl E10 E11 k g Hk) as Hg. rewrite Lm in Hg.
      rewrite (G1 _ _ _ _ _ Hin Hg), Hm. unfold where_. reflexivity.
    - exists rg. split; [exact E8|]. intros k gs g dt i c r Hk Hin Hc Hr.
      destruct (values_road s fd rg h cur past cur_tl past_tl fut fut_tl E10 E11 k gs Hk) as (v & Hv & Dv & Cv).
      destruct (E13 _ _ Hin) as (v' & Hv' & _ & _ & Hval). rewrite Hv in Hv'. injection Hv' as <-. rewrite Hval.
      cbn [ft_shape ft_dtype]. rewrite Dv. rewrite <- (Cv i c g r Hc Hr).
      pose proof (nth_error_Some_lt _ _ _ Hr) as Hi. pose proof (nth_error_Some_lt _ _ _ Hc) as Hcl.
      assert (Lg : length gs = 3 \/ length gs = 1) by (table Hk; cbn; auto).
      destruct Lg as [Lg|Lg]; rewrite Lg in *; cbn [Nat.eqb].
      + rewrite reshape_2 by auto. reflexivity.
      + replace c with 0 by lia. rewrite reshape_1_21. reflexivity.
  Qed.
End Export.
