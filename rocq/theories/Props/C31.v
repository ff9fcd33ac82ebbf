(** C31: merging the actions of several actors. *)
From Coq Require Import List ZArith QArith Lia Bool Permutation.
From Verif.Lib Require Import Base JaxIndex Scalar QScalar.
From Verif.Model Require Import Operations State Dynamics Actor.
From Verif.Spec Require Import StateSpec PlanSpec.
From Verif.Proofs Require Import P_Actor P_Agents.
From Verif.Props Require Import Ex.
Import ListNotations.
Open Scope nat_scope.

(** Every object gets the action of the last actor that claims it, where the
    first actor counts only for objects nobody after it claims: its own mask is
    not looked at. *)
Theorem C31_last_claim_wins {S : Scalar} {X} (o : output X) rest m :
  merge_actions (o :: rest) = Ok m ->
  length m = length (o_action o) /\
  forall i,
    (forall o', last_claim rest i o' -> nth_error m i = nth_error (o_action o') i) /\
    (unclaimed rest i -> nth_error m i = nth_error (o_action o) i).
Proof. exact (merge_spec o rest m). Qed.

(** Each object is in one of the two cases. *)
Theorem C31_cases_exhaustive {S : Scalar} {X} (rest : list (output X)) i :
  (exists o, last_claim rest i o) \/ unclaimed rest i.
Proof. exact (claim_cases rest i). Qed.

(** Merging succeeds exactly when every later output has as many objects and
    action columns as the first; it never succeeds without actors. *)
Theorem C31_total_iff_shapes_agree {S : Scalar} {X} (o : output X) rest :
  (exists m, merge_actions (o :: rest) = Ok m) <-> Forall (fits (o_action o)) rest.
Proof. exact (merge_Ok_iff o rest). Qed.

Theorem C31_no_actor_fails {S : Scalar} {X} :
  merge_actions (X := X) [] = Err NotImplementedError.
Proof. reflexivity. Qed.

(** With disjoint claims the order of the actors after the first is irrelevant. *)
Theorem C31_order_irrelevant {S : Scalar} {X} (o : output X) rest rest' :
  Permutation rest rest' -> disjoint_claims rest ->
  forall m, merge_actions (o :: rest) = Ok m -> merge_actions (o :: rest') = Ok m.
Proof. exact (merge_permutation o rest rest'). Qed.

(** The built-in actors (expert, constant speed, sim agents) claim exactly the
    objects their control function names in the current state. *)
Theorem C31_builtin_actors_claim_controlled {S : Scalar} {P X K} none d ctrl speed upd (ag : actor P X K) :
  ag = expert_actor none d ctrl \/ ag = constant_speed_actor none d ctrl speed \/
  ag = sim_agent none ctrl upd ->
  forall p s x k o, ac_select ag p s x k = Ok o ->
  forall i, claims (S := S) o i <-> nth_error (ctrl s) i = Some true.
Proof. exact (builtin_claims none d ctrl speed upd ag). Qed.

(** The position of the first actor does matter, even with disjoint claims: an
    object nobody claims moves by the first actor's action. *)
Theorem C31_first_actor_matters_refuted :
  exists (o1 o2 : @output QS unit) m m', disjoint_claims [o1; o2] /\
    merge_actions [o1; o2] = Ok m /\ merge_actions [o2; o1] = Ok m' /\ m <> m'.
Proof.
  exists (mkout tt [sact 1 0; sact 2 0] [true; false]),
         (mkout tt [sact 3 0; sact 4 0] [false; false]).
  eexists _, _. split; [|split; [reflexivity|split; [reflexivity|]]].
  - intros i o o' Ho Ho' C C'. unfold claims in *. simpl in Ho, Ho'.
    destruct Ho as [<-|[<-|[]]], Ho' as [<-|[<-|[]]]; auto; cbn [o_controlled] in C, C';
      destruct i as [|[|[|]]]; simpl in C, C'; discriminate.
  - intros E. apply (f_equal (fun l : list (@act QS) => match nth_error l 1 with
      | Some a => match a_data a with x :: _ => Qnum (x : Q) | [] => 0%Z end | None => 0%Z end)) in E.
    vm_compute in E. discriminate.
Qed.

(** Non-vacuity: three actors; object 0 is claimed by nobody, object 1 by the
    second, object 2 by both later ones. *)
Definition o_a : output unit := mkout tt [sact 1 0; sact 2 0; sact 3 0] [true; true; true].
Definition o_b : output unit := mkout tt [sact 4 0; sact 5 0; sact 6 0] [false; true; true].
Definition o_c : output unit := mkout tt [sact 7 0; sact 8 0; sact 9 0] [false; false; true].
Example C31_ex : merge_actions [o_a; o_b; o_c] = Ok [sact 1 0; sact 5 0; sact 9 0].
Proof. reflexivity. Qed.
Example C31_ex_claims : unclaimed [o_b; o_c] 0 /\ last_claim [o_b; o_c] 1 o_b /\
  last_claim [o_b; o_c] 2 o_c /\ Forall (fits (o_action o_a)) [o_b; o_c].
Proof.
  repeat split.
  - intros o [<-|[<-|[]]]; discriminate.
  - exists [], [o_c]. repeat split. intros o [<-|[]]; discriminate.
  - exists [o_b], []. repeat split. intros o [].
  - repeat (constructor; [repeat constructor|]). constructor.
Qed.
(** Disjoint claims in two orders. *)
Definition o_d : output unit := mkout tt [sact 10 0; sact 11 0; sact 12 0] [true; false; false].
Example C31_ex_order :
  disjoint_claims [o_d; o_b] /\ Permutation [o_d; o_b] [o_b; o_d] /\
  merge_actions [o_a; o_d; o_b] = Ok [sact 10 0; sact 5 0; sact 6 0] /\
  merge_actions [o_a; o_b; o_d] = Ok [sact 10 0; sact 5 0; sact 6 0].
Proof.
  split; [|repeat split; try reflexivity; apply perm_swap].
  intros i o o' Ho Ho' C C'. unfold claims in *.
  destruct Ho as [<-|[<-|[]]], Ho' as [<-|[<-|[]]]; auto; exfalso;
    destruct i as [|[|[|[|]]]]; simpl in C, C'; discriminate.
Qed.

Print Assumptions C31_last_claim_wins.
Print Assumptions C31_total_iff_shapes_agree.
Print Assumptions C31_order_irrelevant.
