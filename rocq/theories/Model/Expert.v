(** Model of waymax/agents/expert.py. *)
From Coq Require Import List ZArith Bool.
From Verif.Lib Require Import Base JaxIndex Scalar.
From Verif.Model Require Import Operations State Dynamics.
Import ListNotations.

Section Expert.
  Context {S : Scalar}.

  (** expert.py:31-61, infer_expert_action: current simulated frame and next
      logged frame concatenated along time, then inverse at timestep 0. *)
  Definition infer_expert_action (d : dynamics) (s : state) : res (list act) :=
    let* prev := dynamic_slice (s_sim s) (s_t s) 1 in
    let* next := dynamic_slice (s_log s) (s_t s + 1) 1 in
    d_inverse d (map2 (@app pt) prev next) (s_meta s) 0.
End Expert.
