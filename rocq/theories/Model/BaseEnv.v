(** Model of waymax/env/base_environment.py and the episode-end functions of
    waymax/env/abstract_environment.py. *)
From Coq Require Import List ZArith Bool.
From Verif.Lib Require Import Base JaxIndex Scalar.
From Verif.Model Require Import Operations State Dynamics.
Import ListNotations.

(** config.py:173-224, the fields of EnvironmentConfig used by reset/step. *)
Record envcfg := mkcfg {
  c_max_num_objects : nat; c_init_steps : nat; c_controlled : objtype;
  c_allow_new_objects : bool }.

Section BaseEnv.
  Context {S : Scalar}.

  (** base_environment.py:200-217, _get_control_mask. *)
  Definition env_control_mask (s : state) (c : envcfg) : res (list bool) :=
    match c_controlled c, c_allow_new_objects c with
    | VALID, false =>
        dynamic_index (map (map p_valid) (s_sim s)) (Z.of_nat (c_init_steps c) - 1)
    | ty, _ => get_control_mask (s_meta s) ty
    end.

  (** base_environment.py:64-92, reset. *)
  Definition env_reset (c : envcfg) (s : state) : res state :=
    let* _ := guard (c_max_num_objects c =? length (s_log s))%nat AssertionError in
    update_state_by_log
      (mkstate (fill_invalid_trajectory (s_log s)) (s_log s) (s_tls s) (s_meta s)
         (-1) (s_paths s) (s_rg s))
      (c_init_steps c).

  (** base_environment.py:114-142, step. *)
  Definition env_step (d : dynamics) (c : envcfg) (s : state) (a : list act)
    : res state :=
    let* is_controlled := env_control_mask s c in
    let* sim' := forward d a (s_sim s) (s_log s) is_controlled (s_t s)
                   (c_allow_new_objects c) in
    Ok (mkstate sim' (s_log s) (s_tls s) (s_meta s) (s_t s + 1)
          (s_paths s) (s_rg s)).

  (** abstract_environment.py:129-144, termination. *)
  Definition termination (_ : state) : bool := false.

  (** abstract_environment.py:146-163, truncation. *)
  Definition truncation (s : state) : bool := (remaining_timesteps s <? 1)%Z.

  (** Any number of environment steps, one action array per step. *)
  Fixpoint env_steps (d : dynamics) (c : envcfg) (s : state) (acts : list (list act))
    : res state :=
    match acts with
    | [] => Ok s
    | a :: rest => let* s' := env_step d c s a in env_steps d c s' rest
    end.
End BaseEnv.
