(** Model of waymax/env/planning_agent_environment.py. *)
From Coq Require Import String.
From Coq Require Import List ZArith Bool.
From Verif.Lib Require Import Base JaxIndex Scalar.
From Verif.Model Require Import Operations State Dynamics Dyn_State Geometry Discretizer
  Comfort Metrics BaseEnv Expert Actor.
Import ListNotations.

(** Shape of an array. *)
Definition shape := list nat.

(** x[..., newaxis] followed by jnp.repeat(_, n, axis=-1). *)
Definition tile_last (sh : shape) (n : nat) : shape := sh ++ [n].

(** x[..., newaxis, :] followed by jnp.repeat(_, n, axis=-2); an array without
    axes has too few indices. *)
Definition tile_second_last (sh : shape) (n : nat) : res shape :=
  match rev sh with
  | [] => Err IndexError
  | d :: r => Ok (rev r ++ [n; d])
  end.

(** action.py:48-52, Action.validate on the shapes of data and valid:
    equal prefixes up to the rank of valid minus one, last axis of valid 1. *)
Definition action_validate (data valid : shape) : res unit :=
  let k := (length valid - 1)%nat in
  let* _ := guard ((k <=? length data)%nat
                   && forallb (fun b => b) (map2 Nat.eqb (firstn k data) (firstn k valid)))
                  AssertionError in
  guard (match rev valid with d :: _ => (d =? 1)%nat | [] => false end) AssertionError.

Section PlanningEnv.
  Context {S : Scalar} {P X K : Type}.

  (** planning_agent_environment.py:149-161, PlanningAgentSimulatorState. *)
  Record pstate := mkps { ps_state : state; ps_actors : list X }.

  (** planning_agent_environment.py:175-208: the attributes set by the
      constructor, with the configuration fields they come from. *)
  Record penv := mkpenv {
    pe_dyn : dynamics; pe_cfg : envcfg;
    pe_rewards : list (string * F); pe_metrics : list string; pe_compute_reward : bool;
    pe_agents : list (actor P X K); pe_params : list P }.

  (** planning_agent_environment.py:175-208, the constructor. *)
  Definition is_SDC (ty : objtype) : bool := match ty with SDC => true | _ => false end.
  Definition make_penv (reg : registry) (e : penv) : res penv :=
    let* _ := make_linear_reward reg (pe_rewards e) in
    let* _ := guard (is_SDC (c_controlled (pe_cfg e))) ValueError in
    let* _ := guard (length (pe_agents e) =? length (pe_params e))%nat ValueError in
    Ok e.

  (** jax.random.split(rng, n): entry i of the n new keys. *)
  Variable split : K -> nat -> nat -> K.

  (** planning_agent_environment.py:242-245 and 394-397. *)
  Definition split_keys (rng : option K) (n : nat) : list (option K) :=
    match rng with
    | Some k => map (fun i => Some (split k n i)) (seq 0 n)
    | None => repeat None n
    end.

  (** planning_agent_environment.py:214-253, reset. *)
  Definition penv_reset (e : penv) (s : state) (rng : option K) : res pstate :=
    let* s0 := env_reset (pe_cfg e) s in
    let* xs := mapM (fun ka => ac_init (snd ka) (fst ka) s0)
                 (combine (split_keys rng (length (pe_agents e))) (pe_agents e)) in
    Ok (mkps s0 xs).

  (** planning_agent_environment.py:47-65, PlanningAgentDynamics.compute_update:
      the one action, with data (dim,) and valid (1,), is repeated for every
      object. *)
  Definition planning_update (d : dynamics) (a : act) (cur : list pt) : res (list upd) :=
    d_update d (repeat a (length cur)) cur.

  (** planning_agent_environment.py:67-118, PlanningAgentDynamics.forward for an
      action whose valid array has shape [vsh]: the tiled shapes must pass
      validate; allow_new_objects is not handed on, so forward runs with its
      default False (abstract_dynamics.py:43). *)
  Definition planning_forward (d : dynamics) (a : act) (vsh : shape) (sim ref : traj)
    (is_controlled : list bool) (timestep : Z) (allow_new_objects : bool) : res traj :=
    let n := length sim in
    let* dsh := tile_second_last [length (a_data a)] n in
    let* _ := action_validate dsh (tile_last vsh n) in
    forward d (repeat a n) sim ref is_controlled timestep false.

  (** operations.py:213-245, select_by_onehot on an Action (num_objects, dim):
      all rows have the same number of columns. *)
  Definition select_action_by_onehot (acts : list act) (sel : list bool) : res act :=
    let* _ := guard (length acts =? length sel)%nat AssertionError in
    let dim := match acts with a :: _ => length (a_data a) | [] => 0%nat end in
    let* data := mapM (fun j => select_by_onehot (map (fun a => nth j (a_data a) f0) acts) sel)
                   (seq 0 dim) in
    let* v := select_by_onehot_b (map a_valid acts) sel in
    Ok (mkact data v).

  (** planning_agent_environment.py:120-145, PlanningAgentDynamics.inverse. *)
  Definition planning_inverse (d : dynamics) (tr : traj) (ms : list meta) (timestep : Z)
    : res act :=
    let* acts := d_inverse d tr ms timestep in
    select_action_by_onehot acts (map m_is_sdc ms).

  (** expert.py:31-61, infer_expert_action with a PlanningAgentDynamics. *)
  Definition planning_expert (d : dynamics) (s : state) : res act :=
    let* prev := dynamic_slice (s_sim s) (s_t s) 1 in
    let* next := dynamic_slice (s_log s) (s_t s + 1) 1 in
    planning_inverse d (map2 (@app pt) prev next) (s_meta s) 0.

  (** planning_agent_environment.py:449-470, _initialized_overlap. *)
  Definition initialized_overlap (log : traj) : res (list bool) :=
    let* first := dynamic_index log 0 in
    Ok (map (fun row => existsb (fun b => b) row)
          (compute_pairwise_overlaps (map pt_box first))).

  (** planning_agent_environment.py:398-420, the loop over sim agents: merged
      action, merged control mask and new actor states. *)
  Fixpoint merge_sim_agents (s : state) (controllable : list bool)
    (agents : list (actor P X K)) (xs : list X) (params : list P) (keys : list (option K))
    (action : list act) (controlled : list bool)
    : res (list act * list bool * list X) :=
    match agents, xs, params, keys with
    | ag :: agents', x :: xs', p :: params', k :: keys' =>
        let* o := ac_select ag p s x k in
        let* _ := guard (length (o_controlled o) =? length controllable)%nat ValueError in
        let by_sim := map2 andb (o_controlled o) controllable in
        let* action' := where_actions by_sim (o_action o) action in
        let* r := merge_sim_agents s controllable agents' xs' params' keys'
                    action' (map2 orb controlled by_sim) in
        let '(act', ctrl', xs'') := r in
        Ok (act', ctrl', o_state o :: xs'')
    | _, _, _, _ => Ok (action, controlled, [])
    end.

  (** planning_agent_environment.py:360-434, step. *)
  Definition penv_step (e : penv) (ps : pstate) (a : act) (rng : option K) : res pstate :=
    let s := ps_state ps in
    let* cur := current_sim s in
    let* us := planning_update (pe_dyn e) a cur in
    let* over := initialized_overlap (s_log s) in
    let* _ := guard (length (pe_agents e) =? length (ps_actors ps))%nat ValueError in
    let* r := merge_sim_agents s (map negb over) (pe_agents e) (ps_actors ps) (pe_params e)
                (split_keys rng (length (pe_agents e)))
                (map as_action us) (map m_is_sdc (s_meta s)) in
    let '(action, controlled, xs) := r in
    let* sim' := forward StateDynamics action (s_sim s) (s_log s) controlled (s_t s)
                   (c_allow_new_objects (pe_cfg e)) in
    Ok (mkps (mkstate sim' (s_log s) (s_tls s) (s_meta s) (s_t s + 1) (s_paths s) (s_rg s)) xs).

  (** select_by_onehot on a MetricResult; a metric without object axis fails the
      shape assertion. *)
  Definition select_metric (v : mval) (sel : list bool) : res mval :=
    match v with
    | PerObject l =>
        let* x := select_by_onehot (map mr_value l) sel in
        let* b := select_by_onehot_b (map mr_valid l) sel in
        Ok (Scalar0 (mkmres x b))
    | Scalar0 _ => Err AssertionError
    end.

  (** planning_agent_environment.py:297-305: replace one entry of the dict, if it
      is there, by its selection. *)
  Definition select_entry (sel : list bool) (name : string) (dct : list (string * mval))
    : res (list (string * mval)) :=
    match lookup name dct with
    | Some v => let* v' := select_metric v sel in Ok (dict_set name v' dct)
    | None => Ok dct
    end.

  (** planning_agent_environment.py:307-320, masking of the kinematic metric of
      the initial state. *)
  Definition mask_metric (b : bool) (v : mval) : mval :=
    let m1 m := mkmres (mr_value m * fbool b)%F (mr_valid m && b) in
    match v with PerObject l => PerObject (map m1 l) | Scalar0 m => Scalar0 (m1 m) end.

  (** planning_agent_environment.py:275-321, metrics. *)
  Definition penv_metrics (reg : registry) (e : penv) (ps : pstate)
    : res (list (string * mval)) :=
    let s := ps_state ps in
    let sel := map m_is_sdc (s_meta s) in
    let* d0 := run_metrics reg s (pe_metrics e) in
    let* d1 := select_entry sel "log_divergence" d0 in
    let* d2 := select_entry sel "overlap" d1 in
    let* d3 := select_entry sel "offroad" d2 in
    if existsb (String.eqb "kinematic_infeasibility") (pe_metrics e) then
      match lookup "kinematic_infeasibility" d3 with
      | None => Err KeyError
      | Some v =>
          let later := (Z.of_nat (c_init_steps (pe_cfg e)) - 1 <? s_t s)%Z in
          let* v' := select_metric (mask_metric later v) sel in
          Ok (dict_set "kinematic_infeasibility" v' d3)
      end
    else Ok d3.

  (** planning_agent_environment.py:324-352, reward. *)
  Definition penv_reward (reg : registry) (e : penv) (ps : pstate) : res F :=
    let s := ps_state ps in
    if pe_compute_reward e then
      let* mask := get_control_mask (s_meta s) (c_controlled (pe_cfg e)) in
      let* r := linear_reward reg (pe_rewards e) s (map fbool mask) in
      select_by_onehot r (map m_is_sdc (s_meta s))
    else Ok f0.

  (** Any number of steps, with one action and one optional key per step. *)
  Fixpoint penv_steps (e : penv) (ps : pstate) (acts : list (act * option K)) : res pstate :=
    match acts with
    | [] => Ok ps
    | (a, k) :: rest => let* ps' := penv_step e ps a k in penv_steps e ps' rest
    end.
End PlanningEnv.
Arguments pstate {S} X.
Arguments penv {S} P X K.
