(** Model of waymax/env/planning_agent_environment.py on states with batch dimensions
    (Model/PlanningEnv.v has the same for one scenario). *)
From Coq Require Import String.
From Coq Require Import List ZArith Bool.
From Verif.Lib Require Import Base JaxIndex Scalar.
From Verif.Model Require Import Operations State Dynamics Dyn_State Geometry Discretizer Comfort Metrics
  BaseEnv Actor PlanningEnv Batch BatchMetrics BatchAgents.
Import ListNotations.

Section BatchPlanning.
  Context {S : Scalar} {P XB K : Type}.

  (** planning_agent_environment.py:149-161, PlanningAgentSimulatorState. *)
  Record bpstate := mkbps { bp_state : bstate; bp_actors : list XB }.

  (** planning_agent_environment.py:175-208, the attributes set by the constructor. *)
  Record bpenv := mkbpenv {
    bp_dyn : bdynamics; bp_cfg : envcfg;
    bp_rewards : list (string * F); bp_metrics : list string; bp_compute_reward : bool;
    bp_agents : list (bactor P XB K); bp_params : list P }.

  (** jax.random.split *)
  Variable split : K -> nat -> nat -> K.

  (** planning_agent_environment.py:214-253, reset. *)
  Definition b_penv_reset (e : bpenv) (s : bstate) (rng : option K) : res bpstate :=
    let* s0 := b_reset (bp_cfg e) s in
    let* xs := mapM (fun ka => ba_init (snd ka) (fst ka) s0)
                 (combine (split_keys split rng (length (bp_agents e))) (bp_agents e)) in
    Ok (mkbps s0 xs).

  (** planning_agent_environment.py:54-65, compute_update: the action (..., dim) is repeated
      along a new object axis. *)
  Definition b_tile (a : arr act) (n : nat) : arr act :=
    mkA (dims a ++ [n]) (fun i => cell a (removelast i)).
  Definition b_planning_update (d : bdynamics) (a : arr act) (cur : arr pt) : res (arr upd) :=
    d (b_tile a (b_num_objects cur)) cur.

  (** planning_agent_environment.py:449-470, _initialized_overlap. *)
  Definition b_initialized_overlap (log : arr pt) : res (arr bool) :=
    let* first := b_index log (scalar 0%Z) in
    Ok (reduce_last (existsb (fun b => b)) (b_pairwise_overlaps (amap pt_box first))).

  (** jnp.where(mask[..., jnp.newaxis], x, y) on the leaves of an Action.
      Simplification: the numbers of columns must be equal. *)
  Definition b_where_actions (mask : arr bool) (x y : arr act) : res (arr act) :=
    let* xy := amap2 pair x y in
    let* r := amap2 (fun m p => (m, p)) mask xy in
    let* _ := guard (forallb (fun i => let '(_, (a, b)) := cell r i in
                                length (a_data a) =? length (a_data b))%nat (indices (dims r))) ValueError in
    Ok (amap (fun q => let '(m, (a, b)) := q in if m : bool then a else b) r).

  (** planning_agent_environment.py:398-420, the loop over sim agents. *)
  Fixpoint b_merge_sim_agents (s : bstate) (controllable : arr bool)
    (agents : list (bactor P XB K)) (xs : list XB) (params : list P) (keys : list (option K))
    (action : arr act) (controlled : arr bool) : res (arr act * arr bool * list XB) :=
    match agents, xs, params, keys with
    | ag :: agents', x :: xs', p :: params', k :: keys' =>
        let* o := ba_select ag p s x k in
        let* by_sim := amap2 andb (bo_controlled o) controllable in
        let* action' := b_where_actions by_sim (bo_action o) action in
        let* controlled' := amap2 orb controlled by_sim in
        let* r := b_merge_sim_agents s controllable agents' xs' params' keys' action' controlled' in
        let '(act', ctrl', xs'') := r in
        Ok (act', ctrl', bo_state o :: xs'')
    | _, _, _, _ => Ok (action, controlled, [])
    end.

  (** planning_agent_environment.py:360-434, step. *)
  Definition b_penv_step (e : bpenv) (ps : bpstate) (a : arr act) (rng : option K) : res bpstate :=
    let s := bp_state ps in
    let* cur := b_current_sim s in
    let* us := b_planning_update (bp_dyn e) a cur in
    let* over := b_initialized_overlap (b_log s) in
    let* _ := guard (length (bp_agents e) =? length (bp_actors ps))%nat ValueError in
    let* r := b_merge_sim_agents s (amap negb over) (bp_agents e) (bp_actors ps) (bp_params e)
                (split_keys split rng (length (bp_agents e)))
                (amap as_action (drop_last us)) (amap m_is_sdc (b_meta s)) in
    let '(action, controlled, xs) := r in
    let* sim' := b_forward (b_elementwise state_update) action (b_sim s) (b_log s) controlled (b_t s)
                   (c_allow_new_objects (bp_cfg e)) in
    Ok (mkbps (mkbs sim' (b_log s) (b_tls s) (b_meta s) (amap (fun t => t + 1)%Z (b_t s))
                 (b_paths s) (b_rg s)) xs).

  (** Any number of steps, with one action array and one optional key per step. *)
  Fixpoint b_penv_steps (e : bpenv) (ps : bpstate) (acts : list (arr act * option K)) : res bpstate :=
    match acts with
    | [] => Ok ps
    | (a, k) :: rest => let* ps' := b_penv_step e ps a k in b_penv_steps e ps' rest
    end.

  (** operations.py:213-245, select_by_onehot on a MetricResult. *)
  Definition b_select_metric (v : arr mres) (sel : arr bool) : res (arr mres) :=
    let* x := b_onehot (amap mr_value v) sel in
    let* b := b_onehot_b (amap mr_valid v) sel in
    amap2 mkmres x b.

  (** planning_agent_environment.py:297-305. *)
  Definition b_select_entry (sel : arr bool) (name : string) (dct : list (string * arr mres))
    : res (list (string * arr mres)) :=
    match lookup name dct with
    | Some v => let* v' := b_select_metric v sel in Ok (dict_set name v' dct)
    | None => Ok dct
    end.

  (** planning_agent_environment.py:275-321, metrics. *)
  Definition b_penv_metrics (reg : b_registry) (e : bpenv) (ps : bpstate)
    : res (list (string * arr mres)) :=
    let s := bp_state ps in
    let sel := amap m_is_sdc (b_meta s) in
    let* d0 := b_run_metrics reg s (bp_metrics e) in
    let* d1 := b_select_entry sel "log_divergence" d0 in
    let* d2 := b_select_entry sel "overlap" d1 in
    let* d3 := b_select_entry sel "offroad" d2 in
    if existsb (String.eqb "kinematic_infeasibility") (bp_metrics e) then
      match lookup "kinematic_infeasibility" d3 with
      | None => Err KeyError
      | Some v =>
          let later := amap (fun t => (Z.of_nat (c_init_steps (bp_cfg e)) - 1 <? t)%Z) (b_t s) in
          let* m := amap2 (fun v (b : bool) => mkmres (mr_value v * fbool b)%F (mr_valid v && b)) v later in
          let* v' := b_select_metric m sel in
          Ok (dict_set "kinematic_infeasibility" v' d3)
      end
    else Ok d3.

  (** planning_agent_environment.py:324-352, reward. *)
  Definition b_penv_reward (reg : b_registry) (e : bpenv) (ps : bpstate) : res (arr F) :=
    let s := bp_state ps in
    if bp_compute_reward e then
      let* mask := b_get_control_mask (b_meta s) (c_controlled (bp_cfg e)) in
      let* r := b_linear_reward reg (bp_rewards e) s (amap fbool mask) in
      b_onehot r (amap m_is_sdc (b_meta s))
    else Ok (mkA (b_shape s) (fun _ => f0)).

  (** planning_agent_environment.py:120-145, PlanningAgentDynamics.inverse, and
      expert.py:31-61, infer_expert_action with it.  The number of columns is read off
      the first action. *)
  Definition b_select_action (acts : arr act) (sel : arr bool) : res (arr act) :=
    let w := length (a_data (cell acts (map (fun _ => 0%nat) (dims acts)))) in
    let* cols := mapM (fun j => b_onehot (amap (fun a => nth j (a_data a) f0) acts) sel) (seq 0 w) in
    let* v := b_onehot_b (amap a_valid acts) sel in
    Ok (mkA (dims v) (fun b => mkact (map (fun c => cell c b) cols) (cell v b))).
  Definition b_planning_expert (inv : binverse) (s : bstate) : res (arr act) :=
    let* acts := b_infer_expert_action inv s in
    b_select_action acts (amap m_is_sdc (b_meta s)).
End BatchPlanning.
Arguments bpstate {S} XB.
Arguments bpenv {S} P XB K.
