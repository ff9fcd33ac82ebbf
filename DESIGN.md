# Formal model of waymax in Rocq

This directory holds a model of waymo-research/waymax (source read from /repo as
text, never executed) and machine-checked proofs of the properties listed in
`properties.jsonl`.

## Layout

| path | contents |
|---|---|
| `rocq/theories/Lib/` | lists, JAX index semantics, the scalar interface and the extended reals |
| `rocq/theories/Model/` | the model: one Gallina definition per modelled function, each citing file and lines; no proofs |
| `rocq/theories/Spec/` | small independent specifications used in theorem statements |
| `rocq/theories/Proofs/` | lemmas and proofs |
| `rocq/theories/Props/` | the property theorems only, each closed by `exact`, with `Print Assumptions` and non-vacuity examples |
| `MANIFEST.json` | property -> theorem names and status |
| `seeded/LOG.jsonl` | mutation experiments against the theorems |

## Modelling decisions

* **Scalars.** Everything numeric is written over an interface `Scalar` (a record
  of operations without laws). Structural theorems (indexing, masks, histories,
  protocols) are proved for *every* scalar interface, so they hold for float32
  with its rounding and NaNs. Numeric theorems are proved for one instance,
  `XR`: real numbers extended with +inf, -inf and NaN, following IEEE rules for
  the special values but without rounding, overflow or signed zero.
* **Arrays.** Arrays are lists, object-major. A `Trajectory` (a struct of equally
  shaped arrays, enforced by its `validate`) is modelled as a matrix of records
  (array of structs), objects x time. Most files model one scenario. Leading batch
  dimensions are modelled in `Batch.v` and `BatchMetrics.v`, where an array is a
  shape and a function from indices to entries.
* **JAX indexing.** `dynamic_slice`/`dynamic_update_slice` add the axis size to a
  negative start once and clamp so that the window fits; a window larger than
  the axis is an error.
* **Errors.** Exceptions are values (`Err e`). Shape checks raise.
* **External code.** Policies, other dynamics, PRNGs and data iterators are
  function parameters over which theorems quantify.

## Plan per property

* C01: list model of index semantics (`Lib/JaxIndex.v`); read/write laws by case analysis on the clamped start.
* C02-C06: state machine of `BaseEnvironment` over an arbitrary dynamics record; per-frame characterisation of one step, then induction over action lists.
* C07-C09: per-object case analysis of `apply_trajectory_update_to_state`, lifted by induction over histories.
* C10, C11: two-run theorems on `forward` for every dynamics whose update is per-object, instantiated for the shipped ones.
* C12: direct, plus invariant from C04.
* C13: induction over steps using C07 for uncontrolled objects.
* C14, C15: real arithmetic on `XR`; refutation by explicit witness for max_dyaw < pi.
* C16-C18: real analysis with a defined atan2; wrapping lemma from C21.
* C19, C20: mixed radix induction over dimensions; rounding lemmas; argmin correctness.
* C21-C23: real arithmetic, floor; trigonometric identities.
* C24: separating axis theorem for two rectangles, both directions.
* C25-C28: metrics over `XR`.
* C29, C30: list induction; registry as a finite map with a history of calls.
* C31-C33: fold over actors, pointwise.
* C34: scan unrolled by induction.
* C35-C37: transition systems over arbitrary call histories.
* C38-C40: index arithmetic, rigid motions, sorting and selection.
* C41-C44: `XR` arithmetic; cumulative sums over lists.
* C45: list induction with special values.
* C46-C49: strings and lists; partition of indices by congruence.
* C50, C51: case analysis of guards.
* C52-C54: the planning environment: row selection, closed-loop replay by induction, metric and reward selection.
* C55, C56: case analysis over flags and leaf arrays.
* C57: relational invariant between two closed-loop runs.
* C58: index arithmetic on the array of views.
* C59: arrays as shape and cell function; every batched operation is characterised cell by cell and compared with the single-scenario model at each batch index, then induction over actions.
* C60: the same for metrics and rewards; the broadcast of SDC metrics is refuted by shapes.
* C61: a picture is the list of marks and the window; membership of a mark is characterised by an independent relation over the entries of the state, box geometry over the reals.
* C62: the scalar class instantiated with Flocq's binary32 (rounding to nearest even, jnp.remainder as fmod with sign correction, the maths library a parameter); errors bounded by Flocq's rounding lemmas and Sterbenz, replay by induction over steps.
* C63: specs as shape, type and (unbroadcast) bounds; conformance defined entrywise in `SpecsSpec.v`; the wrapper's reshape as flattening in row-major order; acceptance through the call protocol of C35, returned shapes by an invariant over call histories.  The valid part of the specs against Action.validate by cases on shape and type.
* C64: closed loop of the IDM agent and the base environment; frames of an episode from the step theorem, an invariant on position, heading and speed by induction on the steps; collision avoidance from the invariant "speed <= 20 x remaining gap", kept because the braking law stops the car once less than a step of travel beyond the checked metre is left; refuted past the end of the route.
* C65: tensors abstracted to shape and element type; chex's assertions and every `validate` as functions of these; acceptance characterised independently (`ValidateSpec.v`: one shape, kinds of elements, prefixes, stretching); `forward` as the composition of its shape checks, broadcasts and concatenations.
* C66: one-step invariant `speed <= 20 * (distance to contact)` for every vehicle ahead, kept by the exact IDM law: either the leader is at most 0.2 m/s faster and the braking term suffices, or it is faster and clears the way; vehicles keep their order, so the first blocked check point bounds all of them. Induction over the episode; overlap metric from the separating-rectangle theorem.
* C67: every step of a planning episode moves the object claimed last by a sim agent by exactly that agent's update (C32); this one fact about the trajectory is all the C64/C66 arguments need, so they are redone for any closed loop with hypotheses on the simulated trajectory of the other objects. Example: a planner-driven SDC that leaves its log, for every number of steps.
* C68: a relation between two descriptions of one scene (Spec/MovedSpec.v: valid entries
  are turned and shifted, headings agree up to full turns, invalid entries are unconstrained).
  Proved by showing that every function used by an episode maps related inputs to related
  outputs (both succeed or both raise the same exception): reset, step for each dynamics
  model, own-frame observations including the distance ordering of map points, metrics and
  inverse dynamics; episodes and driven episodes by induction. Object injection and clipped
  displacements depend on the frame and are refuted by concrete scenes.
* C69: a relation between a scene and the same scene with its objects placed by an injective
  map in a longer list whose other rows are never valid (Spec/EmbedSpec.v); reset, steps,
  expert actions, metrics, rewards, observations and agents are shown to preserve it or to
  give equal rows; minima over objects are shown to depend only on the finite values listed.
  The planning environment with sim agents preserves the relation when the padding does not
  overlap an object at log step 0; its report about the SDC, reward and expert action are equal because
  the one-hot sums keep only the SDC's entry.  Three refutations: the is_ego flags, NaN padding under the
  one-hot sum, and overlapping padding in the planning environment.
* C70: Model/Loader.v joins the record parser (FixedLenFeature lists), preprocessing, the data
  pipeline of C47, stacking of dictionaries, pmap and the factories on arrays with batch
  dimensions. A small specification (Spec/LoaderSpec.v) says which records are well formed and
  which state a record stands for, entry by entry of its flat lists. Proved in four steps: one
  record gives its scenario; all readable records have the same layout; stacking and pmap keep
  every scenario at its batch index (induction on the nesting of batches); the permutation
  theorem of C47 carries this over to all processes. Failing settings by inspection of keys and
  leading sizes.
* C71: no new model: C70 (loading), C59 (batches), C07/C13 (replay) and C32 (planning) composed; what
  a record says about an object at a step is stated on its flat lists (Spec/RecordSpec.v), and a
  record is shown to determine its scenario.
* C72: Model/BatchAgents.v and Model/BatchPlanning.v model the agents, inverse dynamics and the
  planning environment on arrays with batch dimensions, with numpy broadcasting as in C59/C60; each
  function is shown to commute with taking the scenario at a batch index, then steps and episodes
  by induction. Sim agents enter through a specification (agent_of) that all shipped ones meet.
* C73: no new model code; Spec/MovedPlanSpec.v says what a sim agent without a preferred frame is and
  which planner actions correspond.  Each shipped agent is shown to be one (IDM by the invariance of
  headings, distances, box overlaps and projections on the route), and the step by showing that the
  merge of actions keeps the correspondence for all objects in the scene; induction over the steps.
  Metrics and reward: the dictionary is folded over both frames, the one-hot selection leaves the SDC's
  entry, and the other objects' finite values are multiplied by 0.
* C74: no new model code; Spec/F32EpisodeSpec.v says when a frame is finite and bounded and what is assumed of
  sin, cos and atan2 (range and accuracy; Proofs/P_Libm.v shows that correctly rounded functions have it).
  Finiteness by induction over the frames of one object with an error bound per step; feasibility by bounding
  the rounding error of the update and of the inferred action against the metric's tolerance of 0.001.
* C75: no new model code; Spec/F32GeomSpec.v says when a float32 box is a rectangle and what a grown rectangle is.
* C76: no new model code; Spec/F32DriveSpec.v states what is assumed of the library's power function, of the IDM parameters and of the route, and what being on the route means in float32.  The speed is bounded through one-sided bounds that hold for NaN-free but possibly infinite intermediate values; leads are finite by construction, so nothing is assumed of the other objects.  The nearest waypoint is found by argmin up to rounding, the projection adds a bounded error, and an induction over the episode adds them up.  The induction is over any loop that applies the agent's updates to the object, so it covers sim agents in the planning environment as well.
* C77: no new model code; Spec/F32DriveSpec.v states what one step of a route follower is (moves32) and what a road with one heading is (lane32).  The projection keeps the coordinate along the new heading, so the error of one step is that of the arithmetic; an induction over the episode adds the errors up.  For the constant-speed policy the invariant also keeps the object within reach of the next waypoint and away from the end of the road, so the end-of-route test is false.
* C78: no new model code.  One step is analysed with the library's own cosine and sine c, s as exact numbers: rotating by -yaw and back multiplies the displacement by c^2 + s^2, so only the unit length and the parity of c, s matter; the expert action is inferred from the simulated position, so the error of a step does not depend on earlier errors (induction over the frames).
* C79: no new model code.  Each squared edge distance has a small relative error, so its square root is the stretched distance up to 47 P / 2^24 and the float32 argmin is nearest up to twice that; the cross products have an absolute error of 20 P / 2^24, which fixes the sign away from the line; corners are right up to 2 P / 2^24 (C75).  Path distances as in C76; the minimum of a finite list of finite or infinite numbers is one of them.
  Each computed projection of a corner is within P / 2^20 of the exact one (interval rules with explicit error terms),
  the sign of a float difference is exact, and the extent of a rectangle on any unit axis grows by at least the margin;
  the exact test of C24 then gives the common point. The refutations run in float32.
* C80: no new model code.  The float32 minima over the points of a path and over the paths select points nearest up to 120 P / 2^24; the differences of arc lengths have relative error 2^-24 and the divisor is at least 2^-20 in size, so the quotient has a relative error of a few 2^-24.  For the exact values at the ends, positions that are equal as numbers (the sign of zero may differ) give distances equal as numbers and so the same index.
* C81: no new model code.  The composition of the frame's matrix with the global pose is computed exactly because the global pose's matrix is the identity once cos 0 = 1 and sin 0 = 0 (assumed of the maths library); what remains is one float32 rotation and translation with rounded sine and cosine, bounded with the error calculus of P_F32Overlap.v.  The centre maps to exactly 0: x + (-x) cancels exactly because the translation column is built from the same two rounded products.  The map filter: its insertion sort is correct for any comparison that is irreflexive, transitive and negatively transitive on the keys, which float32 comparison is on finite numbers and minus infinity; the keys are distances up to 60 P / 2^24.  The integer rounding of the model is shown to be Flocq's conversion by unfolding round-to-nearest-even at the exponent log2 z - 23.  That C40's relation determines the result: between two floats with even significands lies a nearer one.
* C82: no new model code.  For any arithmetic the reward of an object is the left-to-right sum of (value * mask) * weight, by induction over the metrics; in float32 the k-th partial sum is at most k W in size, so each addition errs by at most a few k W / 2^24, and induction over k gives the quadratic bound.  Whole numbers up to 2^24 are exact.  The NaN outside the mask is computed.  The planning environment's selection multiplies the SDC's reward by 1 and the others, already 0, by 0, so it is exact.  The same selection of the metrics is exact for finite values.
* C83: no new model code.  The k-th partial sum of the valid entries is at most k W in size, so induction over the entries bounds the error of the sum by 2 n^2 W / 2^24; the count of valid entries is exact below 2^24; the division divides the error by n and adds one rounding.  The mean of six equal values that is not their value is computed.  XLA may add in another order; the model adds from left to right.


Nothing in the list is inexpressible; what is left out of the model is stated in
the trusted base below.

## Trusted base

1. **The Coq 8.16.1 kernel** (and `vm_compute`, used in the concrete examples).
   No kernel check is switched off, no axiom is declared, nothing is admitted.
2. **Axioms of the standard library**, as listed by `Print Assumptions` at the end
   of every `Props/Cxx.v` (tables below). They come in with the classical real
   numbers `Coq.Reals`: `ClassicalDedekindReals.sig_forall_dec`,
   `ClassicalDedekindReals.sig_not_dec`,
   `FunctionalExtensionality.functional_extensionality_dep` and, for most theorems
   about real numbers, `Classical_Prop.classic`. Theorems that hold for every
   number type depend on none.
3. **The model.** The definitions in `Model/` are read from the source by hand; each
   cites the lines it models and says where it simplifies. That they describe the
   code is the main thing a reader has to trust. Where code and documentation
   disagree the model follows the code.
4. **Library semantics** assumed of Python, NumPy, JAX and TensorFlow. They are
   written out as definitions: dynamic slicing and updating with clamped starts
   (`Lib/JaxIndex.v`), broadcasting, `vmap` over leading axes and shapes
   (`Model/Batch.v`), reductions, `argmin` and `top_k` ties by lowest index and NaN
   first (`Model/Discretizer.v`, `Model/Observation.v`), `lax.scan` as a fold
   (`Model/Rollout.v`), `jax.random.split` as an arbitrary function,
   `tf.data` interleave/shuffle/shard/batch as a relation that allows every order
   the library allows (`Model/Pipeline.v`), `re.fullmatch`/`%`-formatting on the
   strings used (`Model/Filenames.v`), dictionaries as insertion-ordered lists,
   `dm_env.specs.BoundedArray` keeping its bounds unbroadcast (`Model/Specs.v`).
   Floating point `mean`, `sum` and `min` are folds in list order.

### Numbers

Real-number theorems are about `XR`: reals with infinities and NaN, without
rounding, overflow, or signed zero. They say what the formulas compute, not how far
float32 is from it. Theorems for every `Scalar` make no assumption about the
arithmetic and so include float32. C62 and C74-C83 are about `F32 lm` (`Lib/F32.v`): IEEE binary32
built on Flocq (which adds no axioms), with correctly rounded `+ - * / sqrt`, exact
remainder, comparisons and min/max as JAX defines them, and `sin cos atan2 pow`
arbitrary; where a theorem needs `sin cos atan2 pow` to be close to the real functions
it says so in a hypothesis (`accurate32`, `trig32`, `pow32`), and an example shows a
library that meets it. `F32` assumes that XLA neither contracts nor reassociates operations nor
flushes subnormals. Integers are unbounded except where the code
casts through float32 (C40, `frint`/`ftrunc`) or int32 labels are the subject.

### What is modelled

| code | model |
|---|---|
| `datatypes/operations.py`, `array.py` | `Operations.v`, `Masked.v`, `Lib/JaxIndex.v`, `Batch.v` |
| `datatypes/simulator_state.py`, `object_state.py`, `action.py`, `traffic_lights.py`, `route.py` | `State.v`, `Dynamics.v`, `WomdState.v`, `Batch.v` |
| `datatypes/observation.py` | `Observation.v`, `Pose.v` |
| `datatypes/roadgraph.py` | `Roadgraph.v`, `State.v` |
| `dynamics/*` | `Dynamics.v`, `Dyn_State.v`, `Dyn_Delta.v`, `Dyn_Bicycle.v`, `Discretizer.v` |
| `env/base_environment.py`, `abstract_environment.py` | `BaseEnv.v`, `Envs.v`, `Batch.v` |
| `env/planning_agent_environment.py` | `PlanningEnv.v` |
| `env/rollout.py` | `Rollout.v` |
| `env/wrappers/*`, specs of environments and dynamics | `Wrappers.v`, `Specs.v` |
| `agents/*` | `Actor.v`, `Expert.v`, `Waypoint.v`, `Wrappers.v` (agent_builder) |
| `metrics/*`, `rewards/*` | `Metrics.v`, `Comfort.v`, `BatchMetrics.v` |
| `utils/geometry.py` | `Geometry.v` |
| `config.py` | `Config.v`, `State.v` |
| `dataloader/*` | `Filenames.v`, `Pipeline.v`, `Womd.v`, `WomdState.v` |
| `visualization/viz.py`, `visualization/utils.py` (boxes, VizConfig), `visualization/color.py` | `Viz.v` |

### What is not modelled

* Rasterisation and file output of `visualization/` (matplotlib, PIL);
  `utils/test_utils.py`; type annotations, docstrings, dtype checks of the
  validators (`Trajectory.validate` etc. — the model's records make fields equally
  shaped by construction; `SimulatorState.validate` is modelled on shapes in C59).
* The registration decorators of flax/chex; `jax.jit` (assumed to
  preserve meaning) and device placement; XLA's reduction order.
* The TFRecord and protobuf decoding behind `tf.io` (the model starts from decoded
  feature dictionaries); the network file system behind file globbing.
* Rounding of float32 outside C62 and C74-C83 (see Numbers), integer overflow,
  out-of-memory.
* Batch dimensions outside `Batch.v` and `BatchMetrics.v`: all other files model one
  scenario, which C59 and C60 justify for the environment and the metrics.

### Findings

Theorems with the suffix `_refuted` state, and prove, that something the names,
comments or documentation of the code suggest does not hold. Each is about the code
as modelled; the notes in `MANIFEST.json` say which expectation it is.

`C05_finished_record_immutable_refuted`, `C07_full_frame_replay_refuted`, `C09_injected_at_logged_pose_refuted`, `C11_invalid_action_has_effect_refuted`, `C14_local_frame_limits_alone_refuted`, `C15_yaw_limit_refuted`, `C16_velocity_vector_limit_refuted`, `C19_shape_check_refuted`, `C27_no_edge_no_offroad_refuted`, `C28_progression_nonnegative_refuted`, `C31_first_actor_matters_refuted`, `C34_overlong_rollout_rejected_refuted`, `C36_step_needs_successful_reset_refuted`, `C37_reset_reports_exhausted_scenario_refuted`, `C38_unchecked_refuted`, `C39_is_ego_refuted`, `C39_heading_range_refuted`, `C39_paths_refuted`, `C40_ids_refuted`, `C41_max_decel_bounds_braking_refuted`, `C42_closest_object_leads_refuted`, `C42_lead_distance_is_of_first_blocked_point_refuted`, `C43_velocity_along_heading_refuted`, `C43_no_valid_waypoint_invalidates_refuted`, `C45_default_axis_refuted`, `C46_at_in_directory_fails_refuted`, `C46_percent_refuted`, `C47_num_shards_no_effect_refuted`, `C47_seeds_must_agree_refuted`, `C48_truncation_keeps_time_and_sdc_refuted`, `C48_batched_which_time_refuted`, `C49_past_is_earlier_refuted`, `C49_counts_agree_refuted`, `C50_rewards_checked_refuted`, `C51_configured_agents_work_refuted`, `C52_invalid_objects_can_poison_expert_refuted`, `C53_wrapped_model_uses_injection_refuted`, `C54_sdc_only_refuted`, `C56_reflexive_refuted`, `C57_expert_refuted`, `C58_own_view_refuted`, `C59_own_clocks_cannot_step_refuted`, `C59_reset_batch_invalid_refuted`, `C60_kinematic_own_clocks_refuted`, `C60_sdc_reward_raises_refuted`, `C60_sdc_reward_crossed_refuted`, `C60_sdc_reward_shape_refuted`, `C61_unknown_light_refuted`, `C61_time_idx_required_refuted`, `C61_center_agent_refuted`, `C61_road_lines_refuted`, `C61_before_reset_refuted`, `C62_wrap_identity_refuted`, `C62_replay_exact_refuted`, `C63_shape_checked_refuted`, `C63_state_dynamics_in_dm_env_refuted`, `C64_idm_avoids_collisions_past_route_end_refuted`, `C65_valid_means_float32_refuted`, `C65_valid_state_has_valid_parts_refuted`, `C65_valid_observation_agrees_on_objects_refuted`, `C65_one_action_per_object_refuted`, `C66_idm_never_hits_misreported_speed_refuted`, `C68_long_step_refuted`, `C68_injection_refuted`, `C69_overlapping_padding_refuted`, `C69_is_ego_refuted`, `C69_nan_padding_refuted`, `C70_without_aggregation_refuted`, `C70_object_by_object_refuted`, `C70_nested_remainder_refuted`, `C72_sdc_reward_raises_refuted`, `C72_own_clocks_refuted`, `C72_sdc_reward_crossed_refuted`, `C73_end_of_route_refuted`, `C73_expert_leaving_refuted`, `C73_marker_refuted`, `C74_nan_action_refuted`, `C74_delta_is_not_clipped_refuted`, `C75_overlap_without_tolerance_refuted`, `C75_zero_divergence_refuted`, `C76_zero_desired_speed_refuted`, `C77_moves_without_tolerance_refuted`, `C78_local_replay_exact_refuted`, `C78_without_parity_refuted`, `C79_offroad_exact_refuted`, `C80_progression_nonnegative_refuted`, `C82_outside_mask_zero_refuted`, `C82_planning_others_irrelevant_refuted`, `C83_equal_entries_refuted`.

### Print Assumptions per theorem

**Closed under the global context** (322 theorems): C01_slice_reads_window, C01_index_reads_entry, C01_slice_too_big_fails, C01_write_changes_exactly_the_window, C01_read_after_write, C01_window_is_unique, C02_reset_exact, C02_reset_ignores_simulation, C02_reset_mid_episode, C02_reset_wrong_object_count, C02_reset_log_too_short, C03_step_writes_one_frame, C03_controlled_pose_is_dynamics, C03_step_total, C03_shipped_dynamics_total, C03_step_rejects_wrong_count, C03_step_rejects_non_sdc, C04_recorded_frames_never_change, C04_warmup_and_future, C05_only_last_frame_changes, C05_clock_keeps_running, C05_last_frame_is_overwritten, C05_finished_record_immutable_refuted, C06_clock, C06_end_signals_agree, C07_uncontrolled_replay_log, C07_timestamps_replay_log, C07_height_and_size_frozen, C07_full_frame_replay_refuted, C08_controlled_validity, C08_uncontrolled_validity, C08_no_object_appears, C09_step_validity, C09_uncontrolled_validity, C09_controlled_validity, C09_injected_at_logged_pose_refuted, C10_only_controlled_actions_matter, C10_objects_do_not_interfere, C10_episodes, C10_shipped_dynamics_local, C11_valid_flag_has_no_effect, C11_invalid_action_has_effect_refuted, C11_fallback, C12_get_control_mask, C12_mask_is_determined_by_scenario, C12_mask_constant_over_episode, C12_controlled_objects_stay_valid, C13_expert_replays_log, C13_expert_never_fails, C19_index_in_range, C19_both_mismatched_rejected, C20_inverse_legal, C20_search_total, C25_total, C25_overlap_metric_any_numbers, C26_total, C26_validity, C27_always_valid, C27_total, C28_no_paths, C29_construction, C30_register, C30_history, C30_run_metrics, C30_run_metrics_total, C30_unknown_name, C30_unknown_name_value_error, C31_last_claim_wins, C31_cases_exhaustive, C31_total_iff_shapes_agree, C31_no_actor_fails, C31_order_irrelevant, C31_builtin_actors_claim_controlled, C31_first_actor_matters_refuted, C32_step_merges_planner_agents_and_log, C32_reset_initialises_agents, C32_episode_clock_and_warmup, C32_history_is_immutable, C32_no_agents_is_base_environment, C32_step_total, C33_initial_overlap_replays_log, C34_rollout_is_closed_loop, C34_rollout_prefix, C34_rows_are_episode, C34_padding_action_is_invalid, C34_expert_rollout_replays_log, C34_rollout_total, C34_overlong_rollout_rejected_refuted, C35_protocol, C35_base_environment, C35_planning_environment, C35_base_protocol, C35_refused_steps_change_nothing, C35_discount_is_one, C35_step_effect, C36_one_scenario_per_reset, C36_current_state, C36_drained, C36_exhausted_scenario, C36_step_needs_successful_reset_refuted, C36_uneven_batch, C37_step, C37_reset, C37_episode, C37_base_environment, C37_reset_reports_exhausted_scenario_refuted, C38_window, C38_total, C38_no_future, C38_causal, C38_sdc_causal, C38_unchecked_refuted, C39_global, C39_is_ego, C40_outcome, C40_nearest_float_unique, C40_small_ids_are_floats, C40_ids_refuted, C43_update_total, C44_constant_speed_validity, C44_constant_speed_total, C44_frozen_objects_keep_pose, C44_frozen_action, C45_masked_mean_total, C45_masked_mean_ignores_invalid, C45_default_axis_raises, C45_update_by_mask, C45_masked_value, C45_select_length_mismatch, C46_names, C46_name_is_unique, C46_name_is_decodable, C46_distinct, C46_paths_share_all_or_nothing, C46_rejected, C46_count_text, C46_accepted_paths, C46_other_paths_raise, C46_loader_expands, C46_at_in_directory_fails_refuted, C46_percent_refuted, C47_files_of_a_shard, C47_every_file_once, C47_all_data, C47_runs, C47_zero_batch_fails, C47_num_shards_without_batching, C47_num_shards_no_effect_refuted, C47_seeds_must_agree_refuted, C47_single_file_order, C47_distributed, C48_aggregate, C48_succeeds, C48_truncation, C48_negative_maximum, C48_which_time_is_cut, C48_truncation_keeps_time_and_sdc_refuted, C48_batched_which_time_refuted, C49_load, C49_loadable, C49_time_key, C49_box_constant, C49_export, C49_export_early, C49_validate, C49_export_succeeds, C49_paths_cannot_be_exported, C49_description, C49_metadata_round_trip, C49_past_round_trip, C49_future_reloads_as_valid, C49_end_to_end, C49_past_is_earlier_refuted, C49_counts_agree_refuted, C50_env_config, C50_waymax_config, C50_metrics_never_fail, C50_reward_never_fails, C50_unchecked_reward_fails, C50_rewards_checked_refuted, C51_sim_agents_always_fail, C51_sim_agents_value_error, C51_without_sim_agents, C51_configured_agent_claims, C51_configured_agents_work_refuted, C53_forward_fails_unless_one_object, C53_forward_one_object, C53_allow_new_objects_ignored, C53_wrapped_model_uses_injection_refuted, C54_other_metrics_unchanged, C54_metrics_defined, C54_reward_off_is_zero, C55_update_valid_iff_frame_and_action, C55_state_update_valid_iff_action, C55_inverse_valid_iff_both_frames, C55_state_inverse_valid_iff_next_frame, C57_no_lookahead, C57_observers_are_causal, C57_accepted_observation, C57_expert_refuted, C58_unbatched, C58_unbatched_total, C58_batched, C58_own_view_refuted, C59_reset, C59_reset_succeeds, C59_step, C59_episode, C59_independence, C59_shipped_dynamics, C59_current_frame, C59_update_by_log, C59_episode_end, C59_is_done, C59_forward_refuses, C59_own_clocks_cannot_step_refuted, C59_own_clocks_value_error, C59_loaded_batch_validates, C59_reset_batch_invalid_refuted, C60_object_metrics, C60_offroad, C60_kinematic, C60_kinematic_own_clocks_refuted, C60_sdc_metrics, C60_reward, C60_sdc_reward_one, C60_sdc_reward_raises_refuted, C60_sdc_reward_crossed_refuted, C60_sdc_reward_shape_refuted, C61_trajectory, C61_invalid_hidden, C61_scene, C61_observation, C61_brax, C61_batch_index, C61_unbatched, C61_rank_checked, C61_unknown_light_refuted, C61_time_idx_required_refuted, C61_center_agent_refuted, C61_road_lines_refuted, C61_before_reset_refuted, C62_replay_never_fails, C63_bounds_checked, C63_shipped_specs, C63_multi_agent_spec, C63_conforming_actions_accepted, C63_valid_part, C63_planning_spec_repeats, C63_squeeze, C63_time_steps_conform, C63_only_entries_count, C63_shape_checked_refuted, C63_state_dynamics_in_dm_env_refuted, C63_state_dynamics_in_planning, C65_same_shape_types, C65_refusal_is_assertion_error, C65_paths, C65_masked_array, C65_action, C65_pose, C65_observation, C65_state, C65_zeros, C65_forward_state, C65_forward_delta_global, C65_forward_delta_local, C65_forward_bicycle, C65_forward_no_frames, C65_forward_floating_flags, C65_valid_means_float32_refuted, C65_valid_state_has_valid_parts_refuted, C65_valid_observation_agrees_on_objects_refuted, C65_one_action_per_object_refuted, C69_every_scene, C69_reset, C69_episode, C69_models, C69_expert, C69_closed_loop, C69_metrics, C69_reward, C69_observation, C69_sdc_observation, C69_planning, C69_planning_reordered, C69_controlled_sets, C69_overlapping_padding_refuted, C69_is_ego_refuted, C70_loading, C70_runs, C70_order, C70_readable, C70_bad_record_raises, C70_reset, C70_paths_without_sizes, C70_without_aggregation_refuted, C70_object_by_object_refuted, C70_rows, C70_nested_remainder_refuted, C70_sdc_cut_off, C71_file_to_episode, C71_expert, C71_planning, C71_one_scenario, C71_reproducible, C72_agents, C72_choices, C72_dynamics, C72_reset, C72_step, C72_episode, C72_independence, C72_metrics, C72_reward, C72_sdc_reward_raises_refuted, C72_expert, C72_expert_run, C72_own_clocks_refuted, C72_sdc_reward_crossed_refuted, C75_overlap_symmetric, C78_local_replay_never_fails.

**ClassicalDedekindReals.sig_forall_dec, ClassicalDedekindReals.sig_not_dec, FunctionalExtensionality.functional_extensionality_dep** (1 theorems): C43_straight_stretch.

**ClassicalDedekindReals.sig_forall_dec, ClassicalDedekindReals.sig_not_dec, Classical_Prop.classic, FunctionalExtensionality.functional_extensionality_dep** (241 theorems): C13_expert_replays_log_delta, C13_expert_delta_never_fails, C14_delta_global_inverse_then_forward, C14_delta_global_exact, C14_delta_local_exact, C14_local_frame_limits_alone_refuted, C15_delta_global_in_spec, C15_delta_local_in_spec, C15_bicycle_in_spec, C15_state_in_spec, C15_yaw_limit_refuted, C16_bicycle_limits, C16_bicycle_motion, C16_out_of_range_action_is_clamped, C16_velocity_vector_limit_refuted, C17_bicycle_recovers_action, C17_no_steering_at_low_speed, C18_bicycle_motion_is_feasible, C18_general, C18_metric_flags_infeasible_motion, C19_total, C19_half_bin, C19_decode_encode, C19_clamps, C19_out_of_range_index, C19_maximum_code, C19_shape_check_refuted, C20_step_is_decoded_step, C20_action_spec, C20_search_optimal, C20_search_optimal_delta, C20_search_invalid_default, C20_search_non_sdc_gets_zero, C21_wrap_is_the_normal_form, C21_wrap_idempotent, C21_wrap_never_increases_magnitude, C21_wrap_nonfinite, C22_pose_is_rigid, C22_pose_headings, C22_pose_velocities, C22_combine_changes_frames, C22_combine_headings, C22_combine_origin, C23_corners, C23_corners_rectangle, C24_overlap_exact, C24_overlap_symmetric, C24_overlap_rigid_invariant, C24_degenerate_box, C24_self_overlap, C24_pairwise_table, C25_overlap_metric, C25_reported_together, C26_log_divergence, C26_nonneg_and_zero, C26_expert_has_no_divergence, C27_offroad_metric, C27_no_edge_no_offroad_refuted, C28_wrongway, C28_off_route, C28_wrongway_threshold, C28_off_route_threshold, C28_progression, C28_progression_at_ends, C28_progression_scale_free, C28_progression_nonnegative_refuted, C29_linear_reward, C33_sharing_a_point_blocks, C33_disjoint_is_not_blocked, C33_absent_objects_block_each_other, C39_own_frame, C39_self, C39_distances, C39_frame_recorded, C39_reframe, C39_sdc_observation, C39_is_ego_refuted, C39_heading_range_refuted, C39_paths_refuted, C40_nearest_first, C40_unchanged_samples, C40_ids, C41_speed_total, C41_speed_bounds, C41_speed_law, C41_free_road, C41_brakes_inside_wanted_gap, C41_monotone, C41_starts, C41_max_decel_bounds_braking_refuted, C42_lead_speed, C42_leader_of_scene, C42_lead_values_finite, C42_closest_object_leads_refuted, C42_leader_along_log, C42_log_too_short, C42_lead_distance_is_of_first_blocked_point_refuted, C43_projected_update, C43_invalid_objects, C43_velocity_along_heading_refuted, C43_no_valid_waypoint_invalidates_refuted, C44_constant_speed_moves_linearly, C45_masked_mean, C45_masked_mean_vector, C45_default_axis_refuted, C45_select_by_onehot, C45_select_nothing_is_zero, C45_select_poisoned, C45_invalid_data, C48_yaws, C49_box_mean, C52_expert_is_sdc_row, C52_expert_replays_sdc_log, C52_invalid_objects_can_poison_expert_refuted, C54_metrics_are_of_sdc, C54_kinematic_metric_masked_at_reset, C54_sdc_only_refuted, C54_reward_is_of_sdc, C56_equality, C56_reflexive_refuted, C61_box_geometry, C61_outline_is_overlap_box, C61_red_iff_overlap_metric, C62_replay_does_not_drift, C62_replay_is_exact_away_from_axes, C62_replay_heading, C62_wrap_range, C62_wrap_in_range, C62_wrap_idempotent, C62_wrap_nonfinite, C62_wrap_identity_refuted, C62_discretizer_roundtrip, C62_replay_exact_refuted, C63_limits, C63_delta_conforms, C63_bicycle_conforms, C63_discrete_conforms, C63_discount_conforms, C63_state_conforms, C63_conforming_moves_within_limits, C64_idm_runs, C64_constant_speed_runs, C64_idm_episode, C64_idm_straight_road, C64_idm_never_hits_parked_objects, C64_idm_overlap_metric_zero, C64_end_of_route_teleports, C64_idm_avoids_collisions_past_route_end_refuted, C66_idm_never_hits_traffic_ahead, C66_idm_overlap_metric_zero, C66_idm_never_hits_misreported_speed_refuted, C67_idm_sim_agent_episode, C67_idm_sim_agent_never_hits_traffic_ahead, C67_idm_sim_agent_overlap_metric_zero, C68_every_scene, C68_reset, C68_episode, C68_driven, C68_observation, C68_sdc_observation, C68_metrics, C68_offroad, C68_route, C68_expert, C68_long_step_refuted, C68_injection_refuted, C69_route, C69_agents, C69_planning_agents, C69_planning_metrics, C69_planning_reward, C69_planning_shipped, C69_planning_expert, C69_nan_padding_refuted, C73_reset, C73_episode, C73_run, C73_idm, C73_constant_speed, C73_frozen, C73_expert, C73_choices, C73_planned, C73_metrics, C73_reward, C73_shipped_metrics, C73_end_of_route_refuted, C73_expert_leaving_refuted, C73_marker_refuted, C74_bicycle_episode_stays_finite, C74_bicycle_speed_limit, C74_delta_episode_stays_finite, C74_bicycle_motion_is_feasible, C74_episode_is_feasible, C74_nan_action_refuted, C74_delta_is_not_clipped_refuted, C75_overlap_test, C75_overlap_report, C75_divergence_report, C75_expert_has_no_divergence, C75_overlap_without_tolerance_refuted, C75_zero_divergence_refuted, C76_idm_speed, C76_idm_episode, C76_idm_sim_agent_episode, C76_idm_runs, C76_zero_desired_speed_refuted, C77_idm_moves, C77_idm_sim_agent_moves, C77_constant_speed_route, C77_keeps_velocity, C77_given_speed, C77_moves_without_tolerance_refuted, C78_local_replay_does_not_drift, C78_local_episode_stays_finite, C78_local_replay_exact_refuted, C78_without_parity_refuted, C79_offroad_report, C79_wrongway_report, C79_off_route_report, C79_offroad_exact_refuted, C80_progression_report, C80_progression_nonnegative_refuted, C81_own_frame, C81_self, C81_distances, C81_sdc_observation, C81_nearest_points, C81_ids, C81_nearest_is_conversion, C82_linear_reward, C82_whole_numbers, C82_environment, C82_planning_environment, C82_planning_whole_numbers, C82_planning_metrics, C82_planning_kinematic, C82_outside_mask_zero_refuted, C82_planning_others_irrelevant_refuted, C83_masked_mean, C83_equal_entries_refuted.
