{
 "claims": [
  {
   "property": "C01",
   "status": "proved",
   "theorems": [
    "C01_slice_reads_window",
    "C01_index_reads_entry",
    "C01_slice_too_big_fails",
    "C01_write_changes_exactly_the_window",
    "C01_read_after_write",
    "C01_window_is_unique"
   ],
   "note": "For every array, integer start and window size."
  },
  {
   "property": "C02",
   "status": "proved",
   "theorems": [
    "C02_reset_exact",
    "C02_reset_ignores_simulation",
    "C02_reset_mid_episode",
    "C02_reset_wrong_object_count",
    "C02_reset_log_too_short"
   ],
   "note": "For every scalar interface. Includes the two error cases."
  },
  {
   "property": "C03",
   "status": "proved",
   "theorems": [
    "C03_step_writes_one_frame",
    "C03_controlled_pose_is_dynamics",
    "C03_step_total",
    "C03_shipped_dynamics_total",
    "C03_step_rejects_wrong_count",
    "C03_step_rejects_non_sdc"
   ],
   "note": "For every dynamics model and scalar interface."
  },
  {
   "property": "C04",
   "status": "proved",
   "theorems": [
    "C04_recorded_frames_never_change",
    "C04_warmup_and_future"
   ],
   "note": "Induction over action histories."
  },
  {
   "property": "C05",
   "status": "proved",
   "theorems": [
    "C05_only_last_frame_changes",
    "C05_clock_keeps_running",
    "C05_last_frame_is_overwritten",
    "C05_finished_record_immutable_refuted"
   ],
   "note": "The naive expectation (a finished record is immutable) is refuted; what holds is proved."
  },
  {
   "property": "C06",
   "status": "proved",
   "theorems": [
    "C06_clock",
    "C06_end_signals_agree"
   ],
   "note": "Also beyond the end of the episode."
  },
  {
   "property": "C07",
   "status": "proved",
   "theorems": [
    "C07_uncontrolled_replay_log",
    "C07_timestamps_replay_log",
    "C07_height_and_size_frozen",
    "C07_full_frame_replay_refuted"
   ],
   "note": "Full-frame replay (z, box size) is refuted; pose, velocity and timestamp replay is proved. init_steps >= 1."
  },
  {
   "property": "C08",
   "status": "proved",
   "theorems": [
    "C08_controlled_validity",
    "C08_uncontrolled_validity",
    "C08_no_object_appears"
   ],
   "note": "init_steps >= 1."
  },
  {
   "property": "C09",
   "status": "proved",
   "theorems": [
    "C09_step_validity",
    "C09_uncontrolled_validity",
    "C09_controlled_validity",
    "C09_injected_at_logged_pose_refuted"
   ],
   "note": "Appearing at the logged pose is refuted. init_steps >= 1."
  },
  {
   "property": "C10",
   "status": "proved",
   "theorems": [
    "C10_only_controlled_actions_matter",
    "C10_objects_do_not_interfere",
    "C10_episodes",
    "C10_shipped_dynamics_local"
   ],
   "note": "Per step and per episode; locality of each shipped dynamics model is proved."
  },
  {
   "property": "C11",
   "status": "proved",
   "theorems": [
    "C11_valid_flag_has_no_effect",
    "C11_invalid_action_has_effect_refuted",
    "C11_fallback"
   ],
   "note": "The documented effect of the flag is refuted; the flag is proved to have no effect."
  },
  {
   "property": "C12",
   "status": "proved",
   "theorems": [
    "C12_get_control_mask",
    "C12_mask_is_determined_by_scenario",
    "C12_mask_constant_over_episode",
    "C12_controlled_objects_stay_valid"
   ],
   "note": "init_steps >= 1 (with init_steps = 0 the mask would be read at index -1)."
  },
  {
   "property": "C13",
   "status": "proved",
   "theorems": [
    "C13_expert_replays_log",
    "C13_expert_never_fails",
    "C13_expert_replays_log_delta",
    "C13_expert_delta_never_fails"
   ],
   "note": "StateDynamics for every scalar type; DeltaGlobal over exact reals. Closed loop, any number of steps."
  },
  {
   "property": "C14",
   "status": "proved",
   "theorems": [
    "C14_delta_global_inverse_then_forward",
    "C14_delta_global_exact",
    "C14_delta_local_exact",
    "C14_local_frame_limits_alone_refuted"
   ],
   "note": "Exact reals. DeltaLocal needs the displacement within limits in both frames because the code clips twice; refutation included."
  },
  {
   "property": "C15",
   "status": "proved",
   "theorems": [
    "C15_delta_global_in_spec",
    "C15_delta_local_in_spec",
    "C15_bicycle_in_spec",
    "C15_state_in_spec",
    "C15_yaw_limit_refuted"
   ],
   "note": "Finite frames, exact reals. Holds for max_dyaw >= pi; a smaller published yaw limit is not enforced (refuted)."
  },
  {
   "property": "C16",
   "status": "proved",
   "theorems": [
    "C16_bicycle_limits",
    "C16_bicycle_motion",
    "C16_out_of_range_action_is_clamped",
    "C16_velocity_vector_limit_refuted"
   ],
   "note": "Environment step, every non-NaN action. The bound is on speed; the velocity vector of a reversing vehicle flips (refuted)."
  },
  {
   "property": "C17",
   "status": "proved",
   "theorems": [
    "C17_bicycle_recovers_action",
    "C17_no_steering_at_low_speed"
   ],
   "note": "Exact recovery above 0.6 m/s, raw and normalised actions, stated through env step and inverse."
  },
  {
   "property": "C18",
   "status": "proved",
   "theorems": [
    "C18_bicycle_motion_is_feasible",
    "C18_general",
    "C18_metric_flags_infeasible_motion"
   ],
   "note": "Default bicycle model and default metric thresholds, plus general parameters."
  },
  {
   "property": "C19",
   "status": "proved",
   "theorems": [
    "C19_total",
    "C19_index_in_range",
    "C19_half_bin",
    "C19_decode_encode",
    "C19_clamps",
    "C19_out_of_range_index",
    "C19_maximum_code",
    "C19_both_mismatched_rejected",
    "C19_shape_check_refuted"
   ],
   "note": "Exact real arithmetic plus infinities for the round trips; index range for every number type. Finding: the constructor's shape check accepts mismatched inputs (C19_shape_check_refuted)."
  },
  {
   "property": "C20",
   "status": "proved",
   "theorems": [
    "C20_step_is_decoded_step",
    "C20_action_spec",
    "C20_inverse_legal",
    "C20_search_total",
    "C20_search_optimal",
    "C20_search_optimal_delta",
    "C20_search_invalid_default",
    "C20_search_non_sdc_gets_zero"
   ],
   "note": "Holds for the SDC; finding: the search-based inverse returns index 0 for every other object (C20_search_non_sdc_gets_zero)."
  },
  {
   "property": "C21",
   "status": "proved",
   "theorems": [
    "C21_wrap_is_the_normal_form",
    "C21_wrap_idempotent",
    "C21_wrap_never_increases_magnitude",
    "C21_wrap_nonfinite"
   ],
   "note": "Exact reals; NaN for non-finite input."
  },
  {
   "property": "C22",
   "status": "proved",
   "theorems": [
    "C22_pose_is_rigid",
    "C22_pose_headings",
    "C22_pose_velocities",
    "C22_combine_changes_frames",
    "C22_combine_headings",
    "C22_combine_origin"
   ],
   "note": "Exact reals."
  },
  {
   "property": "C23",
   "status": "proved",
   "theorems": [
    "C23_corners",
    "C23_corners_rectangle"
   ],
   "note": "Exact reals."
  },
  {
   "property": "C24",
   "status": "proved",
   "theorems": [
    "C24_overlap_exact",
    "C24_overlap_symmetric",
    "C24_overlap_rigid_invariant",
    "C24_degenerate_box",
    "C24_self_overlap",
    "C24_pairwise_table"
   ],
   "note": "Exact reals; equivalence with interiors meeting, via the separating axis theorem."
  },
  {
   "property": "C25",
   "status": "proved",
   "theorems": [
    "C25_total",
    "C25_overlap_metric",
    "C25_overlap_metric_any_numbers",
    "C25_reported_together"
   ],
   "note": "Value and validity for every state; geometry over the reals via the exact box test of C24; structural version for every number type."
  },
  {
   "property": "C26",
   "status": "proved",
   "theorems": [
    "C26_total",
    "C26_log_divergence",
    "C26_nonneg_and_zero",
    "C26_validity",
    "C26_expert_has_no_divergence"
   ],
   "note": "Distance, non-negativity, zero iff equal positions, validity; also shown 0 under closed-loop expert control."
  },
  {
   "property": "C27",
   "status": "proved",
   "theorems": [
    "C27_offroad_metric",
    "C27_always_valid",
    "C27_total",
    "C27_no_edge_no_offroad_refuted"
   ],
   "note": "Exact characterisation on maps with at least one valid road edge point, finite coordinates. Refuted: a map without road edges still reports off-road positions (first map point is used)."
  },
  {
   "property": "C28",
   "status": "proved",
   "theorems": [
    "C28_wrongway",
    "C28_off_route",
    "C28_wrongway_threshold",
    "C28_off_route_threshold",
    "C28_progression",
    "C28_progression_at_ends",
    "C28_progression_scale_free",
    "C28_no_paths",
    "C28_progression_nonnegative_refuted"
   ],
   "note": "Exact values of all three metrics for finite positions and paths and a unique SDC; thresholds, end points, scale invariance. Refuted: documented non-negativity of progression."
  },
  {
   "property": "C29",
   "status": "proved",
   "theorems": [
    "C29_linear_reward",
    "C29_construction"
   ],
   "note": "Weighted sum for any registry whose metrics return finite results; construction guard. No batch dimensions."
  },
  {
   "property": "C30",
   "status": "proved",
   "theorems": [
    "C30_register",
    "C30_history",
    "C30_run_metrics",
    "C30_run_metrics_total",
    "C30_unknown_name",
    "C30_unknown_name_value_error"
   ],
   "note": "All registration histories; run_metrics results and failures."
  },
  {
   "property": "C31",
   "status": "proved",
   "theorems": [
    "C31_last_claim_wins",
    "C31_cases_exhaustive",
    "C31_total_iff_shapes_agree",
    "C31_no_actor_fails",
    "C31_order_irrelevant",
    "C31_builtin_actors_claim_controlled",
    "C31_first_actor_matters_refuted"
   ],
   "note": "merge_actions for any number of outputs. Broadcasting of size-1 axes is not modelled (treated as a shape error)."
  },
  {
   "property": "C32",
   "status": "proved",
   "theorems": [
    "C32_step_merges_planner_agents_and_log",
    "C32_reset_initialises_agents",
    "C32_episode_clock_and_warmup",
    "C32_history_is_immutable",
    "C32_no_agents_is_base_environment",
    "C32_step_total"
   ],
   "note": "Whole step of PlanningAgentEnvironment for any list of sim agents and any dynamics model, and episode-level consequences."
  },
  {
   "property": "C33",
   "status": "proved",
   "theorems": [
    "C33_initial_overlap_replays_log",
    "C33_sharing_a_point_blocks",
    "C33_disjoint_is_not_blocked",
    "C33_absent_objects_block_each_other"
   ],
   "note": "Replay of initially overlapping objects over whole episodes; geometric characterisation of the overlap over the reals; absent objects block each other."
  },
  {
   "property": "C34",
   "status": "proved",
   "theorems": [
    "C34_rollout_is_closed_loop",
    "C34_rollout_prefix",
    "C34_rows_are_episode",
    "C34_padding_action_is_invalid",
    "C34_expert_rollout_replays_log",
    "C34_rollout_total",
    "C34_overlong_rollout_rejected_refuted"
   ],
   "note": "Any AbstractEnvironment and actor (arbitrary types): iff characterisation by the closed-loop recurrence incl. key threading; prefix property; base environment rows = episode states; expert rollout replays the log. Refuted: an overlong rollout is rejected."
  },
  {
   "property": "C35",
   "status": "proved",
   "theorems": [
    "C35_protocol",
    "C35_base_environment",
    "C35_planning_environment",
    "C35_base_protocol",
    "C35_refused_steps_change_nothing",
    "C35_discount_is_one",
    "C35_step_effect"
   ],
   "note": "Every call history, any environment with episodes of known length; instantiated for the base environment and the planning environment without sim agents. The reward is assumed computable on well-formed states (always true with compute_reward=False)."
  },
  {
   "property": "C36",
   "status": "proved",
   "theorems": [
    "C36_one_scenario_per_reset",
    "C36_current_state",
    "C36_drained",
    "C36_exhausted_scenario",
    "C36_step_needs_successful_reset_refuted",
    "C36_uneven_batch"
   ],
   "note": "Every history of every environment. Refuted: a step is only accepted after a successful reset."
  },
  {
   "property": "C37",
   "status": "proved",
   "theorems": [
    "C37_step",
    "C37_reset",
    "C37_episode",
    "C37_base_environment",
    "C37_reset_reports_exhausted_scenario_refuted"
   ],
   "note": "Any environment with episodes of known length. Refuted: reset reports an exhausted scenario as done."
  },
  {
   "property": "C38",
   "status": "proved",
   "theorems": [
    "C38_window",
    "C38_total",
    "C38_no_future",
    "C38_causal",
    "C38_sdc_causal",
    "C38_unchecked_refuted"
   ],
   "note": "Window and no-future theorems over episodes of accepted configurations, both observation functions; _refuted shows the wrap-around without the check."
  },
  {
   "property": "C39",
   "status": "proved",
   "theorems": [
    "C39_own_frame",
    "C39_self",
    "C39_distances",
    "C39_frame_recorded",
    "C39_reframe",
    "C39_sdc_observation",
    "C39_global",
    "C39_is_ego",
    "C39_is_ego_refuted",
    "C39_heading_range_refuted",
    "C39_paths_refuted"
   ],
   "note": "Own/SDC/global frames for all reals; findings: is_ego only at (1,1), routes not transformed, headings not normalised."
  },
  {
   "property": "C40",
   "status": "proved",
   "theorems": [
    "C40_outcome",
    "C40_nearest_first",
    "C40_nearest_float_unique",
    "C40_unchanged_samples",
    "C40_small_ids_are_floats",
    "C40_ids",
    "C40_ids_refuted"
   ],
   "note": "Full ranking characterisation over the reals; integer fields go through float32, exactness iff representable."
  },
  {
   "property": "C41",
   "status": "proved",
   "theorems": [
    "C41_speed_total",
    "C41_speed_bounds",
    "C41_speed_law",
    "C41_free_road",
    "C41_brakes_inside_wanted_gap",
    "C41_monotone",
    "C41_starts",
    "C41_max_decel_bounds_braking_refuted"
   ],
   "note": "Real-number IDM law: exact next speed for the leader of the scene, bounds, free-road and braking behaviour, monotonicity; totality. Deceleration is not bounded by max_decel (refuted)."
  },
  {
   "property": "C42",
   "status": "proved",
   "theorems": [
    "C42_lead_speed",
    "C42_leader_of_scene",
    "C42_lead_values_finite",
    "C42_closest_object_leads_refuted",
    "C42_leader_along_log",
    "C42_log_too_short",
    "C42_lead_distance_is_of_first_blocked_point_refuted"
   ],
   "note": "Both look-ahead modes: from the present position and along the log. Refuted: the closest object leads; the lead distance is that of the first blocked point."
  },
  {
   "property": "C43",
   "status": "proved",
   "theorems": [
    "C43_projected_update",
    "C43_invalid_objects",
    "C43_update_total",
    "C43_straight_stretch",
    "C43_velocity_along_heading_refuted",
    "C43_no_valid_waypoint_invalidates_refuted"
   ],
   "note": "Update of every waypoint policy, for every speed rule; velocity/heading mismatch and no-valid-waypoint behaviour shown as refuted expectations."
  },
  {
   "property": "C44",
   "status": "proved",
   "theorems": [
    "C44_constant_speed_moves_linearly",
    "C44_constant_speed_validity",
    "C44_constant_speed_total",
    "C44_frozen_objects_keep_pose",
    "C44_frozen_action"
   ],
   "note": "Constant-speed law over the reals in closed loop, frozen agent over planning episodes for every scalar type."
  },
  {
   "property": "C45",
   "status": "proved",
   "theorems": [
    "C45_masked_mean",
    "C45_masked_mean_total",
    "C45_masked_mean_ignores_invalid",
    "C45_masked_mean_vector",
    "C45_default_axis_raises",
    "C45_default_axis_refuted",
    "C45_update_by_mask",
    "C45_masked_value",
    "C45_select_by_onehot",
    "C45_select_nothing_is_zero",
    "C45_select_poisoned",
    "C45_select_length_mismatch",
    "C45_invalid_data"
   ],
   "note": "masked_mean on vectors/matrices with axis -1 and 0; masks must have the shape of the data (mask broadcasting not modelled); sums are exact (XR)."
  },
  {
   "property": "C46",
   "status": "proved",
   "theorems": [
    "C46_names",
    "C46_name_is_unique",
    "C46_name_is_decodable",
    "C46_distinct",
    "C46_paths_share_all_or_nothing",
    "C46_rejected",
    "C46_count_text",
    "C46_accepted_paths",
    "C46_other_paths_raise",
    "C46_loader_expands",
    "C46_at_in_directory_fails_refuted",
    "C46_percent_refuted"
   ],
   "note": "Every path base@n stands for n distinct, decodable names; exactly which texts int() accepts as a count (ASCII) and hence which paths are accepted; '@' in the directory and '%' in the base are refuted cases."
  },
  {
   "property": "C47",
   "status": "proved",
   "theorems": [
    "C47_files_of_a_shard",
    "C47_every_file_once",
    "C47_all_data",
    "C47_runs",
    "C47_zero_batch_fails",
    "C47_num_shards_without_batching",
    "C47_num_shards_no_effect_refuted",
    "C47_seeds_must_agree_refuted",
    "C47_single_file_order",
    "C47_distributed"
   ],
   "note": "All schedules of interleaving, shuffling and parallel calls are covered by a relation; finite repeat only; the claim that num_shards has no effect is refuted with drop_remainder."
  },
  {
   "property": "C48",
   "status": "proved",
   "theorems": [
    "C48_aggregate",
    "C48_succeeds",
    "C48_truncation",
    "C48_negative_maximum",
    "C48_yaws",
    "C48_which_time_is_cut",
    "C48_truncation_keeps_time_and_sdc_refuted",
    "C48_batched_which_time_refuted"
   ],
   "note": "aggregation of past/current/future features into one time axis, for every dictionary and window sizes; success conditions; truncation and yaw handling; two natural expectations refuted (truncation cuts which_time style per-time keys; batched which_time)"
  },
  {
   "property": "C49",
   "status": "proved",
   "theorems": [
    "C49_load",
    "C49_loadable",
    "C49_time_key",
    "C49_box_constant",
    "C49_box_mean",
    "C49_export",
    "C49_export_early",
    "C49_validate",
    "C49_export_succeeds",
    "C49_paths_cannot_be_exported",
    "C49_description",
    "C49_metadata_round_trip",
    "C49_past_round_trip",
    "C49_future_reloads_as_valid",
    "C49_end_to_end",
    "C49_past_is_earlier_refuted",
    "C49_counts_agree_refuted"
   ],
   "note": "Findings: before step h the exported past is the last h frames of the trajectory (C49_past_is_earlier_refuted); the exported future has validity -1, which loads as valid (C49_future_reloads_as_valid); an export that asks for paths always fails; loading does not compare object counts (C49_counts_agree_refuted). ids and types pass through floats: C49_metadata_round_trip asks that they are representable, C49_exact shows this for reals."
  },
  {
   "property": "C50",
   "status": "proved",
   "theorems": [
    "C50_env_config",
    "C50_waymax_config",
    "C50_metrics_never_fail",
    "C50_reward_never_fails",
    "C50_unchecked_reward_fails",
    "C50_rewards_checked_refuted"
   ],
   "note": "Exact acceptance conditions and their consequences for every reachable state; finding: rewards are not checked against the data configuration."
  },
  {
   "property": "C51",
   "status": "proved",
   "theorems": [
    "C51_sim_agents_always_fail",
    "C51_sim_agents_value_error",
    "C51_without_sim_agents",
    "C51_configured_agent_claims",
    "C51_configured_agents_work_refuted"
   ],
   "note": "All configurations; refuted expectation that configured sim agents work."
  },
  {
   "property": "C52",
   "status": "proved",
   "theorems": [
    "C52_expert_is_sdc_row",
    "C52_expert_replays_sdc_log",
    "C52_invalid_objects_can_poison_expert_refuted"
   ],
   "note": "Row selection for every wrapped dynamics; closed-loop replay for StateDynamics; refutation for non-finite values."
  },
  {
   "property": "C53",
   "status": "proved",
   "theorems": [
    "C53_forward_fails_unless_one_object",
    "C53_forward_one_object",
    "C53_allow_new_objects_ignored",
    "C53_wrapped_model_uses_injection_refuted"
   ],
   "note": "Documented behaviour fails for every scene with other than one object."
  },
  {
   "property": "C54",
   "status": "proved",
   "theorems": [
    "C54_metrics_are_of_sdc",
    "C54_other_metrics_unchanged",
    "C54_kinematic_metric_masked_at_reset",
    "C54_metrics_defined",
    "C54_sdc_only_refuted",
    "C54_reward_is_of_sdc",
    "C54_reward_off_is_zero"
   ],
   "note": "Selected metrics, masked kinematic metric and reward for any registry; when the metrics are defined at all; refutation for non-finite values of other objects."
  },
  {
   "property": "C55",
   "status": "proved",
   "theorems": [
    "C55_update_valid_iff_frame_and_action",
    "C55_state_update_valid_iff_action",
    "C55_inverse_valid_iff_both_frames",
    "C55_state_inverse_valid_iff_next_frame"
   ],
   "note": "All four dynamics models."
  },
  {
   "property": "C56",
   "status": "proved",
   "theorems": [
    "C56_equality",
    "C56_reflexive_refuted"
   ],
   "note": "structures are modelled as lists of one-dimensional leaf arrays; bool/int leaves compare like their numeric images."
  },
  {
   "property": "C57",
   "status": "proved",
   "theorems": [
    "C57_no_lookahead",
    "C57_observers_are_causal",
    "C57_accepted_observation",
    "C57_expert_refuted"
   ],
   "note": "Relational theorem on pairs of closed-loop runs."
  },
  {
   "property": "C58",
   "status": "proved",
   "theorems": [
    "C58_unbatched",
    "C58_unbatched_total",
    "C58_batched",
    "C58_own_view_refuted"
   ],
   "note": "Exact law of the code plus refutation of the documented one."
  },
  {
   "property": "C59",
   "status": "proved",
   "theorems": [
    "C59_reset",
    "C59_reset_succeeds",
    "C59_step",
    "C59_episode",
    "C59_independence",
    "C59_shipped_dynamics",
    "C59_current_frame",
    "C59_update_by_log",
    "C59_episode_end",
    "C59_is_done",
    "C59_forward_refuses",
    "C59_own_clocks_cannot_step_refuted",
    "C59_own_clocks_value_error",
    "C59_loaded_batch_validates",
    "C59_reset_batch_invalid_refuted"
   ],
   "note": "Equations between the batched call and the call on each scenario, for every batch shape; own clocks and validate-after-reset refuted."
  },
  {
   "property": "C60",
   "status": "proved",
   "theorems": [
    "C60_object_metrics",
    "C60_offroad",
    "C60_kinematic",
    "C60_kinematic_own_clocks_refuted",
    "C60_sdc_metrics",
    "C60_reward",
    "C60_sdc_reward_one",
    "C60_sdc_reward_raises_refuted",
    "C60_sdc_reward_crossed_refuted",
    "C60_sdc_reward_shape_refuted"
   ],
   "note": "Batched metrics and rewards on arrays of any batch shape, compared with the single-scenario model at every batch index. Refuted parts: KIM with one clock per scenario; rewards with SDC metrics on batches (three theorems, one per coincidence of sizes). The minimum over two axes in ProgressionMetric is taken path by path."
  },
  {
   "property": "C61",
   "status": "proved",
   "theorems": [
    "C61_trajectory",
    "C61_invalid_hidden",
    "C61_scene",
    "C61_observation",
    "C61_brax",
    "C61_batch_index",
    "C61_unbatched",
    "C61_rank_checked",
    "C61_unknown_light_refuted",
    "C61_time_idx_required_refuted",
    "C61_center_agent_refuted",
    "C61_road_lines_refuted",
    "C61_before_reset_refuted",
    "C61_box_geometry",
    "C61_outline_is_overlap_box",
    "C61_red_iff_overlap_metric"
   ],
   "note": "A picture is the list of marks and the axis limits; matplotlib, marker sizes, transparency and z-order are not modelled. Indices outside a batch are excluded (numpy raises, jax clamps)."
  },
  {
   "property": "C62",
   "status": "proved",
   "theorems": [
    "C62_replay_does_not_drift",
    "C62_replay_is_exact_away_from_axes",
    "C62_replay_heading",
    "C62_replay_never_fails",
    "C62_wrap_range",
    "C62_wrap_in_range",
    "C62_wrap_idempotent",
    "C62_wrap_nonfinite",
    "C62_wrap_identity_refuted",
    "C62_discretizer_roundtrip",
    "C62_replay_exact_refuted"
   ],
   "note": "float32 (Flocq binary32), maths library arbitrary; no fused or reassociated operations. Discretiser: lower bound no further from 0 than the range is wide, at most 2^20 bins per dimension."
  },
  {
   "property": "C63",
   "status": "proved",
   "theorems": [
    "C63_bounds_checked",
    "C63_shipped_specs",
    "C63_multi_agent_spec",
    "C63_limits",
    "C63_delta_conforms",
    "C63_bicycle_conforms",
    "C63_discrete_conforms",
    "C63_conforming_actions_accepted",
    "C63_valid_part",
    "C63_planning_spec_repeats",
    "C63_squeeze",
    "C63_time_steps_conform",
    "C63_discount_conforms",
    "C63_state_conforms",
    "C63_only_entries_count",
    "C63_shape_checked_refuted",
    "C63_conforming_moves_within_limits",
    "C63_state_dynamics_in_dm_env_refuted",
    "C63_state_dynamics_in_planning"
   ],
   "note": "Shapes, types and bounds of action, observation, reward and discount specs. Refuted: that shapes are checked (C63_shape_checked_refuted) and that the dm_env wrapper works with StateDynamics in a BaseEnvironment (C63_state_dynamics_in_dm_env_refuted; dm_env keeps scalar bounds 0-d, so minimum[newaxis,:] raises IndexError). The valid part of action specs is not modelled."
  },
  {
   "property": "C64",
   "status": "proved",
   "theorems": [
    "C64_idm_runs",
    "C64_constant_speed_runs",
    "C64_idm_episode",
    "C64_idm_straight_road",
    "C64_idm_never_hits_parked_objects",
    "C64_idm_overlap_metric_zero",
    "C64_end_of_route_teleports",
    "C64_idm_avoids_collisions_past_route_end_refuted"
   ],
   "note": "Base environment with StateDynamics; collision avoidance for the default IDM parameters, straight road, other objects parked or absent; the failures past the end of the route are proved as _refuted and C64_end_of_route_teleports."
  },
  {
   "property": "C65",
   "status": "proved",
   "theorems": [
    "C65_same_shape_types",
    "C65_refusal_is_assertion_error",
    "C65_paths",
    "C65_masked_array",
    "C65_action",
    "C65_pose",
    "C65_observation",
    "C65_state",
    "C65_zeros",
    "C65_forward_state",
    "C65_forward_delta_global",
    "C65_forward_delta_local",
    "C65_forward_bicycle",
    "C65_forward_no_frames",
    "C65_forward_floating_flags",
    "C65_valid_means_float32_refuted",
    "C65_valid_state_has_valid_parts_refuted",
    "C65_valid_observation_agrees_on_objects_refuted",
    "C65_one_action_per_object_refuted"
   ],
   "note": "Shape and element-type level: tensors are a shape and a dtype. chex's assertions are modelled from their documentation (assert_type accepts any dtype of the expected kind). Refuted: valid means float32; a valid state has valid parts; a valid observation agrees on the number of objects; forward needs one action per object (bicycle broadcasts)."
  },
  {
   "property": "C66",
   "status": "proved",
   "theorems": [
    "C66_idm_never_hits_traffic_ahead",
    "C66_idm_overlap_metric_zero",
    "C66_idm_never_hits_misreported_speed_refuted"
   ],
   "note": "IDM behind moving traffic over the reals; needs the recorded speeds not to exceed the actual motion (refuted otherwise), vehicles keeping their order, and a logged route long enough."
  },
  {
   "property": "C67",
   "status": "proved",
   "theorems": [
    "C67_idm_sim_agent_episode",
    "C67_idm_sim_agent_never_hits_traffic_ahead",
    "C67_idm_sim_agent_overlap_metric_zero"
   ],
   "note": "Sim agents: any actor list where the IDM actor is the last to claim the object. The other objects' conditions are on the simulated trajectory, so they cover any planner, dynamics and agents."
  },
  {
   "property": "C68",
   "status": "proved",
   "theorems": [
    "C68_every_scene",
    "C68_reset",
    "C68_episode",
    "C68_driven",
    "C68_observation",
    "C68_sdc_observation",
    "C68_metrics",
    "C68_offroad",
    "C68_route",
    "C68_expert",
    "C68_long_step_refuted",
    "C68_injection_refuted"
   ],
   "note": "Rotations and translations of the map, over the reals. Injection (allow_new_objects_after_warmup) and displacement steps beyond the limits are shown to depend on the frame (C68_injection_refuted, C68_long_step_refuted); the routes of an SDC observation stay in map coordinates (C39_paths_refuted). Route metrics need the positions of all objects at the read steps to be finite, off-road needs at least one valid road edge."
  },
  {
   "property": "C69",
   "status": "proved",
   "theorems": [
    "C69_every_scene",
    "C69_reset",
    "C69_episode",
    "C69_models",
    "C69_expert",
    "C69_closed_loop",
    "C69_metrics",
    "C69_route",
    "C69_reward",
    "C69_observation",
    "C69_sdc_observation",
    "C69_agents",
    "C69_planning",
    "C69_planning_reordered",
    "C69_planning_agents",
    "C69_controlled_sets",
    "C69_planning_metrics",
    "C69_planning_reward",
    "C69_planning_shipped",
    "C69_planning_expert",
    "C69_overlapping_padding_refuted",
    "C69_is_ego_refuted",
    "C69_nan_padding_refuted"
   ],
   "note": "Scenes related by any injective placement of the objects (order and padding). Any Scalar for the simulator, planning environment, metrics per object, rewards and observations; extended reals for route metrics, agents, and the planning environment's report, reward and expert action. Order-dependence of is_ego, of NaN padding and of padding that overlaps an object (planning environment) proved as refutations."
  },
  {
   "property": "C70",
   "status": "proved",
   "theorems": [
    "C70_loading",
    "C70_runs",
    "C70_order",
    "C70_readable",
    "C70_bad_record_raises",
    "C70_reset",
    "C70_paths_without_sizes",
    "C70_without_aggregation_refuted",
    "C70_object_by_object_refuted",
    "C70_rows",
    "C70_nested_remainder_refuted",
    "C70_sdc_cut_off"
   ],
   "note": "Model/Loader.v: record parser, preprocessing, pipeline, stacking, pmap and the batched factories; repeat=None (endless) is not modelled, and an unreadable record in a dropped remainder goes unnoticed in the model."
  },
  {
   "property": "C71",
   "status": "proved",
   "theorems": [
    "C71_file_to_episode",
    "C71_expert",
    "C71_planning",
    "C71_one_scenario",
    "C71_reproducible"
   ],
   "note": "From records in files to the end of an episode, for base and planning environment (the latter without sim agents, unbatched); the pose of unsteered objects, warm-up frames and times are those of the record (z and box stay at the last warm-up step, see C07). Reproducibility from uniqueness of the scenario of a record and C59."
  },
  {
   "property": "C72",
   "status": "proved",
   "theorems": [
    "C72_agents",
    "C72_choices",
    "C72_dynamics",
    "C72_reset",
    "C72_step",
    "C72_episode",
    "C72_independence",
    "C72_metrics",
    "C72_reward",
    "C72_sdc_reward_raises_refuted",
    "C72_expert",
    "C72_expert_run",
    "C72_own_clocks_refuted",
    "C72_sdc_reward_crossed_refuted"
   ],
   "note": "Proved for all batch shapes and all number types, for sim agents that keep scenarios apart (agent_of), which all shipped agents are shown to do (expert and constant-speed actors with the state dynamics the environment steps with). Rewards from SDC metrics and per-scenario clocks are refuted."
  },
  {
   "property": "C73",
   "status": "proved",
   "theorems": [
    "C73_reset",
    "C73_episode",
    "C73_run",
    "C73_idm",
    "C73_constant_speed",
    "C73_frozen",
    "C73_expert",
    "C73_choices",
    "C73_planned",
    "C73_metrics",
    "C73_reward",
    "C73_shipped_metrics",
    "C73_end_of_route_refuted",
    "C73_expert_leaving_refuted",
    "C73_marker_refuted"
   ],
   "note": "Real arithmetic. Markers of absent objects at the first logged step are assumed to overlap the same boxes in both frames (C73_marker_refuted shows why); object injection off. Agents that send objects to the marker at the route's end or when leaving the log are refuted. Metrics and reward for any registry whose metrics agree about the SDC; the shipped ones are shown to, under the finiteness conditions of C68."
  },
  {
   "property": "C74",
   "status": "proved",
   "theorems": [
    "C74_bicycle_episode_stays_finite",
    "C74_bicycle_speed_limit",
    "C74_delta_episode_stays_finite",
    "C74_bicycle_motion_is_feasible",
    "C74_episode_is_feasible",
    "C74_nan_action_refuted",
    "C74_delta_is_not_clipped_refuted"
   ],
   "note": "Float32 (Flocq binary32). sin, cos, atan2 are arbitrary functions with the accuracy stated in Spec/F32EpisodeSpec.v; a correctly rounded library is exhibited. Feasibility is for the metric's default thresholds, bicycle limits up to the defaults, logged headings in [-4, 4] and speeds up to 1000 m/s. C18 is the exact-arithmetic counterpart."
  },
  {
   "property": "C75",
   "status": "proved",
   "theorems": [
    "C75_overlap_symmetric",
    "C75_overlap_test",
    "C75_overlap_report",
    "C75_divergence_report",
    "C75_expert_has_no_divergence",
    "C75_overlap_without_tolerance_refuted",
    "C75_zero_divergence_refuted"
   ],
   "note": "binary32 with any maths library whose sine and cosine are accurate to 2^-23; headings in [-4, 4], sizes up to P / 8. Both tolerances shown to be needed."
  },
  {
   "property": "C76",
   "status": "proved",
   "theorems": [
    "C76_idm_speed",
    "C76_idm_episode",
    "C76_idm_sim_agent_episode",
    "C76_idm_runs",
    "C76_zero_desired_speed_refuted"
   ],
   "note": "Float32 (Flocq binary32); library assumptions accurate32 and pow32 are met by the correctly rounded library (C76_ex_library). The other objects are arbitrary, and so are the planner's actions when the agent is a sim agent of the planning environment (C76_idm_sim_agent_episode). C76_zero_desired_speed_refuted: a desired speed of 0 gives NaN."
  },
  {
   "property": "C77",
   "status": "proved",
   "theorems": [
    "C77_idm_moves",
    "C77_idm_sim_agent_moves",
    "C77_constant_speed_route",
    "C77_keeps_velocity",
    "C77_given_speed",
    "C77_moves_without_tolerance_refuted"
   ],
   "note": "Float32 (Flocq binary32); library assumptions as in C76. Cases: C77_ex_idm, C77_ex_route, C77_ex_straight, C77_ex_given, and C76_ex_sim_agent for the planning environment. C77_moves_without_tolerance_refuted: far from the origin an object with a positive speed never moves."
  },
  {
   "property": "C78",
   "status": "proved",
   "theorems": [
    "C78_local_replay_does_not_drift",
    "C78_local_replay_never_fails",
    "C78_local_episode_stays_finite",
    "C78_local_replay_exact_refuted",
    "C78_without_parity_refuted"
   ],
   "note": "float32: DeltaLocal replay without drift, never fails, finite episodes; exactness and dropping the parity hypothesis are refuted"
  },
  {
   "property": "C79",
   "status": "proved",
   "theorems": [
    "C79_offroad_report",
    "C79_wrongway_report",
    "C79_off_route_report",
    "C79_offroad_exact_refuted"
   ],
   "note": "float32; off-road, wrong-way and off-route metrics up to a stated tolerance; exactness refuted"
  },
  {
   "property": "C80",
   "status": "proved",
   "theorems": [
    "C80_progression_report",
    "C80_progression_nonnegative_refuted"
   ],
   "note": "progression metric on IEEE binary32, any maths library"
  },
  {
   "property": "C81",
   "status": "proved",
   "theorems": [
    "C81_own_frame",
    "C81_self",
    "C81_distances",
    "C81_sdc_observation",
    "C81_nearest_points",
    "C81_ids",
    "C81_nearest_is_conversion"
   ],
   "note": "float32 with IEEE binary32 (Flocq) and no fused multiply-add; maths library assumed accurate to 2^-23 and exact at 0; the exact zero of C81_self depends on products and sums being rounded separately in the order of the source"
  },
  {
   "property": "C82",
   "status": "proved",
   "theorems": [
    "C82_linear_reward",
    "C82_whole_numbers",
    "C82_environment",
    "C82_planning_environment",
    "C82_planning_whole_numbers",
    "C82_planning_metrics",
    "C82_planning_kinematic",
    "C82_outside_mask_zero_refuted",
    "C82_planning_others_irrelevant_refuted"
   ],
   "note": "IEEE binary32 (Flocq), sums in the order of the source"
  },
  {
   "property": "C83",
   "status": "proved",
   "theorems": [
    "C83_masked_mean",
    "C83_equal_entries_refuted"
   ],
   "note": ""
  }
 ]
}