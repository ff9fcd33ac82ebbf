{"id": "C01", "title": "Time indexing is in-bounds and has one fixed out-of-range rule", "statement": "dynamic_slice/dynamic_index/update_by_slice_in_dim read or write exactly the requested window when it lies inside the axis; a negative start counts from the end and any other out-of-range start is clamped so the window fits. A write changes the window and nothing else, and reading a window just written returns what was written.", "quantifier": "all arrays, all integer starts, all window sizes not larger than the axis", "why_tests_cant": "Every environment function indexes time through these; tests exercise a handful of starts, never the whole integer range including negative and past-the-end starts.", "anchors": ["waymax/datatypes/operations.py:dynamic_slice", "waymax/datatypes/operations.py:dynamic_index", "waymax/datatypes/operations.py:update_by_slice_in_dim"]}
{"id": "C02", "title": "reset depends only on the log", "statement": "After reset the simulated trajectory equals the log on the first init_steps frames and is marked invalid (-1/False in every field) afterwards, the timestep is init_steps-1, nothing else changes, and the result does not depend on the simulated trajectory or the timestep passed in (in particular reset is idempotent, and can be called in the middle of an episode).", "quantifier": "all scenarios with the configured number of objects and at least init_steps frames, all contents of the incoming simulated trajectory and timestep", "why_tests_cant": "Needs to hold for arbitrary stale simulation contents and any scenario length.", "anchors": ["waymax/env/base_environment.py:BaseEnvironment.reset", "waymax/datatypes/simulator_state.py:update_state_by_log", "waymax/datatypes/object_state.py:fill_invalid_trajectory"]}
{"id": "C03", "title": "A step writes exactly one new frame", "statement": "While the episode is not finished, one environment step (any dynamics model, any action, any control mask) changes only frame timestep+1 of the simulated trajectory and advances timestep by one: all earlier and later frames, the log, the metadata, the map, the traffic lights and the routes are unchanged.", "quantifier": "all states, actions, dynamics models and control masks", "why_tests_cant": "Quantifies over arbitrary dynamics models and actions; tests only run a few.", "anchors": ["waymax/env/base_environment.py:BaseEnvironment.step", "waymax/dynamics/abstract_dynamics.py:DynamicsModel.forward", "waymax/dynamics/abstract_dynamics.py:DynamicsModel.apply_trajectory_update_to_state"]}
{"id": "C04", "title": "History is immutable over whole episodes", "statement": "For every sequence of actions, as long as no more steps are taken than the episode has left, frames simulated earlier are never rewritten: in particular the warm-up frames remain equal to the log and the frames after the current timestep remain invalid.", "quantifier": "all action histories of any length, all scenarios", "why_tests_cant": "An invariant over unbounded histories.", "anchors": ["waymax/env/base_environment.py:BaseEnvironment.step", "waymax/env/base_environment.py:BaseEnvironment.reset"]}
{"id": "C05", "title": "Stepping a finished episode", "statement": "Users expect that stepping an already finished episode cannot corrupt recorded frames. The code does not guarantee it: the write index is clamped, so the step overwrites the last frame while timestep keeps growing. What does hold is that no frame other than the last is changed.", "quantifier": "all finished states, all actions", "why_tests_cant": "Depends on out-of-range index semantics at every timestep beyond the end.", "anchors": ["waymax/dynamics/abstract_dynamics.py:DynamicsModel.apply_trajectory_update_to_state", "waymax/env/base_environment.py:BaseEnvironment.step"]}
{"id": "C06", "title": "Episode clock and truncation", "statement": "After n steps from reset the timestep is init_steps-1+n; is_done, remaining_timesteps<=0 and truncation agree on every state; truncation is False for the first T-init_steps-1 steps and becomes and stays True at step T-init_steps; termination is never signalled.", "quantifier": "all scenario lengths, init_steps, action histories", "why_tests_cant": "Counting argument over arbitrary histories.", "anchors": ["waymax/datatypes/simulator_state.py:SimulatorState.is_done", "waymax/datatypes/simulator_state.py:SimulatorState.remaining_timesteps", "waymax/env/abstract_environment.py:AbstractEnvironment.termination", "waymax/env/abstract_environment.py:AbstractEnvironment.truncation"]}
{"id": "C07", "title": "Uncontrolled objects replay the log", "statement": "An object that is not controlled takes its position, heading, velocity and timestamp at every simulated step from the log at the same index, whatever actions are supplied for it or for the others. Its z and box dimensions are NOT taken from the log: they stay at their value at the end of warm-up.", "quantifier": "all scenarios, all action histories, all dynamics models, all objects outside the control mask", "why_tests_cant": "Universal over histories; also exposes the frozen z, which tests comparing planar pose miss.", "anchors": ["waymax/dynamics/abstract_dynamics.py:DynamicsModel.apply_trajectory_update_to_state"]}
{"id": "C08", "title": "Validity transitions without object injection", "statement": "With allow_new_objects_after_warmup=False an object that is invalid at the end of warm-up is invalid forever, a controlled object valid at the end of warm-up stays valid forever, and an uncontrolled one is valid exactly while it has been valid in the log at every step since warm-up.", "quantifier": "all scenarios, all histories", "why_tests_cant": "Temporal property over unbounded histories.", "anchors": ["waymax/dynamics/abstract_dynamics.py:DynamicsModel.apply_trajectory_update_to_state", "waymax/config.py:EnvironmentConfig"]}
{"id": "C09", "title": "Validity transitions with object injection", "statement": "With allow_new_objects_after_warmup=True every object that is not (controlled and currently valid) has exactly the log's validity at the next step. A controlled object that was absent therefore appears as soon as the log has it; the expectation that it then appears at its logged pose fails: its pose is the one computed from the action.", "quantifier": "all states, actions", "why_tests_cant": "Requires considering every combination of control, current validity and logged validity, and arbitrary actions.", "anchors": ["waymax/dynamics/abstract_dynamics.py:DynamicsModel.apply_trajectory_update_to_state"]}
{"id": "C10", "title": "Actions of uncontrolled objects are irrelevant", "statement": "Two actions which agree on the controlled objects produce the same next state; and what happens to one object never depends on another object's action.", "quantifier": "all states, all pairs of actions, all shipped dynamics models", "why_tests_cant": "A relational (two-run) property over all actions.", "anchors": ["waymax/dynamics/abstract_dynamics.py:DynamicsModel.forward", "waymax/dynamics/delta.py", "waymax/dynamics/bicycle_model.py", "waymax/dynamics/state_dynamics.py"]}
{"id": "C11", "title": "The action's valid flag", "statement": "The documentation says actions marked invalid are replaced by a fallback or invalidate the object. In DynamicsModel.forward the flag has no effect at all: flipping it never changes the next trajectory, and a controlled object moves by the data of an invalid action. With use_fallback the fallback is used exactly for controlled objects whose update is invalid.", "quantifier": "all states, actions, control masks", "why_tests_cant": "Non-interference of a flag is a two-run property over all inputs.", "anchors": ["waymax/dynamics/abstract_dynamics.py:DynamicsModel.forward", "waymax/dynamics/abstract_dynamics.py:DynamicsModel.apply_trajectory_update_to_state", "waymax/env/base_environment.py:BaseEnvironment.step"]}
{"id": "C12", "title": "The control mask", "statement": "get_control_mask returns the sdc/modeled/valid flags and rejects every other object type. In the environment, for ObjectType.VALID without injection, the mask is validity at the end of warm-up; the mask never changes during an episode, and in that configuration every controlled object is and stays valid.", "quantifier": "all scenarios, object types and histories", "why_tests_cant": "Constancy over unbounded histories.", "anchors": ["waymax/datatypes/simulator_state.py:get_control_mask", "waymax/env/base_environment.py:BaseEnvironment._get_control_mask"]}
{"id": "C13", "title": "Expert replay with StateDynamics reproduces the log", "statement": "Running the expert action under StateDynamics for the controlled objects, every simulated frame up to the current one has the logged position, heading and velocity for every object, for the whole episode, so the log divergence is 0 wherever it is valid.", "quantifier": "all scenarios, all numbers of steps, all control masks", "why_tests_cant": "An inductive statement over episode length.", "anchors": ["waymax/dynamics/state_dynamics.py", "waymax/agents/expert.py:infer_expert_action", "waymax/env/rollout.py:rollout_log_by_expert_sdc"]}
{"id": "C14", "title": "Delta dynamics invert exactly within limits", "statement": "If the logged displacement between two frames is within the configured limits, applying DeltaGlobal (resp. DeltaLocal) to its own inverse action gives the logged position and a heading equal modulo 2*pi; outside the limits the displacement is clipped componentwise. The velocity obtained is displacement/dt.", "quantifier": "all pairs of valid frames", "why_tests_cant": "Holds for every real-valued frame pair.", "anchors": ["waymax/dynamics/delta.py:DeltaGlobal", "waymax/dynamics/delta.py:DeltaLocal"]}
{"id": "C15", "title": "Inverse actions lie in the action space", "statement": "The inverse action returned by every shipped dynamics model is inside its action spec and is 0 when either frame is invalid. For DeltaGlobal/DeltaLocal this is false for the yaw component when max_dyaw < pi, because the yaw is wrapped rather than clipped.", "quantifier": "all trajectories and timesteps, all parameter values", "why_tests_cant": "Range property over all reals.", "anchors": ["waymax/dynamics/delta.py:DeltaGlobal.inverse", "waymax/dynamics/bicycle_model.py:InvertibleBicycleModel.inverse"]}
{"id": "C16", "title": "Bicycle dynamics respects its limits", "statement": "For any action, in or out of range, the bicycle model changes speed by at most max_accel*dt, changes heading by at most max_steering times the distance travelled, yields a heading in [-pi,pi) aligned with the velocity, and out-of-range actions behave as the clipped ones.", "quantifier": "all poses, velocities and actions", "why_tests_cant": "Universal over reals; tests use a few values.", "anchors": ["waymax/dynamics/bicycle_model.py:InvertibleBicycleModel.compute_update"]}
{"id": "C17", "title": "Bicycle inverse recovers the action", "statement": "compute_inverse applied to a frame and its bicycle-model successor returns exactly the (clipped) acceleration and steering that produced it, whenever both speeds are at least the 0.6 m/s limit and the heading change is less than pi; below the speed limit the steering is reported as 0.", "quantifier": "all poses, velocities, actions", "why_tests_cant": "Exact real-analysis identity involving atan2 and angle wrapping.", "anchors": ["waymax/dynamics/bicycle_model.py:compute_inverse"]}
{"id": "C18", "title": "Bicycle-driven objects are always kinematically feasible", "statement": "The kinematic infeasibility metric with default thresholds is 0 for every step an object makes under the default bicycle model, whatever the state and action.", "quantifier": "all states and actions, including speeds below the limit and reversing", "why_tests_cant": "Cross-module property over all reals.", "anchors": ["waymax/metrics/comfort.py:KinematicsInfeasibilityMetric", "waymax/dynamics/bicycle_model.py"]}
{"id": "C19", "title": "Discretiser is a correct quantiser", "statement": "Every discrete index decodes to a point of the continuous range that encodes back to the same index; every continuous value in range is reproduced to within half a bin; values outside are clamped; the encoded index is always in [0, max].", "quantifier": "all bin counts, all bounds min<max, all indices, all continuous values, any number of action dimensions", "why_tests_cant": "Mixed-radix round trip for all dimension counts.", "anchors": ["waymax/dynamics/discretizer.py:Discretizer"]}
{"id": "C20", "title": "Discrete wrapper agrees with the wrapped dynamics", "statement": "DiscreteActionSpaceWrapper behaves as the wrapped dynamics on the decoded action, its inverse is always a legal index, and the search-based inverse returns an action whose one-step bounding-box error to the log is minimal over the whole action space (ties to the smallest index).", "quantifier": "all wrapped dynamics, trajectories, timesteps", "why_tests_cant": "Optimality over the whole action set.", "anchors": ["waymax/dynamics/discretizer.py:DiscreteActionSpaceWrapper", "waymax/dynamics/discretizer.py:inverse_action_by_search"]}
{"id": "C21", "title": "Angle wrapping", "statement": "wrap_yaws returns the unique angle in [-pi,pi) congruent to its input modulo 2*pi; it is idempotent and never increases the magnitude.", "quantifier": "all real angles", "why_tests_cant": "All reals.", "anchors": ["waymax/utils/geometry.py:wrap_yaws"]}
{"id": "C22", "title": "Pose frames are rigid motions", "statement": "transform_points with a pose's matrix preserves distances and orientation, sends the pose's own position to the origin, transform_yaw sends its heading to 0, and combine_two_object_pose_2d(src,dst) maps src-frame coordinates to dst-frame coordinates of the same global point.", "quantifier": "all poses, points and pairs of poses", "why_tests_cant": "All reals.", "anchors": ["waymax/utils/geometry.py:pose_from_xy_yaw", "waymax/utils/geometry.py:transform_points", "waymax/datatypes/observation.py:ObjectPose2D", "waymax/datatypes/observation.py:combine_two_object_pose_2d"]}
{"id": "C23", "title": "Box corners", "statement": "corners_from_bbox returns the four corners of the rectangle with the given centre, length along the heading and width across it, in cyclic order; sides are perpendicular with the given lengths.", "quantifier": "all boxes", "why_tests_cant": "All reals.", "anchors": ["waymax/utils/geometry.py:corners_from_bbox"]}
{"id": "C24", "title": "Overlap test is exact", "statement": "has_overlap on two boxes is True if and only if the two rectangles share an interior point; it is symmetric, and unchanged by moving both boxes by a common rigid motion.", "quantifier": "all pairs of boxes", "why_tests_cant": "Separating axis theorem: over all reals.", "anchors": ["waymax/utils/geometry.py:has_overlap"]}
{"id": "C25", "title": "Overlap metric", "statement": "The overlap metric of object j is 1 exactly when some other object valid at the current step overlaps it, else 0, and is valid exactly when j is valid; two valid objects are reported together.", "quantifier": "all states, any number of objects", "why_tests_cant": "All object counts and poses.", "anchors": ["waymax/metrics/overlap.py:OverlapMetric", "waymax/utils/geometry.py:compute_pairwise_overlaps"]}
{"id": "C26", "title": "Log divergence metric", "statement": "Log divergence is the Euclidean distance between simulated and logged current position; it is non-negative, zero iff the positions agree, and valid iff both frames are valid.", "quantifier": "all states", "why_tests_cant": "All reals.", "anchors": ["waymax/metrics/imitation.py:LogDivergenceMetric"]}
{"id": "C27", "title": "Off-road metric", "statement": "The off-road metric is 1 iff some corner of the box has a positive signed distance to its nearest road edge, 0 otherwise, and is always reported as valid, even for objects that do not exist at the current step.", "quantifier": "all states and maps", "why_tests_cant": "All maps and poses.", "anchors": ["waymax/metrics/roadgraph.py"]}
{"id": "C28", "title": "Route metrics", "statement": "Wrong-way and off-route metrics are 0 or at least their documented thresholds; progression is 0 at the first and 1 at the last logged position of the reference path, affine in arc length, independent of the scaling of the path; each is invalid with value 0 when no usable path exists.", "quantifier": "all states, path sets", "why_tests_cant": "Involves min over inf and NaN propagation for any path set.", "anchors": ["waymax/metrics/route.py", "waymax/metrics/roadgraph.py:WrongWayMetric"]}
{"id": "C29", "title": "Linear combination reward", "statement": "The reward of each object in the mask is the weighted sum of its valid metrics, invalid metrics contribute nothing, and objects outside the mask get 0.", "quantifier": "all metric results, weights, masks", "why_tests_cant": "Any number of metrics and objects.", "anchors": ["waymax/rewards/linear_combination_reward.py"]}
{"id": "C30", "title": "Metric registry", "statement": "For every history of registrations, registering a taken name is rejected and leaves the registry unchanged, a registered metric is never replaced, and run_metrics returns exactly the requested names or fails when one is unknown.", "quantifier": "all registration histories", "why_tests_cant": "Any history.", "anchors": ["waymax/metrics/metric_factory.py"]}
{"id": "C31", "title": "Merging several actors' actions", "statement": "merge_actions gives every object the action of the last actor controlling it, and the first actor's action when no later actor controls it; when the actors control disjoint sets the order of actors after the first is irrelevant.", "quantifier": "any number of actors and objects, all masks", "why_tests_cant": "Any number of actors.", "anchors": ["waymax/agents/actor_core.py:merge_actions"]}
{"id": "C32", "title": "Planning environment merge", "statement": "In a PlanningAgentEnvironment step the SDC moves by the planner's action unless a sim agent claims it, every object controlled by a sim agent and not initially overlapping moves by the last such agent's action, and all others replay the log.", "quantifier": "all states, any list of sim agents", "why_tests_cant": "Any number of agents and objects.", "anchors": ["waymax/env/planning_agent_environment.py:PlanningAgentEnvironment.step"]}
{"id": "C33", "title": "Initially overlapping objects are not driven by sim agents", "statement": "An object whose box overlaps another's at log step 0 is never handed to a sim agent. The test ignores validity, so two objects that do not yet exist at step 0 (both at the fill position) block each other for the whole episode.", "quantifier": "all scenarios", "why_tests_cant": "All scenarios.", "anchors": ["waymax/env/planning_agent_environment.py:_initialized_overlap"]}
{"id": "C34", "title": "Rollout structure", "statement": "rollout of N steps returns N+1 states with state 0 the reset state and state i+1 = step(state i, action i), actions produced by the actor on state i with its threaded actor state, metrics and rewards of row i evaluated on state i, and an all-zero last action; timesteps are consecutive.", "quantifier": "all environments, actors, N", "why_tests_cant": "Any N, any actor.", "anchors": ["waymax/env/rollout.py:rollout"]}
{"id": "C35", "title": "dm_env protocol", "statement": "For every sequence of reset/step calls: step before reset fails, step after LAST fails until reset, a successful reset yields FIRST, LAST is returned exactly when the scenario is exhausted, the discount is 1 throughout, and a failed call of step before reset or after LAST leaves the wrapper unchanged.", "quantifier": "all call histories, data streams", "why_tests_cant": "Any call history.", "anchors": ["waymax/env/wrappers/dm_env_wrapper.py"]}
{"id": "C36", "title": "dm_env data consumption", "statement": "The wrapper consumes one scenario at construction that is never simulated, then one per reset. A reset on an already exhausted scenario raises but leaves the wrapper marked initialised, so a following step is accepted.", "quantifier": "all data streams, call histories", "why_tests_cant": "Any history.", "anchors": ["waymax/env/wrappers/dm_env_wrapper.py"]}
{"id": "C37", "title": "Brax wrapper", "statement": "BraxWrapper.step returns the environment's next state, the reward and metrics of the state before the step, and done exactly when the next state is truncated; the episode from reset is done after exactly T-init_steps steps.", "quantifier": "all histories", "why_tests_cant": "Any history.", "anchors": ["waymax/env/wrappers/brax_wrapper.py"]}
{"id": "C38", "title": "Observation window is causal", "statement": "On every state reachable from reset with a validated config, the observed trajectory window is frames t-k+1..t of the simulation in order, ending with the current frame: no observation depends on later frames. Without the config check the window silently shows other frames.", "quantifier": "all reachable states, window sizes", "why_tests_cant": "Reachability plus index semantics.", "anchors": ["waymax/datatypes/observation.py:global_observation_from_state", "waymax/config.py:EnvironmentConfig"]}
{"id": "C39", "title": "Own-frame observation", "statement": "In observation_from_state each object sees itself at the origin with heading 0 at the current step, and relative positions and distances of others are those of the global scene; the is_ego flag is documented as marking the observer but only marks object 1.", "quantifier": "all states", "why_tests_cant": "All reals, any number of objects.", "anchors": ["waymax/datatypes/observation.py:observation_from_state"]}
{"id": "C40", "title": "Roadgraph top-k filter", "statement": "filter_topk_roadgraph_points returns k of the n points, no kept valid point being farther than a dropped valid one, valid ones before invalid ones and by distance; ids survive only up to 2^24 because of the float32 round trip.", "quantifier": "all maps, k, reference points", "why_tests_cant": "All maps.", "anchors": ["waymax/datatypes/roadgraph.py:filter_topk_roadgraph_points"]}
{"id": "C41", "title": "IDM speed profile", "statement": "The IDM agent's next speed is never negative, never grows by more than max_accel*dt, and never exceeds max(desired speed, current speed) on a free road; it decelerates when the gap is below the desired gap.", "quantifier": "all speeds, gaps, parameters", "why_tests_cant": "All reals.", "anchors": ["waymax/agents/waypoint_following_agent.py:IDMRoutePolicy"]}
{"id": "C42", "title": "IDM lead vehicle selection", "statement": "The lead speed used is the smallest speed among objects colliding at the earliest waypoint index at which any collision occurs.", "quantifier": "all collision patterns", "why_tests_cant": "Encoded by a cumulative-sum and min trick; any pattern.", "anchors": ["waymax/agents/waypoint_following_agent.py:IDMRoutePolicy._compute_lead_velocity"]}
{"id": "C43", "title": "Waypoint projection", "statement": "The waypoint policy puts the object on the tangent line of its nearest valid waypoint, with that waypoint's heading and the new speed along the heading of the current frame (not of the waypoint); at the end of the route the velocity is kept (or the object stops or is invalidated when invalidation is on); an invalid object's update is invalid and filled with -1. An object without any valid waypoint is not invalidated by the IDM policy.", "quantifier": "all trajectories", "why_tests_cant": "All reals.", "anchors": ["waymax/agents/waypoint_following_agent.py:WaypointFollowingPolicy"]}
{"id": "C44", "title": "Constant-speed and frozen agents", "statement": "A constant-speed object under StateDynamics keeps its velocity and heading and moves by v*0.1s per step, so after n steps by n*v*0.1; a frozen agent's objects keep their pose for the whole episode.", "quantifier": "all states, numbers of steps", "why_tests_cant": "Any number of steps.", "anchors": ["waymax/agents/constant_speed.py", "waymax/agents/sim_agent.py:FrozenSimPolicy"]}
{"id": "C45", "title": "Masked statistics and one-hot selection", "statement": "masked_mean over time is constant along time, equals the mean of the valid entries and lies between their minimum and maximum, and is -1 when none is valid; with the default axis 0 on a matrix it is not the documented column mean; update_by_mask replaces exactly the masked entries; select_by_onehot returns the selected entry when the others are finite, and may return NaN otherwise.", "quantifier": "all arrays and masks", "why_tests_cant": "All arrays including special values.", "anchors": ["waymax/datatypes/operations.py:masked_mean", "waymax/datatypes/operations.py:select_by_onehot"]}
{"id": "C46", "title": "Sharded file names", "statement": "generate_sharded_filenames('base@n') yields n pairwise distinct names base-XXXXX-of-YYYYY in shard order; it fails on zero shards and on more than one '@'. A path is accepted exactly when it has one '@' and what follows is a positive decimal integer, possibly signed, blank-padded or with single underscores between digits.", "quantifier": "all base names without '%', all n>=1", "why_tests_cant": "All n.", "anchors": ["waymax/dataloader/dataloader_utils.py:generate_sharded_filenames"]}
{"id": "C47", "title": "Sharding covers the data exactly once", "statement": "Across processes and loader shards every file is read by exactly one (process, shard). The claim that num_shards has no effect on the data returned fails when batching with drop_remainder.", "quantifier": "all numbers of files, processes, shards", "why_tests_cant": "All counts.", "anchors": ["waymax/dataloader/dataloader_utils.py:tf_examples_dataset"]}
{"id": "C48", "title": "Time aggregation and object truncation", "statement": "Aggregation concatenates past, current, future for each feature in order and removes the split keys; max_num_objects truncation is documented for objects but also truncates the time-indexed which_time feature.", "quantifier": "all examples", "why_tests_cant": "All key sets and lengths.", "anchors": ["waymax/dataloader/womd_utils.py:aggregate_time_tensors", "waymax/dataloader/womd_dataloader.py:preprocess_womd_example"]}
{"id": "C49", "title": "State construction and export", "statement": "Loading a WOMD dictionary succeeds exactly when the time key is known and the arrays have the expected ranks and shapes. The loaded state has timestep 0, its log, lights, objects, road points and paths are the dictionary's, its first simulated frame equals the log and the others are zero and invalid, and box dimensions are constant over time: the mean over the valid steps, -1 without any. Exporting a state with h steps of history writes the h simulated frames before the current one and the current one under the names and shapes asked for, and -1 for padding objects; with validation it is refused unless exactly h+1 frames have been simulated. Loading the export again is the identity on the metadata of valid objects (except the control flag) and on the past frames; loading, resetting and exporting an example reproduces its past and current frames and lights up to the wrapping of yaws.", "quantifier": "all dictionaries, states, descriptions and sizes", "why_tests_cant": "Shapes, lengths, padding and validity patterns are unbounded.", "anchors": ["waymax/dataloader/womd_factories.py:simulator_state_from_womd_dict", "waymax/dataloader/womd_factories.py:trajectory_from_womd_dict", "waymax/dataloader/womd_utils.py:simulator_state_to_womd_dict", "waymax/dataloader/womd_utils.py:get_features_description"]}
{"id": "C50", "title": "Configuration guards", "statement": "A configuration accepted by EnvironmentConfig/WaymaxConfig never requests more observed steps than warm-up steps, and never requests route metrics without route data.", "quantifier": "all configurations", "why_tests_cant": "All configurations.", "anchors": ["waymax/config.py"]}
{"id": "C51", "title": "Planning-agent factory", "statement": "make_sdc_dm_environment with at least one configured sim agent always fails, because the agents' parameters are not passed; with none it builds an environment controlling the SDC.", "quantifier": "all configurations", "why_tests_cant": "All configurations.", "anchors": ["waymax/env/wrappers/dm_env_wrapper.py:make_sdc_dm_environment", "waymax/env/planning_agent_environment.py:PlanningAgentEnvironment"]}
{"id": "C52", "title": "Expert in the planning environment", "statement": "The expert action of a PlanningAgentEnvironment is the SDC's row of the multi-agent expert action of the wrapped dynamics, and with state dynamics a planner that always plays it replays the SDC's log for the whole episode. This needs finite logged values of all objects: an infinite value of an invalid object turns the SDC's action into NaN.", "quantifier": "all scenarios with one SDC, sim agents, episode lengths", "why_tests_cant": "Any number of objects, agents and steps; special values.", "anchors": ["waymax/env/planning_agent_environment.py:PlanningAgentDynamics.inverse", "waymax/agents/expert.py:infer_expert_action"]}
{"id": "C53", "title": "PlanningAgentDynamics.forward", "statement": "forward of the planning-agent dynamics wrapper, documented to take one action for a scene with any number of objects, raises for every scene that does not have exactly one object, and ignores allow_new_objects.", "quantifier": "all dynamics models, actions, scenes", "why_tests_cant": "All numbers of objects.", "anchors": ["waymax/env/planning_agent_environment.py:PlanningAgentDynamics.forward"]}
{"id": "C54", "title": "Planning environment metrics and reward are the SDC's", "statement": "metrics() of the planning environment reports for log_divergence, overlap and offroad the SDC's entry, for kinematic_infeasibility the SDC's entry or 0 and invalid before the first simulated step, and every other metric unchanged; reward() is the weighted sum of the SDC's metric contributions, or 0 if rewards are off.", "quantifier": "all states, metric registries, reward configurations", "why_tests_cant": "Any number of objects, any registered metrics and weights.", "anchors": ["waymax/env/planning_agent_environment.py:PlanningAgentEnvironment.metrics", "waymax/env/planning_agent_environment.py:PlanningAgentEnvironment.reward"]}
{"id": "C55", "title": "Validity of dynamics updates and inverse actions", "statement": "The delta and bicycle models flag an object's update valid exactly when its current frame and its action are both valid (StateDynamics: when the action is), and the inverse action valid exactly when both frames are (StateDynamics: when the next frame is).", "quantifier": "all actions, frames and model parameters", "why_tests_cant": "All combinations of flags for any number of objects.", "anchors": ["waymax/dynamics/delta.py", "waymax/dynamics/bicycle_model.py", "waymax/dynamics/state_dynamics.py"]}
{"id": "C56", "title": "Equality of data structures", "statement": "x == y for trajectories, states, actions and masked arrays (compare_all_leaf_nodes) is true exactly when both have the same type and shape, all entries are equal and none is NaN; in particular a structure holding a NaN is not equal to itself.", "quantifier": "all leaf arrays", "why_tests_cant": "All sizes and values including NaN.", "anchors": ["waymax/datatypes/operations.py:compare_all_leaf_nodes", "waymax/datatypes/array.py:MaskedArray"]}
{"id": "C57", "title": "Closed-loop simulation does not look ahead", "statement": "For two scenarios with the same objects, routes and map whose logs and lights agree up to step t, any policy that only uses past and present (in particular any policy on the configured observation) produces the same simulated past up to t, whatever the logs contain later; the expert policy is not of this kind.", "quantifier": "all scenario pairs, dynamics models, configurations, policies, episode lengths", "why_tests_cant": "A relational property of pairs of executions of any length.", "anchors": ["waymax/env/base_environment.py:BaseEnvironment", "waymax/datatypes/observation.py:observation_from_state", "waymax/config.py:EnvironmentConfig"]}
{"id": "C58", "title": "Observation.for_obj selects the wrong axis", "statement": "for_obj(i) is documented to return object i's view; without batch dimensions it returns every observer's view at time step i of the window, with one batch dimension it returns scenario i of the batch with all observers.", "quantifier": "all observations and indices", "why_tests_cant": "All shapes.", "anchors": ["waymax/datatypes/observation.py:Observation.for_obj"]}
{"id": "C59", "title": "Scenarios of a batch are independent", "statement": "reset, update_state_by_log, step and whole episodes on a state with batch dimensions do, at every batch index, exactly what the same call on that scenario alone does (or raise the same exception); truncation and termination have one flag per scenario. What happens to a scenario does not depend on the other scenarios, their actions, or the batch shape. After reset all scenarios share one scalar timestep: a batch that keeps one timestep per scenario (as loaded and as documented) can be read but never stepped (ValueError), and every reset batch fails SimulatorState.validate.", "quantifier": "all batch shapes of any rank, numbers of objects and steps, configurations, elementwise dynamics models, action sequences", "why_tests_cant": "Batch rank, batch sizes, episode length and contents are unbounded; independence is a relation between executions.", "anchors": ["waymax/datatypes/operations.py:_vmap_over_batch_dims", "waymax/datatypes/operations.py:update_by_slice_in_dim", "waymax/datatypes/simulator_state.py:SimulatorState", "waymax/dynamics/abstract_dynamics.py:apply_trajectory_update_to_state", "waymax/env/base_environment.py:BaseEnvironment"]}
{"id": "C60", "title": "Metrics and rewards of a batch", "statement": "Every metric on a state with batch dimensions gives, at every batch index, exactly the metric of that scenario alone (per object for log_divergence, overlap, offroad and kinematic_infeasibility; one value per scenario for the SDC metrics), and a linear reward made of object metrics gives that scenario's reward. Kinematic infeasibility raises TypeError for a batch with one timestep per scenario. A reward with an SDC metric is right only without batch or for a batch of one: otherwise it raises TypeError, or, with as many scenarios as objects, rewards object j of scenario i with the metric of scenario j, or, with one object, has the wrong shape.", "quantifier": "all batch shapes of any rank, numbers of objects, steps, paths, roadgraph points, weights, masks", "why_tests_cant": "Batch rank, sizes and contents are unbounded; the failure depends on coincidences of sizes.", "anchors": ["waymax/metrics/imitation.py", "waymax/metrics/overlap.py", "waymax/metrics/roadgraph.py", "waymax/metrics/comfort.py", "waymax/metrics/route.py", "waymax/rewards/linear_combination_reward.py:LinearCombinationReward.compute"]}
{"id": "C61", "title": "A rendered scene shows exactly what the state contains", "statement": "Rendering a state draws, for the chosen trajectory, every valid entry and nothing else: past positions as points, present boxes in full size, future boxes at a tenth, highlighted objects in their own colour, and once more in red exactly the valid objects whose box overlaps that of another valid object at the current step (for the simulated trajectory: those whose overlap metric is 1). Box outlines are the rectangles the overlap test uses. Road points of the shown types and valid traffic lights of the current step are drawn in the colour of their type or state; the window is centered on the SDC. A batch index shows that scenario alone; a wrong number of batch dimensions is a ValueError. Against the documentation: time_idx may not be left out, centering on an agent by index always raises, road lines are never drawn, and a state that was never reset shows its last step.", "quantifier": "all trajectories, validity patterns, road graphs, lights, masks, windows, batches and indices", "why_tests_cant": "Sizes, contents and validity patterns are unbounded; the collision marks depend on all pairs of boxes.", "anchors": ["waymax/visualization/viz.py:plot_simulator_state", "waymax/visualization/viz.py:plot_trajectory", "waymax/visualization/viz.py:plot_observation", "waymax/visualization/viz.py:plot_single_agent_brax_timestep", "waymax/visualization/viz.py:plot_roadgraph_points", "waymax/visualization/viz.py:plot_traffic_light_signals_as_points", "waymax/visualization/utils.py:plot_numpy_bounding_boxes", "waymax/visualization/color.py"]}
{"id": "C62", "title": "Float32 accuracy of replay, wrapping and discretisation", "statement": "In IEEE binary32, whatever the maths library: replaying a log with the expert under DeltaGlobal never drifts, at every step of an episode of any length the position error is at most (M+2m)/2^24 (M the largest coordinate, m the limit), it is exactly zero where objects are further from both axes than they move in one step, and the heading follows the log modulo turns up to an error linear in the accumulated heading; exactness everywhere is false. wrap_yaws maps every finite heading into [-pi32, pi32), equals it minus whole turns up to rounding, is exactly idempotent, and is NaN on non-finite headings, but is not the identity on headings in range. The discretiser decodes and re-encodes every index to itself for up to 2^20 bins per dimension.", "quantifier": "all float32 logs, limits, episode lengths, headings, bounds and bin counts up to 2^20, all implementations of sin/cos/atan2/pow", "why_tests_cant": "Every float32 value and every episode length; rounding errors could accumulate over steps.", "anchors": ["waymax/dynamics/delta.py:DeltaGlobal", "waymax/utils/geometry.py:wrap_yaws", "waymax/dynamics/discretizer.py:Discretizer", "waymax/agents/expert.py:infer_expert_action"]}
{"id": "C63", "title": "Published specs describe what is accepted and returned", "statement": "The action spec of the multi-agent environment is one row per object, each bounded like the dynamics model's spec, and beside such data a validity matrix passes Action.validate exactly when it matches the published valid part; repeating an action of the planning environment's spec for every object gives one of the multi-agent spec; limits give a spec exactly when none is negative. Conforming actions are accepted in every call history, a conforming DeltaGlobal action moves an object by at most the limits, squeezing a scalar action changes nothing, and every returned observation and reward has the published shape with discount 1, if scenarios are shaped like the first one. The converse fails: shapes and bounds of actions are not checked, only the number of entries in row-major order counts (a transposed matrix is accepted and misread). With StateDynamics the multi-agent action_spec raises IndexError and the dm_env wrapper cannot take a single step.", "quantifier": "all dynamics models and limits, configurations, scenario streams, call histories, action arrays of any shape", "why_tests_cant": "Quantifies over all call histories, array shapes and contents.", "anchors": ["waymax/env/base_environment.py:BaseEnvironment.action_spec", "waymax/env/wrappers/dm_env_wrapper.py:DMEnvWrapper", "waymax/env/planning_agent_environment.py:PlanningAgentEnvironment", "waymax/dynamics/state_dynamics.py:StateDynamics.action_spec", "waymax/dynamics/delta.py:DeltaGlobal", "waymax/dynamics/bicycle_model.py:InvertibleBicycleModel", "waymax/dynamics/discretizer.py:DiscreteActionSpaceWrapper"]}
{"id": "C64", "title": "Episodes driven by the route-following agents", "statement": "Running the base environment with the IDM agent never fails while the log lasts. A controlled object that starts valid stays valid, keeps its size and height, lies on one of the lines through its logged positions along the logged headings, gains at most max_accel * 0.1 s of speed per step, and does not exceed the larger of its desired and initial speed. On a straight road it only moves forward, and with the default parameters it never touches a parked object, however long the episode, so the overlap metric stays 0. The guarantee ends with the route: past it the agent keeps its old velocity and does hit parked objects, and agents told to invalidate objects there put them at (-1, -1) and leave them valid.", "quantifier": "every scenario, route, number of other objects and positions, number of steps; collision avoidance for every start speed up to 66 m/s and every set of parked objects at least 1/20 s of travel away", "why_tests_cant": "a test sees a few scenes for a few steps; collision avoidance is an invariant over unbounded episodes and all real distances and speeds", "anchors": ["waymax/agents/waypoint_following_agent.py:IDMRoutePolicy", "waymax/agents/waypoint_following_agent.py:WaypointFollowingPolicy.update_trajectory", "waymax/agents/constant_speed.py:ConstantSpeedPolicy", "waymax/env/base_environment.py:BaseEnvironment.step", "waymax/metrics/overlap.py:OverlapMetric"]}
{"id": "C65", "title": "Which shapes and element types are accepted", "statement": "validate on trajectories, metadata, road graphs, lights and updates accepts exactly the objects whose fields share one shape and have the documented kind of element, and otherwise raises AssertionError; on paths, masked arrays, actions, poses, observations and states it accepts exactly the stated prefix relations between shapes. Trajectory.zeros is valid for every shape. forward accepts exactly actions with one boolean flag per object and enough columns per object: 5 or more floating ones for the state model, exactly 3 for global displacements, 3 or more for local ones, 2 or more for the bicycle model, where the rows may also be broadcast.", "quantifier": "all tensor shapes of any rank, all element types, all four dynamics models", "why_tests_cant": "Shapes and ranks are unbounded; the question is what is accepted among all of them.", "anchors": ["waymax/datatypes/object_state.py:Trajectory.validate", "waymax/datatypes/object_state.py:ObjectMetadata.validate", "waymax/datatypes/roadgraph.py:RoadgraphPoints.validate", "waymax/datatypes/traffic_lights.py:TrafficLights.validate", "waymax/datatypes/route.py:Paths.validate", "waymax/datatypes/array.py:MaskedArray.validate", "waymax/datatypes/action.py:Action.validate", "waymax/datatypes/action.py:TrajectoryUpdate.validate", "waymax/datatypes/observation.py:Observation.validate", "waymax/datatypes/simulator_state.py:SimulatorState.validate", "waymax/dynamics/abstract_dynamics.py:DynamicsModel.forward"]}
{"id": "C66", "title": "The IDM agent never runs into traffic ahead on a straight road", "statement": "When the default IDM agent drives an object along a straight road behind other objects that follow the log ahead on the same path, each moving on at every step by at least its recorded speed (it may brake, stop and accelerate at will) and none overtaking another, with contact at first at least 1/20 s of travel away, a starting speed of at most 66 m/s and a logged route that is long enough, the object stays valid on its straight path, never overlaps any valid object at any step however long the episode, always keeps at least 1/20 s of travel to every vehicle ahead, and the overlap metric reports 0 for it after every step. (False if the recorded speeds are larger than the actual motion: the agent trusts them and runs into a standing vehicle reported as fast.)", "quantifier": "every scenario of any size with straight route and ordered moving traffic ahead, every speed profile of the leaders consistent with their motion, every episode length", "why_tests_cant": "tests play a few recorded scenarios for a few steps; safety must hold for every speed profile of the leaders and every episode length, which needs an invariant through the braking law", "anchors": ["waymax/agents/waypoint_following_agent.py:IDMRoutePolicy.update_speed", "waymax/agents/waypoint_following_agent.py:IDMRoutePolicy._get_accel", "waymax/agents/waypoint_following_agent.py:IDMRoutePolicy._get_lead_velocity_and_distance", "waymax/metrics/overlap.py:OverlapMetric"]}
{"id": "C67", "title": "The IDM sim agent in the planning environment's closed loop", "statement": "In the planning environment, an object on which an IDM sim agent has the last word stays valid, on its logged route and of constant size, gains at most one acceleration step of speed per step and never exceeds the larger of its initial and desired speed, whatever actions the planner sends, whatever dynamics model wraps them, and whatever the other sim agents do. With the default parameters on a straight road it never touches another object, however long the episode, as long as the others (the planner-driven SDC, objects of other sim agents, objects that follow the log) are simulated beside its path or ahead on it, moving on at every step by at least their own speed, in a fixed order, at first at least 1/20 s of travel away; its overlap metric is then 0.", "quantifier": "all scenarios, planners and their action sequences, dynamics models, sets of sim agents, random keys and episode lengths", "why_tests_cant": "the loop is closed: the planner, the other agents and the IDM agent react to each other for arbitrarily many steps, which no finite set of recorded episodes covers", "anchors": ["waymax/env/planning_agent_environment.py:PlanningAgentEnvironment.step", "waymax/agents/sim_agent.py:SimAgentActor.select_action", "waymax/agents/waypoint_following_agent.py:IDMRoutePolicy", "waymax/metrics/overlap.py:OverlapMetric"]}
{"id": "C68", "title": "The simulator has no preferred coordinate frame", "statement": "Describing the same scene (log, simulated past, map, lights, routes) with another map origin and orientation changes nothing a user can observe: reset and whole episodes give the same scene described in the other frame for all four dynamics models (complete-state actions moved, global displacements turned, own-frame displacements and bicycle controls unchanged); an agent that sees the scene in each object's own frame drives the same episode; observations in object or SDC frame are equal; log divergence, overlap, kinematic infeasibility, off-road, wrong-way, off-route and progression are equal; inferred expert actions are equal (bicycle, local displacement) or turned (global displacement).", "quantifier": "all rotations and translations, all scenes with finite valid entries, all numbers of objects and steps, all action sequences, all drivers that look only at own-frame observations; without object injection; displacement experts only for steps within the limits (both limits shown necessary)", "why_tests_cant": "tests use one scene in one frame; equality must hold for every rotation angle and every episode, including heading wrap-around and sorting of map points by distance", "anchors": ["waymax/env/base_environment.py:BaseEnvironment.step", "waymax/env/base_environment.py:BaseEnvironment.reset", "waymax/datatypes/observation.py:observation_from_state", "waymax/datatypes/observation.py:sdc_observation_from_state", "waymax/dynamics/delta.py:DeltaLocal", "waymax/dynamics/delta.py:DeltaGlobal", "waymax/dynamics/bicycle_model.py:InvertibleBicycleModel", "waymax/dynamics/state_dynamics.py:StateDynamics", "waymax/metrics/overlap.py:OverlapMetric", "waymax/metrics/roadgraph.py:OffroadMetric", "waymax/metrics/route.py:ProgressionMetric", "waymax/metrics/comfort.py:KinematicsInfeasibilityMetric"]}
{"id": "C69", "title": "Only the objects that are present matter: neither their order nor padding", "statement": "Take a scenario and list its objects in another order, or add rows for objects that are never valid (padding), or both.  Reset, every step of an episode with every dynamics model (continuous or discretised), the expert actions, the closed loop of any per-object policy, the metrics per object, the rewards made of them, what each object and the SDC observe, the updates of the constant-speed and IDM agents, and whole episodes of the planning environment with sim agents are, object by object, exactly the same; the added rows stay invalid, their metrics are not valid (except off-road, which is always reported as valid) and the agents give them no update.  The SDC's route metrics, what the planning environment reports about the SDC (metrics, reward) and the planner's expert action are the same as long as the padding holds finite numbers.  In the planning environment padding must not overlap an object at the first log step.  Three things do depend on the listing: the is_ego flags of the multi-agent observation, the route metrics when a padding row holds a NaN, and the planning environment's frozen objects when padding overlaps one.", "quantifier": "every number of objects and of padding rows, every injective placement of the objects, every scenario, configuration, action sequence, number of steps, dynamics model, number type (reals for the agents and route metrics)", "why_tests_cant": "orders and paddings are unboundedly many and must be compared pairwise over whole episodes; tests fix one listing", "anchors": ["waymax/env/base_environment.py:BaseEnvironment", "waymax/env/planning_agent_environment.py:PlanningAgentEnvironment.step", "waymax/dynamics/abstract_dynamics.py:DynamicsModel.forward", "waymax/metrics/overlap.py:OverlapMetric", "waymax/metrics/comfort.py:KinematicsInfeasibilityMetric", "waymax/metrics/roadgraph.py:OffroadMetric", "waymax/datatypes/observation.py:observation_from_state", "waymax/agents/waypoint_following_agent.py:IDMRoutePolicy", "waymax/agents/expert.py:infer_expert_action", "waymax/rewards/linear_combination_reward.py:LinearCombinationReward"]}
{"id": "C70", "title": "Loading: the generator yields the scenarios of the records, each once per pass", "statement": "For files of well-formed records, the simulator state generators of all processes together yield, batch by batch, exactly the scenarios the records describe: every number of the flat lists of a record appears in the loaded state at the object, step, light, road or path point it belongs to, boxes averaged over the valid steps, headings wrapped, the simulated trajectory started with the first logged frame. Every batch has the requested shape (with remainders kept: not larger, one batch dimension); each record is delivered as often as repeat says, except less than one batch per loader shard when remainders are dropped. With one file, one shard and no seed the order is that of the records. Nothing is raised; a record with a missing, mistyped or wrongly sized list is not skipped silently, some process raises. Every loaded batch can be reset. Some settings never yield a state: aggregate_timesteps=False, batch_by_scenario=False (unless all leading sizes are 91), paths without sizes; and remainders of nested batches raise. max_num_objects can remove the SDC.", "quantifier": "all files, records, schedules of interleaving, shuffling and parallel calls, numbers of processes, loader shards, devices, batch dimensions, repeat counts (finite), object limits, sizes of road graph and paths", "why_tests_cant": "schedules, record contents and batch shapes are unbounded; that no record is lost, doubled or mixed with another one is a statement about all of them together", "anchors": ["waymax/dataloader/womd_dataloader.py:simulator_state_generator", "waymax/dataloader/womd_dataloader.py:preprocess_serialized_womd_data", "waymax/dataloader/womd_dataloader.py:preprocess_womd_example", "waymax/dataloader/dataloader_utils.py:get_data_generator", "waymax/dataloader/dataloader_utils.py:tf_examples_dataset", "waymax/dataloader/womd_factories.py:simulator_state_from_womd_dict", "waymax/dataloader/womd_utils.py:get_features_description", "waymax/dataloader/womd_utils.py:aggregate_time_tensors"]}
{"id": "C71", "title": "From the dataset files to the end of an episode", "statement": "Every scenario of every batch the data loader yields belongs to a record of the files, and an episode on it runs for every environment configuration with the matching number of objects, every dynamics model that works object by object and every sequence of actions with the right number of columns: warm-up frames are the recorded ones, objects that the actions do not steer (by the flags and the validity entries of the record) are at their recorded poses at every simulated step, time is the recorded time, later frames are invalid, and the episode is over exactly after step 90. The expert in a closed loop takes all objects through their recorded poses; in a planning environment without sim agents everything but the SDC goes through them. A record describes exactly one scenario, so the result of an episode depends on the record and its actions alone, not on schedule, batch shape, position in the batch or the other scenarios.", "quantifier": "all files of well-formed records, loader schedules and settings, batch shapes and positions, environment configurations, per-object dynamics models, action sequences up to 80 steps and planners", "why_tests_cant": "it joins loading, batching and stepping for unboundedly many records, schedules and actions; a test checks a few records", "anchors": ["waymax/dataloader/womd_dataloader.py:simulator_state_generator", "waymax/env/base_environment.py:BaseEnvironment.reset", "waymax/env/base_environment.py:BaseEnvironment.step", "waymax/env/planning_agent_environment.py:PlanningAgentEnvironment.step", "waymax/agents/expert.py:infer_expert_action"]}
{"id": "C72", "title": "Scenarios of a batch are independent in the planning environment", "statement": "The planning environment and its sim agents, called with a batch of scenarios of any shape, do in every scenario exactly what they do when called with that scenario alone: reset, step, whole episodes, the updates and control choices of the IDM, frozen and constant-speed sim agents and of the expert and constant-speed actors, the planner's expert action for every dynamics model, the closed loop of that expert, and the seven metrics (one result per scenario). So what becomes of a scenario depends neither on the batch it is in, nor on its place there, nor on the other planners' actions. The same holds for rewards made of object metrics. It does not for rewards made of the SDC's route metrics, which raise for most batch sizes and mix up the scenarios when there are as many scenarios as objects; and a batch whose scenarios have clocks of their own cannot be stepped.", "quantifier": "all batch shapes, numbers of objects and steps, scenarios, sim agents that keep scenarios apart (shown for all shipped ones), planner actions with the right number of columns, episode lengths, random keys, number types", "why_tests_cant": "broadcasting errors show only for particular combinations of batch sizes and object counts; tests use one or two batch shapes", "anchors": ["waymax/env/planning_agent_environment.py:PlanningAgentEnvironment.reset", "waymax/env/planning_agent_environment.py:PlanningAgentEnvironment.step", "waymax/env/planning_agent_environment.py:PlanningAgentEnvironment.metrics", "waymax/env/planning_agent_environment.py:PlanningAgentEnvironment.reward", "waymax/env/planning_agent_environment.py:PlanningAgentDynamics", "waymax/agents/waypoint_following_agent.py:IDMRoutePolicy", "waymax/agents/waypoint_following_agent.py:WaypointFollowingPolicy", "waymax/agents/sim_agent.py:SimAgentActor", "waymax/agents/constant_speed.py:create_constant_speed_actor", "waymax/agents/expert.py:create_expert_actor"]}
{"id": "C73", "title": "Planning episodes with sim agents do not depend on the coordinate frame", "statement": "The same scenario described with another map origin and orientation gives the same planning episode, moved with the map: reset with the sim agents' states, any number of planner actions described in the respective frame (complete states, displacements along the axes, displacements in the vehicle's frame, bicycle controls), and the reactions of the sim agents. This holds for the IDM agent that extrapolates at its route's end, with any real parameters, for the constant-speed actor, the frozen agent, and for the log player when no object enters or leaves; and for a planner that looks at the scene in the SDC's own frame. It does not hold for sim agents that send a finished or leaving object to the invalid marker, nor when the marker of an absent object overlaps an object's box at the first logged step in one of the frames only. What the environment reports about the SDC (the dictionary of metrics) and its reward are the same in both frames.", "quantifier": "all rotations and translations, scenes with finite valid entries, numbers of objects and steps, planner actions or own-frame planners, sim agents without a preferred frame (shown for the shipped ones), keys, IDM parameters", "why_tests_cant": "the frames form a continuum and episodes are unboundedly long; a test moves one scene once", "anchors": ["waymax/env/planning_agent_environment.py:PlanningAgentEnvironment.step", "waymax/env/planning_agent_environment.py:PlanningAgentEnvironment.reset", "waymax/env/planning_agent_environment.py:PlanningAgentEnvironment.metrics", "waymax/env/planning_agent_environment.py:PlanningAgentEnvironment.reward", "waymax/agents/waypoint_following_agent.py:IDMRoutePolicy", "waymax/agents/waypoint_following_agent.py:WaypointFollowingPolicy", "waymax/agents/constant_speed.py:create_constant_speed_actor", "waymax/agents/constant_speed.py:ConstantSpeedPolicy", "waymax/agents/expert.py:create_expert_actor", "waymax/datatypes/observation.py:sdc_observation_from_state"]}
{"id": "C74", "title": "Episodes in float32 stay finite and driven motion stays feasible", "statement": "In float32, the number format the simulator runs in, an episode of any length with the bicycle model keeps every position, heading and velocity finite, whatever the policy asks for, infinities included and NaN excluded; coordinates and speed grow per step by no more than the limits allow up to rounding, the heading stays in its range, and the kinematic infeasibility metric, computed in float32, reports 0 for every object driven through the bicycle model within the default limits, after every step: rounding never makes the inferred acceleration or steering exceed the tolerance. With global displacements of bounded size every frame is finite too. NaN actions are not stopped by the bicycle model and infinite displacements are not stopped by the displacement model (both shown).", "quantifier": "all scenarios with finite logged frames and speeds up to 1000 m/s, numbers of objects and steps, configurations, policies without NaN, bicycle parameters, maths libraries with the stated accuracy", "why_tests_cant": "rounding errors depend on every bit of every input and add up over the steps; tests sample a few and compare with a tolerance", "anchors": ["waymax/dynamics/bicycle_model.py:InvertibleBicycleModel.compute_update", "waymax/dynamics/bicycle_model.py:compute_inverse", "waymax/dynamics/delta.py:DeltaGlobal.compute_update", "waymax/metrics/comfort.py:KinematicsInfeasibilityMetric", "waymax/utils/geometry.py:wrap_yaws", "waymax/env/base_environment.py:BaseEnvironment.step"]}
{"id": "C75", "title": "Collision and divergence reports in float32", "statement": "In float32 the overlap metric is 0 or 1 for each object and right up to a stated tolerance: with all coordinates at most P metres, it is 1 only if another valid object comes closer than 2 P / 2^20 to sharing a point with it (the boxes grown by P / 2^20 on each side overlap), and it is 1 whenever the boxes shrunk by P / 2^20 overlap. The test is symmetric for all inputs, NaN included. The log divergence metric is finite, not negative and the distance to the logged place up to a relative error of 2^-21 of the largest distance; replaying the log gives exactly 0. Without tolerance neither is true: 16777 km from the origin a car of 1 m does not overlap itself, and a divergence of 0 does not imply the same place.", "quantifier": "all pairs of float32 boxes with finite coordinates and headings in [-4, 4], states, numbers of objects, current steps, maths libraries whose sine and cosine are accurate to 2^-23", "why_tests_cant": "whether rounding flips a collision report depends on every bit of ten floats; tests sample a few boxes", "anchors": ["waymax/utils/geometry.py:has_overlap", "waymax/utils/geometry.py:corners_from_bbox", "waymax/metrics/overlap.py:OverlapMetric", "waymax/metrics/imitation.py:LogDivergenceMetric"]}
{"id": "C76", "title": "The IDM agent in float32", "statement": "In float32 the IDM agent's next speed is a finite number that is not negative, at most one acceleration step above the present speed (up to rounding) and not above it once the desired speed is reached, whatever the other objects are: their positions and velocities may be infinite or NaN. An object it drives from a valid logged frame stays valid and finite for the whole episode: its heading is exactly that of one of its valid logged frames, its position is within P / 2^17 of the line through that logged position along that heading (P bounds the coordinates), its distance from the logged position grows by at most C / 10 + P / 2^15 per step (C bounds the speed), and its speed stays below the larger of the first speed and the desired speed plus one acceleration step, up to C / 2^18 per step. The same holds for an IDM sim agent in the planning environment whatever the planner does: its actions may be infinite or NaN. The episode always runs. A desired speed of 0 is not allowed: it gives an object at rest a NaN speed.", "quantifier": "all scenarios, environments, planner actions, other objects and their values, numbers of objects and steps, IDM parameters between 2^-20 and 2^20, routes with finite valid frames, maths libraries with accurate sine and cosine and sane powers", "why_tests_cant": "rounding, overflow and NaN propagation depend on every bit of every object's state and add up over the steps; tests sample a few scenes", "anchors": ["waymax/agents/waypoint_following_agent.py:IDMRoutePolicy.update_speed", "waymax/agents/waypoint_following_agent.py:WaypointFollowingPolicy.update_trajectory", "waymax/agents/waypoint_following_agent.py:WaypointFollowingPolicy._get_next_trajectory_by_projection", "waymax/agents/waypoint_following_agent.py:IDMRoutePolicy._compute_lead_velocity", "waymax/agents/waypoint_following_agent.py:IDMRoutePolicy._compute_lead_distance"]}
{"id": "C77", "title": "In float32, agents move as their speed says", "statement": "In float32, with coordinates at most P and speeds at most C: in every step of an IDM-driven object the asked speed is not negative and at most one acceleration step above the present speed; measured along its new heading the object moves by 0.1 s times the mean of the two speeds, projected from the old heading, up to P / 2^16; its new velocity is the old one or the asked speed along the old heading. This holds in the base and the planning environment and whatever the other objects are. An object that follows a road with one heading at a constant given speed is, before the end of the road, valid, has that heading and that velocity, is at most a metre to the side, and its way along the road after j steps is what the speeds give, up to P / 2^16 per step. An object driven by the constant-speed actor keeps its heading and velocity exactly, and its position after j steps is the initial one plus j times 0.1 s times the velocity, up to P / 2^22 per step. Without a tolerance that grows with P this is false: 33554 km from the origin an object with a speed of 5 m/s never moves.", "quantifier": "all scenarios, other objects and their values, numbers of objects and steps, speeds, headings in [-4, 4], IDM parameters between 2^-20 and 2^20, maths libraries with accurate sine and cosine and sane powers", "why_tests_cant": "rounding errors depend on every bit of the state and add up over the steps; whether an object that is told to move does move depends on its distance from the origin", "anchors": ["waymax/agents/waypoint_following_agent.py:WaypointFollowingPolicy._get_next_trajectory_by_projection", "waymax/agents/waypoint_following_agent.py:_project_to_a_trajectory", "waymax/agents/constant_speed.py:ConstantSpeedPolicy", "waymax/agents/constant_speed.py:create_constant_speed_actor", "waymax/dynamics/state_dynamics.py:StateDynamics.compute_update"]}
{"id": "C78", "title": "Displacements in the vehicle's own frame in float32", "statement": "In float32, closed-loop expert control with DeltaLocal reproduces the log for episodes of any length without drift, although every step rotates the displacement into the vehicle's frame and back: each position is within (M + 40 m) / 2^24 of the logged one, with M the largest logged coordinate and m the displacement limit, provided each logged displacement leaves a little room below the limit, and the heading follows the log modulo whole turns. It never fails. Under any policy with bounded displacements every frame stays finite and coordinates grow per step by at most the diagonal of the allowed square. Sine and cosine need not be accurate for this, only of unit length and odd and even; without that the replay is wrong, and even with it the replay is not exact, unlike DeltaGlobal's.", "quantifier": "all scenarios with finite valid logged frames, numbers of objects and steps, configurations, displacement limits between 2^-40 and 2^60, policies, maths libraries with unit-length odd/even sine and cosine", "why_tests_cant": "the rotation and its inverse round differently for every heading and position, and whether errors add up over an episode shows only in long runs with many values", "anchors": ["waymax/dynamics/delta.py:DeltaLocal.compute_update", "waymax/dynamics/delta.py:DeltaLocal.inverse", "waymax/agents/expert.py:infer_expert_action", "waymax/utils/geometry.py:rotation_matrix_2d", "waymax/env/base_environment.py:BaseEnvironment.step"]}
{"id": "C79", "title": "Map and route metrics in float32", "statement": "In float32, with all coordinates at most P metres: the off-road metric is 0 or 1 and always valid; it is 1 only if some corner of the object's box lies to the right of a road edge point that is nearest to it, both up to P / 2^17, and it is 1 if some corner lies more than P / 2^17 to the right of every road edge point that is nearest to it up to P / 2^17. The wrong-way metric is invalid with value 0 exactly if there is no valid path point; otherwise it is 0, or at least 3.5 m and the distance to the nearest valid path point up to P / 2^18; it is 0 if that distance is below 3.5 m by more than P / 2^18 and the distance if it is above 3.5 m by that. The off-route metric is invalid exactly if the SDC is invalid or no on-route path has a valid point; otherwise it is the distance to the route up to P / 2^18 if that clearly exceeds 5 m or another path is clearly more than 2 m closer, and 0 if neither can be the case. Without tolerance this is false: a corner just beyond an edge 102 m from the origin is not reported.", "quantifier": "all states, objects, maps with finite points and at least one road edge, sets of paths with finite valid points, current steps, maths libraries whose sine and cosine are accurate to 2^-23 (off-road only)", "why_tests_cant": "which edge point is nearest and on which side of it a corner lies are decided by rounded comparisons that depend on every bit of every map point; tests sample a few maps", "anchors": ["waymax/metrics/roadgraph.py:OffroadMetric", "waymax/metrics/roadgraph.py:is_offroad", "waymax/metrics/roadgraph.py:compute_signed_distance_to_nearest_road_edge_point", "waymax/metrics/roadgraph.py:WrongWayMetric", "waymax/metrics/route.py:OffRouteMetric", "waymax/utils/geometry.py:corners_from_bbox"]}
{"id": "C80", "title": "Progress along the route in float32", "statement": "In float32, with positions at most P metres and arc lengths at most 2^30 that differ by at least 2^-20 where they differ: the progression metric is invalid with value 0 exactly if the SDC is invalid or no on-route path has a valid point. Otherwise it is valid, and there is an on-route path nearest to the SDC up to P / 2^17 such that, with a0, a1 and a the arc lengths of points of that path nearest, up to P / 2^17, to the SDC's first and last logged position and its position now, the value is (a - a0) / (a1 - a0) to a relative error of 2^-22, or 1 if a0 = a1. When the SDC is exactly at its last logged position the value is exactly 1, and exactly 0 at the first one unless a0 = a1. It is not bounded below by 0: an SDC behind its logged start has negative progress.", "quantifier": "all states with one SDC, current steps, numbers of objects and steps, sets of paths with finite valid points, all maths libraries", "why_tests_cant": "the nearest path and points are chosen by rounded comparisons of every path point, and cancellation in a quotient of differences depends on every bit of the arc lengths", "anchors": ["waymax/metrics/route.py:ProgressionMetric"]}
{"id": "C81", "title": "Observations in float32", "statement": "In float32, with all coordinates at most P metres and speeds at most V: an observation expressed in an object's (or the SDC's) own frame shows every finite entry of the window where it is relative to the centre of the frame up to P / 2^19 in each coordinate, with its velocity along and to the left of the centre's heading up to V / 2^20 and the difference of headings up to a relative error of 2^-24; sizes, heights and timestamps are unchanged and an entry is valid exactly if it and the centre are. Traffic lights and the kept map points are shown likewise, map directions up to 2^-20. The centre of the frame sees itself at exactly 0 with heading exactly 0, although the position passes through a matrix product with rounded sines and cosines. Distances between shown entries are those of the scene up to P / 2^17. The single SDC observation does the same in the SDC's frame. Of a larger map the requested number of different points is kept, valid ones before invalid ones, and no kept valid point is farther from the observer than a later or dropped valid one by more than P / 2^17. Ids and types of kept points are those of the map as converted to float32 by the IEEE conversion, so an id above 2^24 may change.", "quantifier": "all states, numbers of objects, lights, steps and map points, window lengths, observers, both own-frame modes, entries with finite values, headings in [-4, 4], maths libraries whose sine and cosine are accurate to 2^-23 and exact at 0", "why_tests_cant": "rounding in the chain of matrices depends on every bit of every entry and on the distance from the origin; tests compare a few points with a tolerance", "anchors": ["waymax/datatypes/observation.py:observation_from_state", "waymax/datatypes/observation.py:sdc_observation_from_state", "waymax/datatypes/observation.py:transform_observation", "waymax/datatypes/observation.py:transform_trajectory", "waymax/datatypes/observation.py:ObjectPose2D.from_center_and_yaw", "waymax/datatypes/observation.py:combine_two_object_pose_2d", "waymax/utils/geometry.py:transform_points", "waymax/utils/geometry.py:pose_from_xy_yaw", "waymax/datatypes/roadgraph.py:filter_topk_roadgraph_points"]}
{"id": "C82", "title": "Rewards in float32", "statement": "In float32, for N registered metrics with finite values and finite weights such that weight times value is at most W: the linear reward of every object of the agent mask is finite and differs from the weighted sum of its valid metric values (invalid ones counting 0) by at most N^2 W / 2^22, and every other object gets exactly 0. If weights and values are whole numbers whose products add up in size to at most 2^24, as with the 0/1 metrics and whole weights, the reward is exactly the weighted sum. The same holds of the environment's reward, whose mask is the controlled objects. Values must be finite outside the mask too: an object that is no agent and has an infinite metric value gets NaN. The planning environment's reward is the SDC's weighted sum within the same bound (exactly, for whole numbers), whatever the other objects' finite values are; another object's infinite value makes it NaN. With finite values the metrics it reports are the SDC's without any rounding, the kinematic one 0 and invalid before the first simulated step.", "quantifier": "all registries, sets of at most 2^20 metrics, weights, states, masks and numbers of objects, all maths libraries", "why_tests_cant": "rounding accumulates over the metrics in an order-dependent way and depends on every bit of every weight and value", "anchors": ["waymax/rewards/linear_combination_reward.py:LinearCombinationReward.compute", "waymax/datatypes/array.py:MaskedArray.masked_value", "waymax/env/base_environment.py:BaseEnvironment.reward", "waymax/env/planning_agent_environment.py:PlanningAgentEnvironment.reward", "waymax/env/planning_agent_environment.py:PlanningAgentEnvironment.metrics", "waymax/metrics/metric_factory.py:run_metrics"]}
{"id": "C83", "title": "Masked means in float32", "statement": "In float32, the masked mean over the last axis, which gives loaded objects their constant box sizes, keeps the shape of the data and puts one value into each row: exactly the invalid value if no entry of the row is valid, otherwise a finite number that differs from the exact mean of the n valid entries, of size at most W, by at most (n + 2) W / 2^23. Entries outside the mask may be NaN or infinite. The mean of equal entries need not be their value: six times 8388610 gives 8388609.", "quantifier": "all numbers of rows, rows of at most 2^20 entries, masks, values outside the mask, invalid values, valid entries of size at most W with 1 <= W <= 2^60, added up from left to right", "why_tests_cant": "rounding accumulates over the row and depends on every bit of every entry; tests use a few small whole numbers", "anchors": ["waymax/datatypes/operations.py:masked_mean", "waymax/dataloader/womd_factories.py:trajectory_from_womd_dict"]}
