-Q theories Verif

theories/Lib/Base.v
theories/Lib/F32.v
theories/Lib/JaxIndex.v
theories/Lib/QScalar.v
theories/Lib/Scalar.v
theories/Lib/XR.v
theories/Model/Actor.v
theories/Model/BaseEnv.v
theories/Model/Batch.v
theories/Model/BatchAgents.v
theories/Model/BatchMetrics.v
theories/Model/BatchPlanning.v
theories/Model/Comfort.v
theories/Model/Config.v
theories/Model/Discretizer.v
theories/Model/Dyn_Bicycle.v
theories/Model/Dyn_Delta.v
theories/Model/Dyn_State.v
theories/Model/Dynamics.v
theories/Model/Envs.v
theories/Model/Expert.v
theories/Model/Filenames.v
theories/Model/Geometry.v
theories/Model/Loader.v
theories/Model/Masked.v
theories/Model/Metrics.v
theories/Model/Observation.v
theories/Model/Operations.v
theories/Model/Pipeline.v
theories/Model/PlanningEnv.v
theories/Model/Pose.v
theories/Model/Roadgraph.v
theories/Model/Rollout.v
theories/Model/Specs.v
theories/Model/State.v
theories/Model/Validate.v
theories/Model/Viz.v
theories/Model/Waypoint.v
theories/Model/Womd.v
theories/Model/WomdState.v
theories/Model/Wrappers.v
theories/Proofs/Core.v
theories/Proofs/Episode.v
theories/Proofs/P_Actions.v
theories/Proofs/P_Actor.v
theories/Proofs/P_Agents.v
theories/Proofs/P_Angles.v
theories/Proofs/P_Batch.v
theories/Proofs/P_BatchAgents.v
theories/Proofs/P_BatchMetrics.v
theories/Proofs/P_BatchPlanning.v
theories/Proofs/P_BatchReward.v
theories/Proofs/P_BatchSdc.v
theories/Proofs/P_Bicycle.v
theories/Proofs/P_Closed.v
theories/Proofs/P_Config.v
theories/Proofs/P_Delta.v
theories/Proofs/P_DiscWrap.v
theories/Proofs/P_Discretizer.v
theories/Proofs/P_Drive.v
theories/Proofs/P_Embed.v
theories/Proofs/P_EmbedMore.v
theories/Proofs/P_EmbedPlan.v
theories/Proofs/P_EmbedReport.v
theories/Proofs/P_Expert.v
theories/Proofs/P_F32.v
theories/Proofs/P_F32Angles.v
theories/Proofs/P_F32Bicycle.v
theories/Proofs/P_F32Const.v
theories/Proofs/P_F32Delta.v
theories/Proofs/P_F32Disc.v
theories/Proofs/P_F32Drive.v
theories/Proofs/P_F32Episode.v
theories/Proofs/P_F32Idm.v
theories/Proofs/P_F32Int.v
theories/Proofs/P_F32Kim.v
theories/Proofs/P_F32Local.v
theories/Proofs/P_F32Map.v
theories/Proofs/P_F32Mask.v
theories/Proofs/P_F32Near.v
theories/Proofs/P_F32Obs.v
theories/Proofs/P_F32Overlap.v
theories/Proofs/P_F32PlanReward.v
theories/Proofs/P_F32Progress.v
theories/Proofs/P_F32Report.v
theories/Proofs/P_F32Reward.v
theories/Proofs/P_F32Route.v
theories/Proofs/P_F32Special.v
theories/Proofs/P_F32Topk.v
theories/Proofs/P_F32Wrap.v
theories/Proofs/P_Filenames.v
theories/Proofs/P_ForObj.v
theories/Proofs/P_IDM.v
theories/Proofs/P_IDMRun.v
theories/Proofs/P_Indexing.v
theories/Proofs/P_Lead.v
theories/Proofs/P_LeadLog.v
theories/Proofs/P_Libm.v
theories/Proofs/P_Loader.v
theories/Proofs/P_LoaderBatch.v
theories/Proofs/P_LoaderMore.v
theories/Proofs/P_LoaderOne.v
theories/Proofs/P_LoaderRecord.v
theories/Proofs/P_LoaderStack.v
theories/Proofs/P_Masked.v
theories/Proofs/P_Metrics.v
theories/Proofs/P_MetricsRun.v
theories/Proofs/P_Moved.v
theories/Proofs/P_MovedAgents.v
theories/Proofs/P_MovedMetrics.v
theories/Proofs/P_MovedObs.v
theories/Proofs/P_MovedPlan.v
theories/Proofs/P_MovedReport.v
theories/Proofs/P_ObsEpisode.v
theories/Proofs/P_Observation.v
theories/Proofs/P_Offroad.v
theories/Proofs/P_Overlap.v
theories/Proofs/P_OwnFrame.v
theories/Proofs/P_Pipeline.v
theories/Proofs/P_Plan.v
theories/Proofs/P_PlanMetrics.v
theories/Proofs/P_PlanRun.v
theories/Proofs/P_Pose.v
theories/Proofs/P_RecordPlan.v
theories/Proofs/P_RecordRun.v
theories/Proofs/P_RecordUnique.v
theories/Proofs/P_Reframe.v
theories/Proofs/P_Replay.v
theories/Proofs/P_Reset.v
theories/Proofs/P_Reward.v
theories/Proofs/P_Roadgraph.v
theories/Proofs/P_Rollout.v
theories/Proofs/P_Route.v
theories/Proofs/P_Specs.v
theories/Proofs/P_SpecsRun.v
theories/Proofs/P_Step.v
theories/Proofs/P_Traffic.v
theories/Proofs/P_Valid.v
theories/Proofs/P_Validate.v
theories/Proofs/P_Viz.v
theories/Proofs/P_Waypoint.v
theories/Proofs/P_Womd.v
theories/Proofs/P_WomdE2E.v
theories/Proofs/P_WomdExport.v
theories/Proofs/P_WomdState.v
theories/Proofs/P_WomdTrip.v
theories/Proofs/P_WrapInst.v
theories/Proofs/P_Wrappers.v
theories/Props/C01.v
theories/Props/C02.v
theories/Props/C03.v
theories/Props/C04.v
theories/Props/C05.v
theories/Props/C06.v
theories/Props/C07.v
theories/Props/C08.v
theories/Props/C09.v
theories/Props/C10.v
theories/Props/C11.v
theories/Props/C12.v
theories/Props/C13.v
theories/Props/C14.v
theories/Props/C15.v
theories/Props/C16.v
theories/Props/C17.v
theories/Props/C18.v
theories/Props/C19.v
theories/Props/C20.v
theories/Props/C21.v
theories/Props/C22.v
theories/Props/C23.v
theories/Props/C24.v
theories/Props/C25.v
theories/Props/C26.v
theories/Props/C27.v
theories/Props/C28.v
theories/Props/C29.v
theories/Props/C30.v
theories/Props/C31.v
theories/Props/C32.v
theories/Props/C33.v
theories/Props/C34.v
theories/Props/C35.v
theories/Props/C36.v
theories/Props/C37.v
theories/Props/C38.v
theories/Props/C39.v
theories/Props/C40.v
theories/Props/C41.v
theories/Props/C42.v
theories/Props/C43.v
theories/Props/C44.v
theories/Props/C45.v
theories/Props/C46.v
theories/Props/C47.v
theories/Props/C48.v
theories/Props/C49.v
theories/Props/C50.v
theories/Props/C51.v
theories/Props/C52.v
theories/Props/C53.v
theories/Props/C54.v
theories/Props/C55.v
theories/Props/C56.v
theories/Props/C57.v
theories/Props/C58.v
theories/Props/C59.v
theories/Props/C60.v
theories/Props/C61.v
theories/Props/C62.v
theories/Props/C63.v
theories/Props/C64.v
theories/Props/C65.v
theories/Props/C66.v
theories/Props/C67.v
theories/Props/C68.v
theories/Props/C69.v
theories/Props/C70.v
theories/Props/C71.v
theories/Props/C72.v
theories/Props/C73.v
theories/Props/C74.v
theories/Props/C75.v
theories/Props/C76.v
theories/Props/C77.v
theories/Props/C78.v
theories/Props/C79.v
theories/Props/C80.v
theories/Props/C81.v
theories/Props/C82.v
theories/Props/C83.v
theories/Props/Ex.v
theories/Props/ExM.v
theories/Props/ExO.v
theories/Props/ExP.v
theories/Props/ExR.v
theories/Props/ExW.v
theories/Spec/AgentSpec.v
theories/Spec/BatchPlanSpec.v
theories/Spec/BatchSpec.v
theories/Spec/ClosedSpec.v
theories/Spec/ConfigSpec.v
theories/Spec/DictSpec.v
theories/Spec/DiscSpec.v
theories/Spec/DriveSpec.v
theories/Spec/DynSpec.v
theories/Spec/EmbedReportSpec.v
theories/Spec/EmbedSpec.v
theories/Spec/F32DriveSpec.v
theories/Spec/F32EpisodeSpec.v
theories/Spec/F32GeomSpec.v
theories/Spec/F32LocalSpec.v
theories/Spec/F32MapSpec.v
theories/Spec/F32MaskSpec.v
theories/Spec/F32ObsSpec.v
theories/Spec/F32RewardSpec.v
theories/Spec/F32Spec.v
theories/Spec/FileSpec.v
theories/Spec/GeomSpec.v
theories/Spec/IndexSpec.v
theories/Spec/LoadSpec.v
theories/Spec/LoaderSpec.v
theories/Spec/LogAheadSpec.v
theories/Spec/MaskSpec.v
theories/Spec/MetricSpec.v
theories/Spec/MovedPlanSpec.v
theories/Spec/MovedSpec.v
theories/Spec/ObsSpec.v
theories/Spec/PlanSpec.v
theories/Spec/RecordSpec.v
theories/Spec/RewardSpec.v
theories/Spec/RolloutSpec.v
theories/Spec/SpecsSpec.v
theories/Spec/StateSpec.v
theories/Spec/TrafficSpec.v
theories/Spec/ValidSpec.v
theories/Spec/ValidateSpec.v
theories/Spec/VizSpec.v
theories/Spec/WaypointSpec.v
theories/Spec/WomdSpec.v
theories/Spec/WrapSpec.v
