-Q theories Verif
theories/GraphModel.v
theories/GraphSpec.v
theories/GraphProofs.v
theories/GraphProps.v
theories/LogModel.v
theories/LogSpec.v
theories/LogProofs.v
theories/SnapshotProofs.v
theories/LogProps.v
theories/ExecModel.v
theories/ExecSpec.v
theories/ExecProofs.v
theories/AddProofs.v
theories/SchedModel.v
theories/SchedSpec.v
theories/SchedBase.v
theories/SchedInv.v
theories/SchedClient.v
theories/SchedServer.v
theories/SchedEvents.v
theories/SchedFinish.v
theories/SchedReach.v
theories/SchedDrain.v
theories/SchedTrace.v
theories/SchedServerTrace.v
theories/SchedClientTrace.v
theories/SchedQueueTrace.v
theories/SchedProofs.v
theories/SchedOutcome.v
theories/SchedResult.v
theories/SchedProps.v
theories/RecordSpec.v
theories/RecordProofs.v
theories/RecordProps.v
theories/SchedLiveSpec.v
theories/SchedLive.v
theories/SchedBound.v
theories/SchedLiveProps.v
theories/SchedSoft.v
theories/SessionModel.v
theories/SessionSpec.v
theories/SessionLists.v
theories/SessionInv.v
theories/SessionProofs.v
theories/SessionHistory.v
theories/SessionOnce.v
theories/SessionMore.v
theories/TopoSort.v
theories/DfsModel.v
theories/DfsProofs.v
theories/DfsProps.v
theories/SessionDemo.v
theories/SessionProps.v
theories/GcraModel.v
theories/GcraSpec.v
theories/GcraProofs.v
theories/GcraProps.v
theories/ResetModel.v
theories/ResetProps.v
theories/BusyProps.v
theories/AgainProps.v
theories/WheelModel.v
theories/WheelSpec.v
theories/WheelProofs.v
theories/WheelProps.v
theories/RingModel.v
theories/RingSpec.v
theories/RingProofs.v
theories/RingProps.v
theories/RateModel.v
theories/RateSpec.v
theories/RateProofs.v
theories/RateProps.v
theories/SyncModel.v
theories/SyncSpec.v
theories/SyncProofs.v
theories/SyncProps.v
theories/Utf8Model.v
theories/LocalModel.v
theories/LocalSpec.v
theories/Utf8Proofs.v
theories/LocalProofs.v
theories/LocalProps.v
theories/JsonModel.v
theories/JsonSpec.v
theories/JsonProofs.v
theories/JsonProps.v
theories/ServerModel.v
theories/ServerSpec.v
theories/ServerProofs.v
theories/ServerTrace.v
theories/ServerTime.v
theories/ServerProps.v
theories/MsgModel.v
theories/MsgSpec.v
theories/MsgProofs.v
theories/MsgProps.v
theories/LockModel.v
theories/LockSpec.v
theories/LockProofs.v
theories/LockProps.v
theories/RemoteModel.v
theories/RemoteSpec.v
theories/RemoteProofs.v
theories/RemoteProps.v
theories/JointModel.v
theories/JointSpec.v
theories/JointProofs.v
theories/JointInv.v
theories/JointTrace.v
theories/JointFit.v
theories/JointProps.v
theories/RecordJointSpec.v
theories/RecordJointProofs.v
theories/RecordJointProps.v
theories/JointLive.v
theories/JointLiveProps.v
theories/FleetModel.v
theories/FleetSpec.v
theories/FleetProofs.v
theories/FleetProps.v
theories/FleetJobs.v
theories/FleetLiveProps.v
theories/RecordFleetProps.v
theories/LaunchModel.v
theories/LaunchSpec.v
theories/LaunchProofs.v
theories/LaunchProps.v
theories/LocModel.v
theories/LocSpec.v
theories/LocProofs.v
theories/LocProps.v
theories/FloatModel.v
theories/FloatSpec.v
theories/FloatProofs.v
theories/FloatProps.v
theories/PoolModel.v
theories/PoolSpec.v
theories/PoolProofs.v
theories/PoolLive.v
theories/PoolEnd.v
theories/PoolTrace.v
theories/PoolProps.v
theories/PoolRecordSpec.v
theories/RecordOpen.v
theories/PoolRecord.v
theories/PoolRecordProps.v
theories/PipeModel.v
theories/PipeSpec.v
theories/PipeProofs.v
theories/PipeLive.v
theories/LossyProofs.v
theories/PipeProps.v
theories/SinkModel.v
theories/SinkSpec.v
theories/SinkProofs.v
theories/SinkProps.v
theories/AdminModel.v
theories/AdminSpec.v
theories/AdminProofs.v
theories/AdminProps.v
theories/LinesModel.v
theories/LinesSpec.v
theories/LinesProofs.v
theories/LinesProps.v
theories/ServiceModel.v
theories/ServiceSpec.v
theories/ServiceProofs.v
theories/ServiceProps.v
theories/HookModel.v
theories/HookSpec.v
theories/HookProofs.v
theories/HookProps.v
theories/HeartModel.v
theories/HeartSpec.v
theories/HeartProofs.v
theories/HeartProps.v
theories/ToolModel.v
theories/ToolSpec.v
theories/ToolProofs.v
theories/ToolProps.v
theories/AlarmModel.v
theories/AlarmSpec.v
theories/AlarmProofs.v
theories/AlarmProps.v
theories/GroupModel.v
theories/GroupSpec.v
theories/GroupProofs.v
theories/GroupProps.v
theories/ProgressModel.v
theories/ProgressSpec.v
theories/ProgressProofs.v
theories/ProgressProps.v
theories/FlushModel.v
theories/FlushProofs.v
theories/FlushProps.v
theories/ViewModel.v
theories/ViewProps.v
theories/HookFail.v
theories/ManageModel.v
theories/ManageSpec.v
theories/ManageProofs.v
theories/ManageProps.v
theories/LiveProofs.v
theories/LiveProps.v
theories/CompleteProps.v
theories/SuccessProps.v
theories/VerdictProps.v
