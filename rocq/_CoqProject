-Q theories Verif
theories/Prelude.v
theories/ListAux.v
theories/ScopeModel.v
theories/ScopeSpec.v
theories/ScopeProofs.v
theories/StmtModel.v
theories/WorkloadModel.v
theories/WorkloadSpec.v
theories/WalkProofs.v
theories/FlatProofs.v
theories/InstanceProofs.v
theories/RunProofs.v
theories/ServedProofs.v
theories/CallProofs.v
theories/GroupProofs.v
theories/WireProofs.v
theories/ScopeProps.v
theories/WorkloadProps.v
theories/GenModel.v
theories/GenSpec.v
theories/GenProofs.v
theories/GenProps.v
theories/LimitModel.v
theories/LimitSpec.v
theories/LimitProofs.v
theories/LimitProps.v
theories/RateModel.v
theories/RateSpec.v
theories/RateProofs.v
theories/RateProps.v
theories/IterModel.v
theories/IterSpec.v
theories/IterProofs.v
theories/IterProps.v
theories/ClientModel.v
theories/ClientSpec.v
theories/ClientProofs.v
theories/ClientTrxProofs.v
theories/ClientConnProofs.v
theories/ClientProps.v
theories/StatsModel.v
theories/StatsSpec.v
theories/StatsProofs.v
theories/StatsReportProofs.v
theories/CollectorModel.v
theories/CollectorSpec.v
theories/CollectorProofs.v
theories/StatsProps.v
theories/ConfigModel.v
theories/ConfigSpec.v
theories/ConfigVarsProofs.v
theories/ConfigProofs.v
theories/ConfigProps.v
theories/DsnModel.v
theories/DsnProps.v
theories/TrxModel.v
theories/TrxSpec.v
theories/TrxKeyProofs.v
theories/TrxRowProofs.v
theories/TrxProofs.v
theories/TrxStmtProofs.v
theories/TrxCsvProofs.v
theories/TrxCopyProofs.v
theories/TrxLineProofs.v
theories/TrxSentProofs.v
theories/TrxProps.v
theories/TrxModSpec.v
theories/TrxModProofs.v
theories/TrxModProps.v
theories/ApiModel.v
theories/ApiSpec.v
theories/ApiProofs.v
theories/ApiServerProofs.v
theories/ApiSeqProofs.v
theories/ApiInvProofs.v
theories/ApiReachProofs.v
theories/ApiStuckProofs.v
theories/ApiProps.v
theories/ProtoModel.v
theories/ProtoProps.v
theories/StageModel.v
theories/StageProps.v
theories/GapsModel.v
theories/GapsProofs.v
theories/GapsProps.v
theories/ReportModel.v
theories/ReportSpec.v
theories/ReportProofs.v
theories/ReportProps.v
theories/ServeModel.v
theories/ServeSpec.v
theories/ServeProofs.v
theories/ServeProps.v
theories/RemoteModel.v
theories/RemoteSpec.v
theories/RemoteProofs.v
theories/RemoteProps.v
theories/UrlModel.v
theories/UrlProps.v
theories/PrepProofs.v
theories/PipeModel.v
theories/PipeProofs.v
theories/PipeKeyProofs.v
theories/PipeRunProofs.v
theories/PipeProps.v
theories/DriverModel.v
theories/DriverProofs.v
theories/DriverProps.v
theories/StopProps.v
theories/ValueModel.v
theories/ValueSpec.v
theories/ValueProofs.v
theories/ValueCallProofs.v
theories/ValueColumnProofs.v
theories/ValueProps.v
theories/EndSpec.v
theories/EndProofs.v
theories/EndValueProofs.v
theories/EndProps.v
theories/TrxOrderSpec.v
theories/TrxOrderProofs.v
theories/TrxOrderProps.v
theories/EndTrxProofs.v
theories/EndRunProps.v
theories/TotalModel.v
theories/TotalSpec.v
theories/TotalProofs.v
theories/TotalProps.v
theories/BootModel.v
theories/BootProofs.v
theories/BootProps.v
theories/NetModel.v
theories/NetSpec.v
theories/NetServerProofs.v
theories/NetProofs.v
theories/NetAnyProofs.v
theories/NetProps.v
theories/LoopModel.v
theories/LoopSpec.v
theories/LoopProofs.v
theories/LoopCountProofs.v
theories/LoopProps.v
theories/PaceModel.v
theories/PaceSpec.v
theories/PaceProofs.v
theories/PaceNetProofs.v
theories/PaceWireProofs.v
theories/PaceProps.v
theories/LoadModel.v
theories/LoadSpec.v
theories/LoadProofs.v
theories/LoadProps.v
theories/LoadFlowProofs.v
theories/LoadSizeProofs.v
theories/LoadFlowProps.v
theories/DataModel.v
theories/DataSpec.v
theories/DataProofs.v
theories/DataRunProofs.v
theories/DataKeyProofs.v
theories/DataSizeProofs.v
theories/DataProps.v
theories/SendModel.v
theories/SendSpec.v
theories/SendProofs.v
theories/SendProps.v
theories/WholeModel.v
theories/WholeSpec.v
theories/WholeProofs.v
theories/WholeProps.v
theories/TallySpec.v
theories/TallyProofs.v
theories/TallyProps.v
theories/HaltSpec.v
theories/HaltProofs.v
theories/HaltProps.v
theories/LedgerSpec.v
theories/LedgerProofs.v
theories/LedgerProps.v
theories/ProgModel.v
theories/ProgSpec.v
theories/ProgProofs.v
theories/ProgProps.v
theories/FinalSpec.v
theories/FinalProofs.v
theories/FinalProps.v
theories/SharedSpec.v
theories/SharedProofs.v
theories/UniqueProofs.v
theories/SharedProps.v
theories/MakerModel.v
theories/MakerSpec.v
theories/MakerProofs.v
theories/MakerProps.v
theories/ClockModel.v
theories/ClockProps.v
theories/QpsModel.v
theories/QpsProofs.v
theories/QpsProps.v
theories/CapProps.v
theories/BothProofs.v
theories/BothProps.v
theories/MinProofs.v
theories/MinProps.v
