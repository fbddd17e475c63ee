-Q theories Verif

theories/Prelude.v
theories/DateModel.v
theories/DateSpec.v
theories/DateProofs.v
theories/DateProps.v
theories/TimeModel.v
theories/TimeSpec.v
theories/TimeProofs.v
theories/TimeProps.v
theories/LruModel.v
theories/LruSpec.v
theories/LruProofs.v
theories/LruProps.v
theories/CordModel.v
theories/CordSpec.v
theories/CordProofs.v
theories/CordProps.v
theories/StatusModel.v
theories/StatusSpec.v
theories/StatusProofs.v
theories/StatusProps.v
theories/EitherModel.v
theories/EitherSpec.v
theories/EitherProofs.v
theories/EitherProps.v
theories/HashModel.v
theories/HashSpec.v
theories/HashProofs.v
theories/HashProps.v
theories/Trans.v
theories/LatchModel.v
theories/LatchProofs.v
theories/LatchProps.v
theories/WorkerModel.v
theories/WorkerProofs.v
theories/WorkerProps.v
theories/CollectModel.v
theories/CollectProofs.v
theories/CollectProps.v
theories/ValueBase.v
theories/FloatProofs.v
theories/ValueModel.v
theories/ValueProofs.v
theories/ValueEqProofs.v
theories/ValueLtProofs.v
theories/ValueProps.v
theories/GraphModel.v
theories/GraphProps.v
theories/ExprModel.v
theories/ExprSpec.v
theories/ExprProofs.v
theories/ExprProps.v
theories/EvalModel.v
theories/EvalSpec.v
theories/EvalProofs.v
theories/EvalProps.v
theories/RelProps.v
theories/EvalLoopProps.v
theories/MemoryProps.v
theories/FuncModel.v
theories/FuncProofs.v
theories/FuncProps.v
theories/AggModel.v
theories/AggProps.v
theories/StatsModel.v
theories/StatsProps.v
theories/AssocModel.v
theories/LeaderModel.v
theories/LeaderProps.v
theories/RespModel.v
theories/RespProps.v
theories/RetryModel.v
theories/RetryProps.v
theories/DiffModel.v
theories/DiffProps.v
theories/ListenerProps.v
theories/SchemaModel.v
theories/SchemaProps.v
theories/SchemaLoadProps.v
theories/ClusterModel.v
theories/ClusterProps.v
theories/DurationModel.v
theories/DurationProps.v
theories/PathModel.v
theories/NetModel.v
theories/PathProps.v
theories/DecProofs.v
theories/NetProps.v
theories/FsModel.v
theories/FsProps.v
theories/GraphFuncProps.v
theories/WireModel.v
theories/WireSpec.v
theories/WireProofs.v
theories/WireSafe.v
theories/WireProps.v
theories/CloneModel.v
theories/CloneSpec.v
theories/CloneProofs.v
theories/CloneProps.v
theories/DecodeProofs.v
theories/DecodeProps.v
theories/FuncTableModel.v
theories/FuncTableProofs.v
theories/FuncTableProps.v
theories/FromMapProps.v
theories/TextFuncProps.v
theories/MetaCacheModel.v
theories/MetaCacheProofs.v
theories/MetaCacheProps.v
theories/MetaIndexProps.v
theories/MetaSyncProps.v
theories/FloatExact.v
theories/AggFloatProps.v
theories/StatsRegProps.v
theories/ReplyModel.v
theories/ReplySpec.v
theories/ReplyProofs.v
theories/ReplySkip.v
theories/ReplySafe.v
theories/ReplyProps.v
theories/ReplyReqProps.v
theories/FullTextModel.v
theories/FullTextSpec.v
theories/FullTextProofs.v
theories/FullTextProps.v
theories/RouterModel.v
theories/RouterSpec.v
theories/RouterProofs.v
theories/RouterProps.v
theories/DynModel.v
theories/DynProofs.v
theories/ConfModel.v
theories/ConfProps.v
theories/GflagsModel.v
theories/GflagsProps.v
theories/WebModel.v
theories/WebProps.v
theories/WebStatsProps.v
theories/ClientManModel.v
theories/ClientManProps.v
theories/StoreReqModel.v
theories/StoreReqProps.v
theories/InternalModel.v
theories/InternalProps.v
theories/ProcModel.v
theories/ProcProps.v
theories/CommandProps.v
theories/SignalModel.v
theories/SignalProps.v
theories/FtCacheModel.v
theories/FtCacheProps.v
theories/HbModel.v
theories/HbProps.v
theories/CacheQueryModel.v
theories/CacheQueryProps.v
theories/FuncGuardProps.v
theories/KvModel.v
theories/KvProps.v
theories/ZoneModel.v
theories/ZoneProps.v
theories/FloatReal.v
theories/ClockModel.v
theories/ClockProofs.v
theories/ClockProps.v
theories/OperatorProps.v
theories/BuildProps.v
theories/CastModel.v
theories/CastProps.v
theories/UnionModel.v
theories/UnionSpec.v
theories/UnionProofs.v
theories/UnionOps.v
theories/UnionProps.v
theories/ExprTextModel.v
theories/ExprTextSpec.v
theories/ExprTextProofs.v
theories/ExprTextProps.v
theories/AdminModel.v
theories/AdminSpec.v
theories/AdminProps.v
theories/SizeModel.v
theories/SizeProps.v
theories/PoolModel.v
theories/PoolProps.v
theories/DefaultsModel.v
theories/DefaultsProps.v
theories/MemModel.v
theories/FloatReal32.v
theories/MemProps.v
theories/NameModel.v
theories/NameProps.v
theories/TempModel.v
theories/TempProps.v
theories/MetaLockModel.v
theories/MetaLockProps.v
theories/FuncLawProps.v
theories/StartModel.v
theories/StartProps.v
theories/ReadyProps.v
theories/WebStartModel.v
theories/WebStartProps.v
theories/PortModel.v
theories/PortProps.v
theories/OpLawProps.v
theories/LruConcModel.v
theories/LruConcProps.v
theories/HostTextProps.v
theories/StatusTextModel.v
theories/StatusTextProps.v
theories/HexModel.v
theories/HexProps.v
theories/ErrorOrModel.v
theories/ErrorOrProps.v
theories/IndexManagerModel.v
theories/IndexManagerProps.v
theories/SumProps.v
theories/MemberProps.v
theories/ScopeSpec.v
theories/ScopeProofs.v
theories/ScopeProps.v
theories/ValueTextProps.v
theories/MathFuncProps.v
theories/ConstProps.v
theories/StatsTextProps.v
theories/AskModel.v
theories/AskProps.v
theories/FaultSpec.v
theories/FaultProofs.v
theories/FaultProps.v
theories/SoundSpec.v
theories/SoundProofs.v
theories/SoundProps.v
theories/FaultSoundProps.v
theories/SoundFuncSpec.v
theories/SoundFuncProofs.v
theories/SoundFuncProps.v
theories/SoundWireProps.v
theories/SoundAggProps.v
theories/ReceiveProofs.v
theories/ReceiveProps.v
theories/RelayProofs.v
theories/RelayProps.v
theories/ReceivedProps.v
