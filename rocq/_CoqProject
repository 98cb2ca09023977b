-Q theories Verif
theories/Base.v
theories/BaseProofs.v
theories/LogMathModel.v
theories/TransMathModel.v
theories/LaddersModel.v
theories/NodeMathProofs.v
theories/LogMathSpec.v
theories/LogMathProofs.v
theories/LogMathProofs2.v
theories/LogMathProperties.v
theories/TransMathSpec.v
theories/TransMathProofs.v
theories/TransMathProofs2.v
theories/TransMathProperties.v
theories/LaddersProofs.v
theories/LaddersProperties.v
theories/LogTreeModel.v
theories/LogTreeSpec.v
theories/LogTreeProofs.v
theories/LogAppendProofs.v
theories/LogVerifyProofs.v
theories/LogVerifyProofs2.v
theories/LogTreeProofs3.v
theories/LogTreeExamples.v
theories/LogTreeProperties.v
theories/PrefixModel.v
theories/PrefixSpec.v
theories/PrefixProofs.v
theories/PrefixUpdateProofs.v
theories/PrefixCodecProofs.v
theories/PrefixStoreProofs.v
theories/PrefixTileProofs.v
theories/PrefixBuildProofs.v
theories/PrefixMutateProofs.v
theories/PrefixMutateProofs2.v
theories/PrefixVerifyProofs.v
theories/PrefixVerifyProofs2.v
theories/PrefixVerifyProofs3.v
theories/PrefixVerifyProofs4.v
theories/PrefixHistProofs.v
theories/PrefixExamples.v
theories/PrefixProperties.v
theories/CodecModel.v
theories/CodecSpec.v
theories/CodecProofs.v
theories/CodecProofs2.v
theories/CodecProofs3.v
theories/CodecExamples.v
theories/CodecProperties.v
theories/AlgModel.v
theories/AlgSpec.v
theories/AlgProofs.v
theories/AlgProofs2.v
theories/AlgProofs3.v
theories/AlgProofs4.v
theories/AlgProofs5.v
theories/AlgProofs6.v
theories/AlgExamples.v
theories/AlgProperties.v
theories/LogChunkModel.v
theories/LogChunkSpec.v
theories/LogChunkProofs.v
theories/LogChunkProofs2.v
theories/LogChunkProofs3.v
theories/LogChunkProofs4.v
theories/LogChunkProofs5.v
theories/LogChunkProofs6.v
theories/LogChunkProofs7.v
theories/LogChunkProperties.v
theories/HandleModel.v
theories/HandleSpec.v
theories/HandleProofs.v
theories/HandleProofs2.v
theories/HandleProofs3.v
theories/HandleProofs4.v
theories/HandleProofs5.v
theories/HandleProofs6.v
theories/HandleProofs7.v
theories/HandleProofs8.v
theories/HandleExamples.v
theories/HandleExamples2.v
theories/HandleExamples3.v
theories/HandleProperties.v
theories/StoreModel.v
theories/StoreSpec.v
theories/StoreProofs.v
theories/StoreProperties.v
theories/CommitModel.v
theories/CommitProofs.v
theories/CommitProperties.v
theories/MutateModel.v
theories/MutateSpec.v
theories/MutateProofs.v
theories/MutateProofs2.v
theories/MutateProofs3.v
theories/MutateProofs4.v
theories/MutateProofs5.v
theories/MutateProofs6.v
theories/MutateExamples.v
theories/MutateProofs7.v
theories/MutateProperties.v
theories/AuditorModel.v
theories/AuditorSpec.v
theories/AuditorProofs.v
theories/AuditorProofs2.v
theories/AuditorProofs3.v
theories/AuditorProofs4.v
theories/AuditorProofs5.v
theories/AuditorExamples.v
theories/AuditorExamples2.v
theories/AuditorProperties.v
theories/ServerModel.v
theories/ManagedModel.v
theories/ManagedSpec.v
theories/ManagedProofs.v
theories/ManagedProperties.v
theories/ClientModel.v
theories/ClientProofs.v
theories/ClientProofs2.v
theories/ClientSpec.v
theories/ServerProofs.v
theories/ClientExamples.v
theories/ClientRefutations.v
theories/ClientProperties.v
theories/ServerProperties.v
theories/SearchProofs.v
theories/SearchProofs2.v
theories/SearchProofs3.v
theories/SearchExamples.v
theories/SearchProperties.v
theories/AcceptProofs.v
theories/SoundSpec.v
theories/SoundProofs.v
theories/SoundProofs2.v
theories/SoundProofs3.v
theories/SoundProofs4.v
theories/SoundExamples.v
theories/SoundProperties.v
theories/CalmSpec.v
theories/CalmProofs.v
theories/CalmProofs2.v
theories/CalmProofs3.v
theories/CalmProofs4.v
theories/CalmExamples.v
theories/CalmProperties.v
theories/VrfModel.v
theories/VrfSpec.v
theories/VrfProofs.v
theories/VrfProofs2.v
theories/VrfProofs3.v
theories/VrfProofs4.v
theories/VrfExamples.v
theories/VrfProperties.v
theories/WatchSpec.v
theories/WatchProofs.v
theories/WatchProofs2.v
theories/WatchProofs3.v
theories/WatchProofs4.v
theories/WatchProofs5.v
theories/WatchProofs6.v
theories/WatchExamples.v
theories/WatchProperties.v
theories/WatchProperties2.v
theories/MemoryModel.v
theories/MemorySpec.v
theories/MemoryProofs.v
theories/MemoryProperties.v
theories/GuardSpec.v
theories/GuardProofs.v
theories/GuardProofs2.v
theories/GuardProofs3.v
theories/GuardProofs5.v
theories/GuardProofs4.v
theories/GuardProofs6.v
theories/GuardExamples.v
theories/GuardProperties.v
theories/ServerCalmSpec.v
theories/ServerCalmProofs.v
theories/ServerCalmProofs2.v
theories/ServerCalmProperties.v
theories/SignedSpec.v
theories/SignedProofs.v
theories/SignedExamples.v
theories/SignedProperties.v
theories/ConfirmSpec.v
theories/ConfirmProofs.v
theories/ConfirmExamples.v
theories/ConfirmProperties.v
theories/AbsentSpec.v
theories/AbsentProofs.v
theories/AbsentProofs2.v
theories/AbsentProofs3.v
theories/AbsentProofs4.v
theories/AbsentExamples.v
theories/AbsentProperties.v
theories/RestSpec.v
theories/RestExamples.v
theories/RestProofs.v
theories/RestProperties.v
theories/ReloadSpec.v
theories/ReloadProofs.v
theories/ReloadProofs2.v
theories/ReloadProperties.v
theories/OrderSpec.v
theories/OrderProofs.v
theories/OrderProofs2.v
theories/OrderExamples.v
theories/OrderProperties.v
theories/LoadedSpec.v
theories/LoadedProofs.v
theories/LoadedProperties.v
theories/TimeSpec.v
theories/TimeProofs.v
theories/TimeExamples.v
theories/TimeProperties.v
theories/AlarmProofs.v
theories/AlarmExamples.v
theories/AlarmProperties.v
theories/SteadySpec.v
theories/SteadyProofs.v
theories/SteadyProofs2.v
theories/SteadyExamples.v
theories/SteadyProperties.v
theories/AuditTreeSpec.v
theories/AuditTreeProofs.v
theories/AuditTreeExamples.v
theories/AuditTreeProperties.v
theories/VouchSpec.v
theories/VouchProofs.v
theories/VouchExamples.v
theories/VouchProperties.v
theories/AgreeSpec.v
theories/AgreeProofs.v
theories/AgreeExamples.v
theories/AgreeProperties.v
theories/AnswerSpec.v
theories/AnswerProofs.v
theories/AnswerProofs2.v
theories/AnswerProofs3.v
theories/AnswerProofs4.v
theories/AnswerProofs5.v
theories/AnswerSpec2.v
theories/AnswerProofs6.v
theories/AnswerProofs7.v
theories/AnswerProofs8.v
theories/AnswerExamples2.v
theories/AnswerProperties2.v
theories/AnswerExamples.v
theories/AnswerProperties.v
theories/AnswerExamples3.v
theories/AnswerProperties3.v
theories/AnswerSpec3.v
theories/AnswerProofs9.v
theories/AnswerExamples4.v
theories/AnswerProperties4.v
