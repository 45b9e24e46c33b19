-Q theories Verif
theories/Base.v
theories/BaseLemmas.v
theories/CbufModel.v
theories/CbufSpec.v
theories/CbufSystem.v
theories/CbufProofs.v
theories/CbufProps.v
theories/CbufExactProofs.v
theories/CbufExactProps.v
theories/CbufNullModel.v
theories/CbufNullSpec.v
theories/CbufNullSystem.v
theories/CbufNullProofs.v
theories/CbufNullProps.v
theories/SpscModel.v
theories/SpscSpec.v
theories/SpscProofs.v
theories/PutsConcModel.v
theories/PutsConcProofs.v
theories/SpscProps.v
theories/WeakModel.v
theories/WeakSpec.v
theories/WeakProofs.v
theories/WeakFenceProofs.v
theories/WeakProps.v
theories/BulkModel.v
theories/BulkSpec.v
theories/BulkSystem.v
theories/BulkProofs.v
theories/BulkSoloProofs.v
theories/BulkProps.v
theories/BulkWeakModel.v
theories/BulkWeakProofs.v
theories/BulkWeakProps.v
theories/LoadModel.v
theories/LoadProofs.v
theories/LoadProps.v
theories/QueueModel.v
theories/QueueSpec.v
theories/QueueSystem.v
theories/QueueProofs.v
theories/QueueProps.v
theories/QueueConcModel.v
theories/QueueConcSpec.v
theories/QueueConcSystem.v
theories/QueueConcProofs.v
theories/QueueConcProps.v
theories/StackModel.v
theories/StackSpec.v
theories/StackSystem.v
theories/StackProofs.v
theories/StackProps.v
theories/SerializerModel.v
theories/SerializerSpec.v
theories/SerializerSystem.v
theories/SerializerProofs.v
theories/SerializerProps.v
theories/SerRecSpec.v
theories/SerRecSystem.v
theories/SerRecProofs.v
theories/SerRecProps.v
theories/CrcModel.v
theories/CrcSpec.v
theories/CrcProofs.v
theories/CrcProps.v
theories/CrcErrorsProofs.v
theories/CrcSearch.v
theories/CrcErrorsProps.v
theories/CrcFrameSpec.v
theories/CrcFrameProofs.v
theories/CrcFrameProps.v
theories/TimeModel.v
theories/TimeSpec.v
theories/TimeProofs.v
theories/StopwatchModel.v
theories/StopwatchSpec.v
theories/StopwatchSystem.v
theories/StopwatchProofs.v
theories/StopwatchProps.v
theories/SwCustomModel.v
theories/SwCustomSpec.v
theories/SwCustomSystem.v
theories/SwCustomProofs.v
theories/SwCustomProps.v
theories/TmCustomModel.v
theories/TmCustomSpec.v
theories/TmCustomSystem.v
theories/TmCustomProofs.v
theories/TmCustomProps.v
theories/TimerModel.v
theories/TimerSpec.v
theories/TimerSystem.v
theories/TimerProofs.v
theories/TimerProps.v
theories/TimerNestModel.v
theories/TimerNestSpec.v
theories/TimerNestProofs.v
theories/TimerNestProps.v
theories/Loop.v
theories/DebounceModel.v
theories/DebounceSpec.v
theories/DebounceSystem.v
theories/DebounceProofs.v
theories/DebounceVaryProofs.v
theories/DebounceProps.v
theories/PulseModel.v
theories/PulseSpec.v
theories/PulseSystem.v
theories/PulseProofs.v
theories/PulseVaryProofs.v
theories/PulseProps.v
theories/EventLogModel.v
theories/EventLogSpec.v
theories/EventLogSystem.v
theories/EventLogProofs.v
theories/EventLogProps.v
theories/WearModel.v
theories/WearSpec.v
theories/WearSystem.v
theories/WearProofs.v
theories/WearExactProofs.v
theories/WearProps.v
theories/WearCutSpec.v
theories/WearCutSystem.v
theories/WearCutProofs.v
theories/WearCutProps.v
theories/SchedulerModel.v
theories/SchedulerSpec.v
theories/SchedulerProofs.v
theories/SchedulerProps.v
theories/PageManModel.v
theories/PageManSpec.v
theories/PageManSystem.v
theories/PageManProofs.v
theories/PageManExactProofs.v
theories/PageManProps.v
theories/PageNestModel.v
theories/PageNestSpec.v
theories/PageNestProofs.v
theories/PageNestProps.v
theories/MaybeModel.v
theories/MaybeProps.v
theories/StateMachineModel.v
theories/StateMachineProps.v
theories/SmNestModel.v
theories/SmNestSpec.v
theories/SmNestProofs.v
theories/SmNestProps.v
theories/StructUpdateModel.v
theories/StructUpdateSpec.v
theories/StructUpdateSystem.v
theories/StructUpdateProofs.v
theories/StructUpdateProps.v
theories/WatcherModel.v
theories/WatcherSpec.v
theories/WatcherSystem.v
theories/WatcherProofs.v
theories/WatcherExactProofs.v
theories/WatcherProps.v
theories/WatchNestModel.v
theories/WatchNestSpec.v
theories/WatchNestProofs.v
theories/WatchNestProps.v
theories/ListxModel.v
theories/ListxSpec.v
theories/ListxSystem.v
theories/ListxProofs.v
theories/ListxProps.v
theories/ListxWorldSpec.v
theories/ListxWorldSystem.v
theories/ListxWorldProofs.v
theories/ListxWorldProps.v
theories/KeypadModel.v
theories/KeypadSpec.v
theories/KeypadSystem.v
theories/KeypadProofs.v
theories/KeypadTableProofs.v
theories/KeypadProps.v
theories/Float.v
theories/FloatProofs.v
theories/FloatSpec.v
theories/FloatExact.v
theories/FloatRound.v
theories/PidModel.v
theories/PidSpec.v
theories/PidSystem.v
theories/PidProofs.v
theories/PidFloatProofs.v
theories/PidProps.v
theories/PidFltModel.v
theories/PidFltSpec.v
theories/PidFltSystem.v
theories/PidFltProofs.v
theories/PidFltProps.v
theories/FloatOrder.v
theories/PidMonoSpec.v
theories/PidMonoProofs.v
theories/PidMonoProps.v
theories/ParameterModel.v
theories/ParameterSpec.v
theories/ParameterProofs.v
theories/ParameterExactProofs.v
theories/ParameterTableProofs.v
theories/ParameterFloatProofs.v
theories/ParameterProps.v
theories/FloatStep.v
theories/ParamStepSpec.v
theories/ParamStepProofs.v
theories/ParamStepProps.v
theories/ParamCycleSpec.v
theories/ParamCycleProofs.v
theories/ParamCycleProps.v
theories/DebKeySpec.v
theories/DebKeySystem.v
theories/DebKeyProofs.v
theories/DebKeyProps.v
theories/SchedWeekSpec.v
theories/SchedWeekProofs.v
theories/SchedWeekProps.v
theories/SchedTableSystem.v
theories/SchedTableProofs.v
theories/SchedTableProps.v
theories/SchedStoreSpec.v
theories/SchedStoreSystem.v
theories/SchedStoreProofs.v
theories/SchedStoreProps.v
theories/PulseDebSystem.v
theories/PulseDebProofs.v
theories/PulseDebProps.v
theories/TimerDriftSpec.v
theories/TimerDriftProofs.v
theories/TimerDriftProps.v
theories/EventKeepSpec.v
theories/EventKeepSystem.v
theories/EventKeepProofs.v
theories/EventKeepProps.v
theories/WatchLateSpec.v
theories/WatchLateProofs.v
theories/WatchLateProps.v
theories/PulseRateSpec.v
theories/PulseRateProofs.v
theories/PulseRateProps.v
theories/KeyLateSpec.v
theories/KeyLateProofs.v
theories/KeyLateProps.v
theories/SchedSteadySpec.v
theories/SchedSteadyProofs.v
theories/SchedSteadyProps.v
theories/ObserverModel.v
theories/ObserverSpec.v
theories/ObserverProofs.v
theories/ObserverProps.v
theories/QueueAskModel.v
theories/QueueAskProofs.v
theories/QueueAskProps.v
theories/CbufAskSpec.v
theories/CbufAskProofs.v
theories/CbufAskProps.v
theories/KeyTabLateSpec.v
theories/KeyTabLateProofs.v
theories/KeyTabLateProps.v
theories/LogPagesSystem.v
theories/LogPagesProofs.v
theories/LogPagesProps.v
theories/PidFltErrSpec.v
theories/PidFltErrProofs.v
theories/PidFltErrProps.v
theories/QueueWatchSpec.v
theories/QueueWatchProofs.v
theories/QueueWatchProps.v
theories/QueueTallyModel.v
theories/QueueTallySpec.v
theories/QueueTallyProofs.v
theories/QueueTallyProps.v
