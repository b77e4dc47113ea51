-Q theories Verif
theories/Model/Types.v
theories/Model/Base.v
theories/Model/FlagsM.v
theories/Model/U24M.v
theories/Model/PayloadM.v
theories/Model/VisitM.v
theories/Model/CodecM.v
theories/Model/FrameM.v
theories/Model/ChunkM.v
theories/Model/BufM.v
theories/Model/StreamIdM.v
theories/Model/SocketM.v
theories/Model/WeakM.v
theories/Model/HandlerTypes.v
theories/Model/HandlerM.v
theories/Model/ShowM.v
theories/Model/SystemM.v
theories/Model/MimeM.v
theories/Model/ErrorM.v
theories/Model/Utf8M.v
theories/Model/DebugM.v
theories/Model/PrettyM.v
theories/Model/WordM.v
theories/Model/LifeTypes.v
theories/Model/LifeM.v
theories/Model/IterM.v
theories/Model/StoreM.v
theories/Model/RuleTypes.v
theories/Model/RuleM.v
theories/Model/FlagOpsTypes.v
theories/Model/FlagOpsM.v
theories/Model/ShareTypes.v
theories/Model/ShareM.v
theories/Spec/Wire.v
theories/Spec/Codec.v
theories/Spec/Build.v
theories/Spec/Protocol.v
theories/Spec/Chunk.v
theories/Spec/Buf.v
theories/Spec/Ids.v
theories/Spec/Socket.v
theories/Spec/Weak.v
theories/Spec/Handler.v
theories/Spec/Show.v
theories/Spec/System.v
theories/Spec/Mime.v
theories/Spec/Text.v
theories/Spec/Debug.v
theories/Spec/Pretty.v
theories/Spec/Word.v
theories/Spec/Life.v
theories/Spec/Proto.v
theories/Spec/Iter.v
theories/Spec/Store.v
theories/Spec/Rules.v
theories/Spec/FlagSets.v
theories/Spec/Share.v
theories/Proofs/BitsP.v
theories/Proofs/EatP.v
theories/Proofs/CodecP.v
theories/Proofs/DecodeP.v
theories/Proofs/StableP.v
theories/Proofs/BackP.v
theories/Proofs/SegmentP.v
theories/Proofs/StallP.v
theories/Proofs/AskP.v
theories/Proofs/BuildP.v
theories/Proofs/CtorP.v
theories/Proofs/ProtocolP.v
theories/Proofs/FlagsP.v
theories/Proofs/F32P.v
theories/Proofs/ChunkP.v
theories/Proofs/BufP.v
theories/Proofs/LeftP.v
theories/Proofs/BufGenP.v
theories/Proofs/WriteP.v
theories/Proofs/SidP.v
theories/Proofs/PermitP.v
theories/Proofs/SocketP.v
theories/Proofs/TraceP.v
theories/Proofs/ProgressP.v
theories/Proofs/AloneP.v
theories/Proofs/WaitP.v
theories/Proofs/DeliverP.v
theories/Proofs/ReplayP.v
theories/Proofs/MissingP.v
theories/Proofs/ScheduleP.v
theories/Proofs/OwnP.v
theories/Proofs/SystemP.v
theories/Proofs/FloodP.v
theories/Proofs/Utf8P.v
theories/Proofs/Utf8ErrP.v
theories/Proofs/TextP.v
theories/Proofs/TextsP.v
theories/Proofs/DebugP.v
theories/Proofs/FrameDebugP.v
theories/Proofs/FrameEqP.v
theories/Proofs/PrettyP.v
theories/Proofs/WordP.v
theories/Proofs/LifeP.v
theories/Proofs/ProtoP.v
theories/Proofs/IterP.v
theories/Proofs/WeakP.v
theories/Proofs/HandlerP.v
theories/Proofs/ShowP.v
theories/Proofs/StoreP.v
theories/Proofs/RuleP.v
theories/Proofs/FlagOpsP.v
theories/Proofs/ShareP.v
theories/Props/CodecProps.v
theories/Props/FrameProps.v
theories/Props/ChunkProps.v
theories/Props/BufProps.v
theories/Props/SocketProps.v
theories/Props/SystemProps.v
theories/Props/OwnProps.v
theories/Props/TextProps.v
theories/Props/DebugProps.v
theories/Props/PrettyProps.v
theories/Props/WordProps.v
theories/Props/LifeProps.v
theories/Props/ProtoProps.v
theories/Props/WeakProps.v
theories/Props/HandlerProps.v
theories/Props/ShowProps.v
theories/Props/IterProps.v
theories/Props/StoreProps.v
theories/Props/RuleProps.v
theories/Props/FlagProps.v
theories/Props/ShareProps.v
theories/Tests/RepoTests.v
theories/Model/AdaptTypes.v
theories/Model/AdaptM.v
theories/Spec/Adapt.v
theories/Proofs/AdaptP.v
theories/Props/AdaptProps.v
theories/Model/PoolTypes.v
theories/Model/PoolM.v
theories/Spec/Pool.v
theories/Proofs/PoolP.v
theories/Props/PoolProps.v
theories/Model/SlowTypes.v
theories/Model/SlowM.v
theories/Spec/Slow.v
theories/Proofs/SlowP.v
theories/Props/SlowProps.v
theories/Proofs/ReachP.v
theories/Props/ReachProps.v
theories/Spec/Mix.v
theories/Proofs/MixP.v
theories/Props/MixProps.v
theories/Model/CaughtM.v
theories/Spec/Caught.v
theories/Proofs/CaughtP.v
theories/Props/CaughtProps.v
theories/Model/MessageTypes.v
theories/Model/MessageM.v
theories/Spec/Message.v
theories/Proofs/MessageP.v
theories/Props/MessageProps.v
theories/Model/Utf8TextM.v
theories/Spec/Utf8Text.v
theories/Proofs/Utf8TextP.v
theories/Props/Utf8TextProps.v
theories/Spec/Fair.v
theories/Proofs/FairP.v
theories/Props/FairProps.v
theories/Spec/Prompt.v
theories/Proofs/PromptP.v
theories/Props/PromptProps.v
theories/Model/BornTypes.v
theories/Model/BornM.v
theories/Spec/Born.v
theories/Proofs/BornP.v
theories/Props/BornProps.v
theories/Model/EnvTypes.v
theories/Model/EnvM.v
theories/Spec/Env.v
theories/Proofs/EnvP.v
theories/Props/EnvProps.v
theories/Model/ReviveTypes.v
theories/Model/ReviveM.v
theories/Spec/Revive.v
theories/Proofs/ReviveP.v
theories/Props/ReviveProps.v
theories/Model/VersionM.v
theories/Spec/VersionOrd.v
theories/Proofs/VersionP.v
theories/Props/VersionProps.v
