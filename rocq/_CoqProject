-Q theories Verif
theories/Word.v
theories/MathModel.v
theories/MathProofs.v
theories/BitsCountProofs.v
theories/MathThms.v
theories/ValueModel.v
theories/ValueThms.v
theories/TickThms.v
theories/SpanModel.v
theories/SpanProofs.v
theories/SpanThms.v
theories/CompareModel.v
theories/CompareThms.v
theories/BitMapModel.v
theories/BitMapThms.v
theories/ListModel.v
theories/ListProofs.v
theories/ListThms.v
theories/HashSetModel.v
theories/HashSetThms.v
theories/OptionalModel.v
theories/OptionalThms.v
theories/MoveModel.v
theories/MoveThms.v
theories/CowModel.v
theories/CowProofs.v
theories/CowThms.v
theories/AllocModel.v
theories/AllocThms.v
theories/CowAliasModel.v
theories/CowAliasThms.v
theories/TimerModel.v
theories/TimerProofs.v
theories/TimerInv.v
theories/TimerThms.v
theories/UtfModel.v
theories/UtfProofs.v
theories/UtfThms.v
theories/PathModel.v
theories/PathProofs.v
theories/PathThms.v
theories/LockModel.v
theories/LockThms.v
theories/Slots.v
theories/SlotsProofs.v
theories/RefPtrModel.v
theories/RefPtrThms.v
theories/UniquePtrModel.v
theories/UniquePtrThms.v
theories/HandleModel.v
theories/HandleThms.v
theories/ObserverModel.v
theories/ObserverThms.v
theories/RefCountModel.v
theories/RefCountThms.v
theories/InterlockedModel.v
theories/InterlockedThms.v
theories/StringModel.v
theories/StringProofs.v
theories/StringMembers.v
theories/StringThms.v
theories/SooModel.v
theories/SooProofs.v
theories/SooThms.v
theories/Threads.v
theories/LinkModel.v
theories/LinkThms.v
theories/QueueModel.v
theories/QueueThms.v
theories/CowConcModel.v
theories/CowConcThms.v
theories/CancelModel.v
theories/CancelThms.v
theories/AsyncModel.v
theories/AsyncThms.v
theories/WhenAllModel.v
theories/WhenAllThms.v
theories/WhenAnyModel.v
theories/WhenAnyThms.v
theories/SeqModel.v
theories/SeqProofs.v
theories/SeqThms.v
theories/ParModel.v
theories/ParProofs.v
theories/ParThms.v
theories/EntryModel.v
theories/EntryThms.v
theories/SendModel.v
theories/SendThms.v
theories/WaitModel.v
theories/WaitProofs.v
theories/WaitThms.v
theories/ThreadModel.v
theories/ThreadProofs.v
theories/ThreadInv.v
theories/ThreadThms.v
theories/PoolModel.v
theories/PoolProofs.v
theories/PoolThms.v
theories/RewaitModel.v
theories/RewaitProofs.v
theories/RewaitInv.v
theories/RewaitThms.v
theories/NStringModel.v
theories/NStringProofs.v
theories/NStringThms.v
theories/FileModel.v
theories/FileProofs.v
theories/FileInv.v
theories/FileObj.v
theories/FileThms.v
theories/ProxyModel.v
theories/ProxyProofs.v
theories/ProxyInv.v
theories/ProxyLive.v
theories/ProxyThms.v
theories/ProxyTimerModel.v
theories/ProxyTimerThms.v
theories/TokenModel.v
theories/TokenProofs.v
theories/TokenScope.v
theories/TokenClean.v
theories/TokenThms.v
theories/LinuxPoolModel.v
theories/LinuxPoolProofs.v
theories/LinuxPoolClean.v
theories/LinuxPoolRuns.v
theories/LinuxPoolThms.v
theories/ErrorModel.v
theories/ErrorThms.v
theories/AddrWaitModel.v
theories/AddrWaitThms.v
theories/ZoneModel.v
theories/ZoneThms.v
theories/MakeTaskModel.v
theories/MakeTaskProofs.v
theories/MakeTaskThms.v
theories/FileVerModel.v
theories/FileVerThms.v
theories/RecoverModel.v
theories/RecoverProofs.v
theories/RecoverThms.v
theories/AwaitModel.v
theories/AwaitProofs.v
theories/AwaitThms.v
theories/ComObjModel.v
theories/ComObjThms.v
theories/AnsiModel.v
theories/AnsiThms.v
theories/BindModel.v
theories/BindThms.v
theories/DelayModel.v
theories/DelayProofs.v
theories/DelayThms.v
theories/ChainModel.v
theories/ChainThms.v
theories/CurrentModel.v
theories/CurrentProofs.v
theories/CurrentThms.v
theories/StarveModel.v
theories/StarveThms.v
theories/ScopeModel.v
theories/ScopeThms.v
theories/WeakTokenModel.v
theories/WeakTokenThms.v
theories/CpuModel.v
theories/CpuThms.v
theories/CurDirModel.v
theories/CurDirThms.v
theories/FlagsModel.v
theories/FlagsThms.v
theories/PathStrModel.v
theories/PathStrThms.v
theories/FormatModel.v
theories/FormatThms.v
theories/UtfBadThms.v
theories/OldIoModel.v
theories/OldIoProofs.v
theories/OldIoThms.v
theories/PathVolThms.v
theories/TwoModel.v
theories/TwoThms.v
