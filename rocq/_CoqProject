-Q theories Verif

theories/AffModel.v
theories/AffSpec.v
theories/AffThms.v
theories/AioModel.v
theories/AioSpec.v
theories/AioThms.v
theories/AllocModel.v
theories/AllocThms.v
theories/ArgsModel.v
theories/ArgsProofs.v
theories/ArgsSpec.v
theories/ArgsThms.v
theories/ArgvModel.v
theories/ArgvSpec.v
theories/ArgvThms.v
theories/ArrayModel.v
theories/ArrayProofs.v
theories/ArraySpec.v
theories/ArrayThms.v
theories/Base.v
theories/BitsModel.v
theories/BitsProofs.v
theories/BitsSpec.v
theories/BitsThms.v
theories/BpfModel.v
theories/BpfSpec.v
theories/BpfThms.v
theories/CapModel.v
theories/CapSpec.v
theories/CapThms.v
theories/CompModel.v
theories/CompProofs.v
theories/CompSpec.v
theories/CompThms.v
theories/CountModel.v
theories/CountProofs.v
theories/CountSpec.v
theories/CountThms.v
theories/CredModel.v
theories/CredSpec.v
theories/CredThms.v
theories/DateThms.v
theories/DelayProofs.v
theories/DelaySpec.v
theories/DelayThms.v
theories/DentsModel.v
theories/DentsProofs.v
theories/DentsSpec.v
theories/DentsThms.v
theories/DetachProofs.v
theories/DetachSpec.v
theories/DetachThms.v
theories/DiagModel.v
theories/DiagProofs.v
theories/DiagSpec.v
theories/DiagThms.v
theories/DmModel.v
theories/DmSpec.v
theories/DmThms.v
theories/DumpModel.v
theories/DumpProofs.v
theories/DumpSpec.v
theories/DumpThms.v
theories/EnvModel.v
theories/EnvProofs.v
theories/EnvSpec.v
theories/EnvThms.v
theories/EpollModel.v
theories/EpollSpec.v
theories/EpollThms.v
theories/ErrnoModel.v
theories/ErrnoThms.v
theories/EvModel.v
theories/EvSpec.v
theories/EvThms.v
theories/ExtModel.v
theories/ExtSpec.v
theories/ExtThms.v
theories/FcntlModel.v
theories/FcntlSpec.v
theories/FcntlThms.v
theories/FdModel.v
theories/FdProofs.v
theories/FdSpec.v
theories/FdThms.v
theories/FfProofs.v
theories/FfSpec.v
theories/FfThms.v
theories/FhModel.v
theories/FhSpec.v
theories/FhThms.v
theories/FlagText.v
theories/FlagThms.v
theories/FtsModel.v
theories/FtsProofs.v
theories/FtsRound.v
theories/FtsSpec.v
theories/FtsText.v
theories/FtsThms.v
theories/FutexModel.v
theories/FutexSpec.v
theories/FutexThms.v
theories/GidModel.v
theories/GidThms.v
theories/IexpFold.v
theories/IexpModel.v
theories/IexpParse.v
theories/IexpProofs.v
theories/IexpRule.v
theories/IexpSpec.v
theories/IexpThms.v
theories/InfoModel.v
theories/InfoSpec.v
theories/InfoThms.v
theories/InjectModel.v
theories/InjectProofs.v
theories/InjectSpec.v
theories/InjectThms.v
theories/IntrModel.v
theories/IntrSpec.v
theories/IntrThms.v
theories/IoctlModel.v
theories/IoctlProofs.v
theories/IoctlSpec.v
theories/IoctlText.v
theories/IoctlThms.v
theories/IovModel.v
theories/IovProofs.v
theories/IovSpec.v
theories/IovThms.v
theories/KvmModel.v
theories/KvmSpec.v
theories/KvmThms.v
theories/LimitProofs.v
theories/LimitSpec.v
theories/LimitThms.v
theories/ListModel.v
theories/ListProofs.v
theories/ListSpec.v
theories/ListThms.v
theories/LogModel.v
theories/LogProofs.v
theories/LogSpec.v
theories/LogThms.v
theories/LoopClock.v
theories/LoopCore.v
theories/LoopDelay.v
theories/LoopEnds.v
theories/LoopEx.v
theories/LoopFrame.v
theories/LoopInv.v
theories/LoopModel.v
theories/LoopQueue.v
theories/LoopReach.v
theories/LoopReq.v
theories/LoopRun.v
theories/LoopSig.v
theories/LoopSpec.v
theories/LoopThms.v
theories/LoopTurn.v
theories/MergeModel.v
theories/MergeSpec.v
theories/MergeThms.v
theories/MmapModel.v
theories/MmapProofs.v
theories/MmapSpec.v
theories/MmapThms.v
theories/MmsgModel.v
theories/MmsgSpec.v
theories/MmsgThms.v
theories/ModeModel.v
theories/ModeProofs.v
theories/ModeSpec.v
theories/ModeThms.v
theories/MountModel.v
theories/MountSpec.v
theories/MountThms.v
theories/MsgModel.v
theories/MsgProofs.v
theories/MsgSpec.v
theories/MsgThms.v
theories/NlModel.v
theories/NlProofs.v
theories/NlSpec.v
theories/NlThms.v
theories/NoticeThms.v
theories/NsModel.v
theories/NsSpec.v
theories/NsThms.v
theories/NumSetModel.v
theories/NumSetProofs.v
theories/NumSetSpec.v
theories/NumSetThms.v
theories/NumaModel.v
theories/NumaSpec.v
theories/NumaThms.v
theories/OptModel.v
theories/OptProofs.v
theories/OptSpec.v
theories/OptStep.v
theories/OptThms.v
theories/PathModel.v
theories/PathProofs.v
theories/PathSpec.v
theories/PathThms.v
theories/PidModel.v
theories/PidProofs.v
theories/PidSpec.v
theories/PidThms.v
theories/PokeModel.v
theories/PokeSpec.v
theories/PokeThms.v
theories/PollModel.v
theories/PollSpec.v
theories/PollThms.v
theories/Printf.v
theories/QualModel.v
theories/QualProofs.v
theories/QualSpec.v
theories/QualThms.v
theories/QuoteHexProofs.v
theories/QuoteHexSpec.v
theories/QuoteHexThms.v
theories/QuoteModel.v
theories/QuoteProofs.v
theories/QuoteSpec.v
theories/QuoteThms.v
theories/RetModel.v
theories/RetProofs.v
theories/RetSpec.v
theories/RetThms.v
theories/ScnoModel.v
theories/ScnoSpec.v
theories/ScnoThms.v
theories/SecModel.v
theories/SecSpec.v
theories/SecThms.v
theories/SeccompModel.v
theories/SeccompProofs.v
theories/SeccompSpec.v
theories/SeccompThms.v
theories/SeekModel.v
theories/SeekSpec.v
theories/SeekThms.v
theories/SelModel.v
theories/SelProofs.v
theories/SelSpec.v
theories/SelThms.v
theories/ShuffleModel.v
theories/ShuffleThms.v
theories/SigThms.v
theories/SockModel.v
theories/SockProofs.v
theories/SockSpec.v
theories/SockThms.v
theories/StackModel.v
theories/StackSpec.v
theories/StackThms.v
theories/StartModel.v
theories/StartSpec.v
theories/StartThms.v
theories/StatusLog.v
theories/StatusLoop.v
theories/StatusProofs.v
theories/StatusSpec.v
theories/StatusThms.v
theories/StdModel.v
theories/StdSpec.v
theories/StdThms.v
theories/StrtouModel.v
theories/StrtouProofs.v
theories/StrtouSpec.v
theories/StrtouThms.v
theories/SubModel.v
theories/SubProofs.v
theories/SubSpec.v
theories/SubThms.v
theories/TableModel.v
theories/TableProofs.v
theories/TableSpec.v
theories/TableThms.v
theories/TcbModel.v
theories/TcbProofs.v
theories/TcbSpec.v
theories/TickModel.v
theories/TickSpec.v
theories/TickThms.v
theories/TimeModel.v
theories/TimeProofs.v
theories/TimeSpec.v
theories/TimeThms.v
theories/TrieIter.v
theories/TrieModel.v
theories/TrieProofs.v
theories/TrieThms.v
theories/TvalModel.v
theories/TvalSpec.v
theories/TvalThms.v
theories/UcopyModel.v
theories/UcopyProofs.v
theories/UcopySpec.v
theories/UcopyThms.v
theories/VmModel.v
theories/VmSpec.v
theories/VmThms.v
theories/WaitModel.v
theories/WaitThms.v
theories/XattrModel.v
theories/XattrSpec.v
theories/XattrThms.v
theories/XlatModel.v
theories/XlatMore.v
theories/XlatProofs.v
theories/XlatSpec.v
theories/XlatText.v
theories/XlatThms.v
