-Q theories Verif
theories/Bits.v
theories/Types.v
theories/TimeModel.v
theories/TimeSpec.v
theories/TimeProofs.v
theories/TimeProps.v
theories/EventModel.v
theories/EventSpec.v
theories/EventProofs.v
theories/EventProps.v
theories/LibModel.v
theories/LibSpec.v
theories/LibProofs.v
theories/LibProps.v
theories/TimedModel.v
theories/TimedSpec.v
theories/TimedProofs.v
theories/TimedProps.v
theories/Pool.v
theories/NotifyModel.v
theories/NotifySpec.v
theories/NotifyProofs.v
theories/NotifyLive.v
theories/NotifyProps.v
theories/PollModel.v
theories/PollSpec.v
theories/PollProofs.v
theories/PollWait.v
theories/PollProps.v
theories/PollConcModel.v
theories/PollConcSpec.v
theories/PollConcProofs.v
theories/PollConcProofs2.v
theories/PollConcTable.v
theories/PollConcNotify.v
theories/PollConcLive.v
theories/PollConcMore.v
theories/PollConcProps.v
theories/EpollModel.v
theories/EpollSpec.v
theories/EpollProofs.v
theories/EpollProofs2.v
theories/EpollProofs3.v
theories/EpollProofs4.v
theories/EpollProps.v
theories/KqueueModel.v
theories/KqueueSpec.v
theories/KqueueProofs.v
theories/KqueueProofs2.v
theories/KqueueProofs3.v
theories/KqueueProofs4.v
theories/KqueueProofs5.v
theories/KqueueProofs6.v
theories/KqueueProofs7.v
theories/KqueueProofs8.v
theories/KqueueProofs9.v
theories/KqueueProps.v
theories/PortModel.v
theories/PortSpec.v
theories/PortProofs.v
theories/PortProofs2.v
theories/PortProps.v
theories/IocpModel.v
theories/IocpSpec.v
theories/IocpProofs.v
theories/IocpProofs2.v
theories/IocpProofs3.v
theories/IocpProofs4.v
theories/IocpProofs5.v
theories/IocpProofs6.v
theories/IocpProofs7.v
theories/IocpProofs8.v
theories/IocpProofs9.v
theories/IocpProofs10.v
theories/IocpProofs11.v
theories/IocpProofs12.v
theories/IocpProofs13.v
theories/IocpProofs14.v
theories/IocpProofs15.v
theories/IocpProofs16.v
theories/IocpProofs17.v
theories/IocpProofs18.v
theories/IocpOnceSpec.v
theories/IocpProofs19.v
theories/IocpModes.v
theories/IocpLiveSpec.v
theories/IocpLive.v
theories/IocpRuns.v
theories/IocpProps.v
theories/IocpLiveProps.v
theories/IocpOnceProps.v
theories/IocpDropModel.v
theories/IocpDropProps.v
theories/AfdModel.v
theories/AfdSpec.v
theories/AfdProofs.v
theories/AfdProps.v
theories/BaseModel.v
theories/BaseProps.v
theories/CrossProps.v
theories/ModesModel.v
theories/ModesProps.v
theories/LifeModel.v
theories/LifeSpec.v
theories/LifeProofs.v
theories/LifeProofs2.v
theories/LifeProofs3.v
theories/LifeProps.v
theories/PanicProofs.v
theories/PanicProps.v
theories/PortableSpec.v
theories/PortableProofs.v
theories/PortableProps.v
theories/IocpFailProps.v
theories/OnceModel.v
theories/OnceProps.v
theories/LayoutModel.v
theories/LayoutProps.v
theories/MailModel.v
theories/MailProps.v
theories/OnceEachSpec.v
theories/OnceEachProps.v
theories/CurrentSpec.v
theories/CurrentProps.v
theories/FileModel.v
theories/FileSpec.v
theories/FileProps.v
theories/FilePollProps.v
theories/CfgModel.v
theories/CfgSpec.v
theories/CfgProps.v
theories/PoisonModel.v
theories/PoisonSpec.v
theories/PoisonProps.v
theories/IocpProofs20.v
theories/IocpReadySpec.v
theories/IocpReadyProps.v
theories/PollReadySpec.v
theories/PollReadyProofs.v
theories/PollReadyProps.v
theories/IocpLinSpec.v
theories/IocpLinProofs.v
theories/IocpLinProps.v
theories/IocpOrderSpec.v
theories/IocpOrderProofs.v
theories/IocpOrderProps.v
theories/CapacityModel.v
theories/CapacityProps.v
theories/IocpBlockProofs.v
theories/IocpBlockProps.v
theories/KqueueFilterProps.v
theories/KqueueSignalProps.v
theories/NestSpec.v
theories/NestProofs.v
theories/NestProps.v
theories/NestPortProps.v
theories/NestKqueueProps.v
theories/IocpKeyProps.v
theories/RoomSpec.v
theories/RoomEpollProps.v
theories/RoomKqueueProps.v
theories/RoomPortProps.v
theories/RoomIocpProps.v
theories/RoomPollProps.v
theories/NoneSpec.v
theories/NoneEpollProps.v
theories/NoneKqueueProps.v
theories/NonePortProps.v
theories/NonePollProps.v
theories/OncePerWaitProps.v
theories/OncePerWaitIocpProps.v
theories/MoreCaseProps.v
theories/UsedUpProps.v
theories/IocpLostProps.v
theories/TimeoutEpollProps.v
theories/TimeoutKqueueProps.v
theories/TimeoutIocpProps.v
theories/TimeoutPollProps.v
theories/TakenEpollProps.v
theories/TakenKqueueProps.v
