-Q theories Verif
theories/GoHeap.v
theories/GoHeapProofs.v
theories/QueueModel.v
theories/QueueCore.v
theories/QueueInv.v
theories/QueueInvAdd.v
theories/QueueInvUpd.v
theories/QueueInvRem.v
theories/QueueInvTick.v
theories/QueueEff.v
theories/QueueItem.v
theories/QueueFrame.v
theories/HeapSpec.v
theories/QueueSpec.v
theories/QueueProofs.v
theories/QueueProofs2.v
theories/QueueProofs3.v
theories/QueueProofs4.v
theories/QueueProofs5.v
theories/ReadyModel.v
theories/ReadySpec.v
theories/ReadyProofs.v
theories/ReadyProps.v
theories/QueueProofs6.v
theories/QueueDemo.v
theories/QueueTime.v
theories/QueueProps.v
theories/LimiterModel.v
theories/LimiterSpec.v
theories/LimiterProofs.v
theories/LimiterProofs2.v
theories/LimitNameModel.v
theories/LimitNameSpec.v
theories/LimitNameProofs.v
theories/LimiterProps.v
theories/RpModel.v
theories/RpSpec.v
theories/RpProofs.v
theories/RpProofs2.v
theories/RpProofs3.v
theories/RpProofs4.v
theories/RpProofs5.v
theories/RpProps.v
theories/ServerModel.v
theories/ServerCore.v
theories/ServerTick.v
theories/ServerEff.v
theories/ServerEff2.v
theories/ServerEff3.v
theories/ServerPrep.v
theories/ServerEff4.v
theories/ServerEff5.v
theories/ServerEff6.v
theories/QueueDep.v
theories/ServerQ.v
theories/ServerSpec.v
theories/ServerKey.v
theories/ServerProofs.v
theories/ServerProofs2.v
theories/ServerProofs3.v
theories/ServerProofs4.v
theories/ServerLimSpec.v
theories/ServerLim.v
theories/ServerLim2.v
theories/ServerDemo.v
theories/ServerProps.v
theories/StreamModel.v
theories/StreamProofs.v
theories/StreamProps.v
theories/UtilModel.v
theories/UtilSpec.v
theories/UtilProofs.v
theories/UtilProofs2.v
theories/UtilProofs3.v
theories/UtilProps.v
theories/ListModel.v
theories/ListSpec.v
theories/ListProofs.v
theories/ListProps.v
theories/GroupModel.v
theories/GroupSpec.v
theories/GroupProofs.v
theories/GroupProps.v
theories/LocalModel.v
theories/LocalSpec.v
theories/LocalProofs.v
theories/LocalPass.v
theories/LocalProps.v
theories/BsubModel.v
theories/BsubSpec.v
theories/BsubProofs.v
theories/BsubProofs2.v
theories/BsubProofs3.v
theories/BsubProofs4.v
theories/BsubProps.v
theories/CleanModel.v
theories/CleanSpec.v
theories/CleanProofs.v
theories/CleanProps.v
theories/PauseModel.v
theories/PauseSpec.v
theories/PauseProofs.v
theories/PauseProps.v
theories/ServerDep.v
theories/ServerWait.v
theories/DepProps.v
theories/WaitModel.v
theories/WaitSpec.v
theories/WaitProofs.v
theories/WaitProps.v
theories/LearnModel.v
theories/LearnSpec.v
theories/LearnProofs.v
theories/LearnProps.v
theories/RacModel.v
theories/RacSpec.v
theories/RacProofs.v
theories/RacProps.v
theories/ModModel.v
theories/ModSpec.v
theories/ModProofs.v
theories/ModProps.v
theories/CloudModel.v
theories/CloudSpec.v
theories/CloudProofs.v
theories/CloudProps.v
theories/ExecModel.v
theories/ExecSpec.v
theories/ExecProofs.v
theories/ExecHist.v
theories/ExecShape.v
theories/ExecEnd.v
theories/ExecProps.v
theories/FlavorModel.v
theories/FlavorSpec.v
theories/FlavorProofs.v
theories/SpawnModel.v
theories/SpawnSpec.v
theories/SpawnProofs.v
theories/SpawnInv.v
theories/SpawnKnown.v
theories/SpawnQuota.v
theories/FlavorProps.v
theories/SpawnProps.v
theories/LsfModel.v
theories/LsfSpec.v
theories/LsfProofs.v
theories/LsfProofs2.v
theories/LsfProofs3.v
theories/LsfProps.v
theories/BehaveModel.v
theories/BehaveSpec.v
theories/BehaveProofs.v
theories/BehaveProps.v
theories/ConfigModel.v
theories/ConfigSpec.v
theories/ConfigProofs.v
theories/ConfigProofs2.v
theories/ConfigProofs3.v
theories/ConfigProofs4.v
theories/ConfigProps.v
theories/BackupModel.v
theories/BackupSpec.v
theories/BackupProofs.v
theories/BackupProofs2.v
theories/BackupProofs3.v
theories/BackupProps.v
theories/RepModel.v
theories/RepSpec.v
theories/RepProofs.v
theories/RepProofs2.v
theories/RepProofs3.v
theories/RepProofs4.v
theories/RepProps.v
theories/LimitStoreModel.v
theories/LimitStoreSpec.v
theories/LimitStoreProofs.v
theories/LimitStoreProofs2.v
theories/LimitStoreProofs3.v
theories/LimitStoreProps.v
theories/LimitShareModel.v
theories/LimitShareProofs.v
theories/LimitShareProps.v
theories/RunnerModel.v
theories/RunnerSpec.v
theories/RunnerProofs.v
theories/RunnerProofs2.v
theories/RunnerProps.v
theories/RestModel.v
theories/RestSpec.v
theories/RestProofs.v
theories/RestProofs2.v
theories/RestProps.v
theories/ConvertModel.v
theories/ConvertSpec.v
theories/ConvertProofs.v
theories/ConvertProofs2.v
theories/ConvertProps.v
theories/WebModel.v
theories/WebSpec.v
theories/WebProofs.v
theories/WebProps.v
theories/PageModel.v
theories/PageSpec.v
theories/PageProofs.v
theories/PageProps.v
