-Q theories Verif
theories/ContextModel.v
theories/RunnerModel.v
theories/RunnerSteps.v
theories/RunnerInv.v
theories/RunnerInv2.v
theories/RunnerInv3.v
theories/RunnerInv4.v
theories/RunnerInv5.v
theories/RunnerInv6.v
theories/RunnerSpec.v
theories/RunnerProofs.v
theories/RunnerProofs2.v
theories/RunnerProofs3.v
theories/RunnerPar.v
theories/RunnerRefs.v
theories/RunnerProps.v
theories/ContextProps.v
theories/IndentModel.v
theories/IndentSpec.v
theories/IndentProofs.v
theories/IndentProps.v
theories/GateModel.v
theories/GateProofs.v
theories/GateProps.v
theories/SqliteModel.v
theories/SqliteSpec.v
theories/SqliteProofs.v
theories/SqliteProps.v
theories/PathModel.v
theories/PathSpec.v
theories/PathProofs.v
theories/PathProofs2.v
theories/FindModel.v
theories/PathProofs3.v
theories/PathProofs4.v
theories/TopDirModel.v
theories/TopDirSpec.v
theories/TopDirProofs.v
theories/PathProps.v
theories/StrOrd.v
theories/FileHashModel.v
theories/FileHashSpec.v
theories/FileHashProofs.v
theories/FileHashProps.v
theories/FilesModel.v
theories/FilesSpec.v
theories/FilesProofs.v
theories/FilesProofs2.v
theories/FilesProofs3.v
theories/FilesProofs4.v
theories/FilesProofs5.v
theories/FilesProofs6.v
theories/FilesProofs7.v
theories/FilesProofs8.v
theories/FilesProofs9.v
theories/FilesProofs10.v
theories/FilesProofs11.v
theories/FilesProps.v
theories/FilesSpec2.v
theories/FilesProofs12.v
theories/FilesProps2.v
theories/ChainModel.v
theories/ChainSpec.v
theories/ChainProofs.v
theories/ChainProofs2.v
theories/ChainProps.v
theories/RegistryModel.v
theories/RegistrySpec.v
theories/RegistryProofs.v
theories/RegistryProps.v
theories/TypesModel.v
theories/TypesSpec.v
theories/TypesProofs.v
theories/TypesProps.v
theories/ProtoModel.v
theories/ProtoSpec.v
theories/ProtoProofs.v
theories/ProtoProps.v
theories/GoDepsModel.v
theories/GoDepsSpec.v
theories/GoDepsProofs.v
theories/GoDepsProps.v
theories/CleanModel.v
theories/CleanSpec.v
theories/CleanProofs.v
theories/CleanProps.v
theories/YamlModel.v
theories/YamlSpec.v
theories/YamlProofs.v
theories/YamlProofs2.v
theories/YamlProofs3.v
theories/YamlProofs6.v
theories/YamlProofs4.v
theories/YamlProps.v
theories/CommandModel.v
theories/CommandSpec.v
theories/CommandProofs.v
theories/CommandProofs2.v
theories/CommandProofs3.v
theories/CommandProofs4.v
theories/CommandProofs5.v
theories/CommandProofs6.v
theories/CommandProps.v
theories/DriverModel.v
theories/DriverSpec.v
theories/DriverProofs.v
theories/DriverProofs2.v
theories/DriverProofs3.v
theories/DriverProofs4.v
theories/DriverProps.v
theories/DriverProofs5.v
theories/CompileModel.v
theories/CompileSpec.v
theories/CompileProofs.v
theories/CompileProofs2.v
theories/CompileProps.v
theories/MultisetOrder.v
theories/RunnerSpec2.v
theories/RunnerProgress.v
theories/RunnerTerm.v
theories/RunnerFair.v
theories/RunnerDet.v
theories/RunnerProps2.v
theories/BuildModel.v
theories/BuildSpec.v
theories/BuildProofs.v
theories/BuildProofs2.v
theories/BuildProofs3.v
theories/BuildProofs4.v
theories/BuildProofs5.v
theories/BuildProofs6.v
theories/BuildProofs7.v
theories/BuildProofs8.v
theories/BuildExample.v
theories/BuildExample2.v
theories/BuildProps.v
theories/MainModel.v
theories/MainSpec.v
theories/MainProofs.v
theories/MainProofs2.v
theories/MainProofs3.v
theories/MainProofs4.v
theories/YamlProofs5.v
theories/MainProps.v
theories/MainProps2.v
theories/CliSpec.v
theories/CliProofs.v
theories/CliProps.v
theories/LibModel.v
theories/LibSpec.v
theories/LibProofs.v
theories/LibProps.v
theories/ProjModel.v
theories/ProjSpec.v
theories/ProjProofs.v
theories/ProjProofs2.v
theories/ProjProofs3.v
theories/ProjLaid.v
theories/ProjProofs4.v
theories/ProjProofs5.v
theories/ProjProofs6.v
theories/ProjProofs7.v
theories/ProjProofs8.v
theories/ProjProps.v
theories/ProjProps2.v
theories/EndSpec.v
theories/EndProofs.v
theories/EndProps.v
theories/MakeModel.v
theories/MakeSpec.v
theories/MakeProofs.v
theories/MakeProofs2.v
theories/MakeProofs3.v
theories/MakeProofs4.v
theories/MakeProofs5.v
theories/MakeProofs6.v
theories/MakeProofs7.v
theories/MakeProps.v
theories/MakeExample.v
theories/StoreSpec.v
theories/StoreProofs.v
theories/StoreProofs2.v
theories/StoreProps.v
theories/StoreSpec2.v
theories/StoreProofs3.v
theories/StoreProps2.v
theories/RaceModel.v
theories/RaceSpec.v
theories/RaceProofs.v
theories/RaceProofs2.v
theories/RaceProofs3.v
theories/RaceProofs4.v
theories/RaceProps.v
theories/RaceModel2.v
theories/RaceSpec2.v
theories/RaceProofs5.v
theories/RaceProps2.v
theories/FineModel.v
theories/FineSpec.v
theories/FineProofs.v
theories/FineProofs2.v
theories/FineProofs3.v
theories/FineProofs4.v
theories/FineProofs5.v
theories/FineProofs6.v
theories/FineProofs7.v
theories/FineProps.v
theories/MixSpec.v
theories/MixProofs.v
theories/MixProofs2.v
theories/MixProps.v
theories/FleetModel.v
theories/FleetSpec.v
theories/FleetProofs.v
theories/FleetProofs2.v
theories/FleetProofs3.v
theories/FleetProofs4.v
theories/FleetProps.v
theories/TalkModel.v
theories/TalkSpec.v
theories/TalkProofs.v
theories/TalkProps.v
theories/WorkdirModel.v
theories/WorkdirSpec.v
theories/WorkdirProofs.v
theories/WorkdirProofs2.v
theories/WorkdirProofs3.v
theories/WorkdirProofs4.v
theories/WorkdirProofs5.v
theories/WorkdirProps.v
theories/WorkdirSpec2.v
theories/WorkdirProofs6.v
theories/WorkdirProps2.v
theories/WorkdirSpec3.v
theories/WorkdirProofs7.v
theories/WorkdirProps3.v
theories/WorkdirSpec4.v
theories/WorkdirProofs8.v
theories/WorkdirProps4.v
