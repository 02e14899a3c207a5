-Q theories Verif
theories/Base.v
theories/BaseLemmas.v
theories/StreamSpec.v
theories/BlockModel.v
theories/BlockProofs.v
theories/CodecModel.v
theories/CodecProofs.v
theories/LiteModel.v
theories/LiteProofs.v
theories/LiteSpec.v
theories/LiteTamper.v
theories/PaddingModel.v
theories/PaddingProofs.v
theories/FullStreamModel.v
theories/FullSpec.v
theories/FullStreamProofs.v
theories/FullTamper.v
theories/AdaptorModel.v
theories/AdaptorProofs.v
theories/TextModel.v
theories/TextProofs.v
theories/CryptoModel.v
theories/CryptoSpec.v
theories/CryptoProofs.v
theories/AttrModel.v
theories/AttrProofs.v
theories/BtreeModel.v
theories/BtreeSpec.v
theories/BtreeCodec.v
theories/BtreeInv.v
theories/BtreeTree.v
theories/BtreeSearch.v
theories/BtreeInsert.v
theories/BtreeDelete.v
theories/BtreeDir.v
theories/BtreeFlush.v
theories/BtreeShape.v
theories/BtreeTop.v
theories/NameModel.v
theories/NameSpec.v
theories/NameProofs.v
theories/NameTop.v
theories/LongNameModel.v
theories/LongNameSpec.v
theories/LongNameProofs.v
theories/LongNameInv.v
theories/LongNameSuffix.v
theories/LongNameTop.v
theories/XattrModel.v
theories/XattrSpec.v
theories/XattrProofs.v
theories/XattrTop.v
theories/FullFsModel.v
theories/FullFsSpec.v
theories/FullFsProofs.v
theories/FullFsPath.v
theories/FullFsInv.v
theories/FullFsTop.v
theories/FullFsStep.v
theories/TableModel.v
theories/TableSpec.v
theories/TableProofs.v
theories/TableTop.v
theories/TableMore.v
theories/TableIoModel.v
theories/TableIoSpec.v
theories/TableIoProofs.v
theories/LockModel.v
theories/LockSpec.v
theories/LockProofs.v
theories/ThreadLocalModel.v
theories/ThreadLocalSpec.v
theories/ThreadLocalProofs.v
theories/TimerModel.v
theories/LockerModel.v
theories/SyncSpec.v
theories/SyncProofs.v
theories/ProtoModel.v
theories/ProtoProofs.v
theories/ParamsModel.v
theories/ParamsSpec.v
theories/ParamsProofs.v
theories/CrashModel.v
theories/CrashSpec.v
theories/CrashProofs.v
theories/CrashTop.v
theories/HandleModel.v
theories/HandleSpec.v
theories/HandleProofs.v
theories/LiteTreeSpec.v
theories/LiteTreeProofs.v
theories/LiteTreeTop.v
theories/FuseModel.v
theories/FuseSpec.v
theories/ConcModel.v
theories/ConcSpec.v
theories/ConcProofs.v
theories/OpenRaceModel.v
theories/OpenRaceSpec.v
theories/OpenRaceProofs.v
theories/MountModel.v
theories/MountSpec.v
theories/MountProofs.v
theories/VerifyProofs.v
theories/CommandModel.v
theories/CommandSpec.v
theories/CommandProofs.v
theories/ShutdownModel.v
theories/ShutdownSpec.v
theories/ShutdownProofs.v
theories/DurableModel.v
theories/DurableSpec.v
theories/DurableProofs.v
theories/SecrecySpec.v
theories/SecrecyProofs.v
theories/SecrecyTop.v
theories/SecrecyFull.v
theories/FaultModel.v
theories/FaultSpec.v
theories/FaultProofs.v
theories/NormModel.v
theories/NormSpec.v
theories/NormProofs.v
theories/FsConcModel.v
theories/FsConcSpec.v
theories/FsConcProofs.v
theories/FsConcSafe.v
theories/FsConcOps.v
theories/FsConcWorld.v
theories/FsConcPlay.v
theories/FsConcSeq.v
theories/FsMomentSpec.v
theories/FsMomentProofs.v
theories/FsMomentOps.v
theories/FsMomentWorld.v
theories/LiteFsModel.v
theories/LiteFsSpec.v
theories/LiteFsProofs.v
theories/LiteFsTop.v
theories/GBtreeModel.v
theories/GBtreeProofs.v
theories/ObjModel.v
theories/ObjProofs.v
theories/RepoModel.v
theories/RepoSpec.v
theories/RepoProofs.v
theories/RepoSim.v
theories/RepoOps.v
theories/RepoRun.v
theories/RepoAlone.v
theories/RepoPlay.v
theories/RepoSettle.v
theories/RepoKillModel.v
theories/RepoKillSpec.v
theories/RepoKillProofs.v
theories/LiteConcModel.v
theories/LiteConcSpec.v
theories/LiteConcTree.v
theories/LiteConcProofs.v
theories/LiteConcTables.v
theories/LiteConcInv.v
theories/LiteConcTop.v
theories/Toy.v
theories/PropertiesLite.v
theories/PropertiesFull.v
theories/PropertiesCodec.v
theories/PropertiesBtree.v
theories/PropertiesNames.v
theories/PropertiesLongNames.v
theories/PropertiesXattr.v
theories/PropertiesFullFs.v
theories/PropertiesTable.v
theories/PropertiesLock.v
theories/PropertiesSync.v
theories/PropertiesParams.v
theories/PropertiesCrash.v
theories/PropertiesHandles.v
theories/PropertiesLiteTree.v
theories/PropertiesFuse.v
theories/PropertiesConc.v
theories/PropertiesMount.v
theories/PropertiesVerify.v
theories/PropertiesCommand.v
theories/PropertiesShutdown.v
theories/PropertiesDurable.v
theories/PropertiesSecrecy.v
theories/PropertiesFault.v
theories/PropertiesNorm.v
theories/PropertiesFsConc.v
theories/PropertiesFsMoment.v
theories/PropertiesLiteFs.v
theories/PropertiesRepo.v
theories/PropertiesLiteConc.v
theories/PropertiesKill.v
theories/PropertiesOpenRace.v
theories/RepoAttrSpec.v
theories/RepoAttrProofs.v
theories/PropertiesRepoAttr.v
theories/WinModel.v
theories/WinSpec.v
theories/WinProofs.v
theories/PropertiesWin.v
theories/UnmountModel.v
theories/PropertiesUnmount.v
theories/LogModel.v
theories/LogSpec.v
theories/PropertiesLog.v
theories/ListConcModel.v
theories/ListConcSpec.v
theories/ListConcProofs.v
theories/ListConcTop.v
theories/ListConcQuiet.v
theories/PropertiesListConc.v
theories/GetpathModel.v
theories/GetpathSpec.v
theories/GetpathProofs.v
theories/PropertiesGetpath.v
theories/LifeModel.v
theories/LifeSpec.v
theories/LifeProofs.v
theories/PropertiesLife.v
theories/AccessModel.v
theories/AccessSpec.v
theories/AccessProofs.v
theories/PropertiesAccess.v
theories/LimitSpec.v
theories/LimitProofs.v
theories/PropertiesLimit.v
theories/XattrFsModel.v
theories/XattrFsSpec.v
theories/XattrFsProofs.v
theories/PropertiesXattrFs.v
theories/XattrRepoModel.v
theories/XattrRepoSpec.v
theories/XattrRepoProofs.v
theories/PropertiesXattrRepo.v
theories/WaitModel.v
theories/WaitSpec.v
theories/PropertiesWait.v
theories/UnixPathModel.v
theories/UnixPathSpec.v
theories/PropertiesUnixPath.v
theories/RandomModel.v
theories/RandomSpec.v
theories/PropertiesRandom.v
theories/SpawnModel.v
theories/SpawnSpec.v
theories/PropertiesSpawn.v
theories/WalkModel.v
theories/WalkSpec.v
theories/WalkProofs.v
theories/PropertiesWalk.v
theories/SuffixKillModel.v
theories/SuffixKillSpec.v
theories/SuffixKillProofs.v
theories/PropertiesSuffixKill.v
theories/DirFaultModel.v
theories/DirFaultSpec.v
theories/DirFaultProofs.v
theories/PropertiesDirFault.v
theories/CommitFailModel.v
theories/CommitFailSpec.v
theories/CommitFailProofs.v
theories/PropertiesCommitFail.v
theories/AttrPathModel.v
theories/AttrPathSpec.v
theories/AttrPathProofs.v
theories/PropertiesAttrPath.v
theories/PidFileModel.v
theories/PidFileSpec.v
theories/PropertiesPidFile.v
