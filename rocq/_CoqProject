-Q theories Verif

theories/Common.v
theories/QueueSpec.v
theories/QueueModel.v
theories/QueueProofs.v
theories/QueueProps.v
theories/TransportSpec.v
theories/TransportModel.v
theories/TransportProofs.v
theories/WakeProofs.v
theories/WakeRestartProofs.v
theories/TransportProps.v
theories/ThreadSpec.v
theories/ThreadModel.v
theories/ThreadProofs.v
theories/TimeoutSpec.v
theories/TimeoutModel.v
theories/TimeoutProofs.v
theories/ThreadProps.v
theories/ListFacts.v
theories/BufferSpec.v
theories/BufferModel.v
theories/BufferProofs.v
theories/BufferRuns.v
theories/BufferProps.v
theories/PoolSpec.v
theories/PoolModel.v
theories/PoolArith.v
theories/PoolProofs.v
theories/PoolSteps.v
theories/PoolInsert.v
theories/PoolRuns.v
theories/PoolContent.v
theories/PoolFinal.v
theories/PoolProps.v
theories/Bytes.v
theories/RecordSpec.v
theories/RecordModel.v
theories/RecordMap.v
theories/RecordOut.v
theories/RecordIn.v
theories/RecordProofs.v
theories/RecordProps.v
theories/BinFileSpec.v
theories/BinFileModel.v
theories/BinFileProofs.v
theories/BinFileProps.v
theories/WordMem.v
theories/BufPtr.v
theories/HadSpec.v
theories/HadModel.v
theories/HadWords.v
theories/HadRead.v
theories/HadBounds.v
theories/HadWrite.v
theories/HldModel.v
theories/HldProofs.v
theories/TrigModel.v
theories/TrigProofs.v
theories/HadProps.v
theories/MbsSpec.v
theories/MbsModel.v
theories/MbsRead.v
theories/MbsWrite.v
theories/MbsBounds.v
theories/MbsLmd.v
theories/DecStr.v
theories/SlowSpec.v
theories/SlowModel.v
theories/SlowProofs.v
theories/MbsProps.v
theories/RefSpec.v
theories/RefModel.v
theories/RefProofs.v
theories/RefProps.v
theories/Sums.v
theories/LifeModel.v
theories/LifeProofs.v
theories/LifeProps.v
theories/CmdQSpec.v
theories/CmdQModel.v
theories/CmdQProofs.v
theories/CmdQProps.v
theories/CmdModel.v
theories/CmdSpec.v
theories/CmdProofs.v
theories/CmdWork.v
theories/CmdProps.v
theories/CmdStrSpec.v
theories/CmdStrModel.v
theories/CmdStrProps.v
theories/UrlSpec.v
theories/UrlModel.v
theories/UrlProofs.v
theories/UrlProps.v
theories/DateSpec.v
theories/DateModel.v
theories/DateProofs.v
theories/DateProps.v
theories/NameSpec.v
theories/NameModel.v
theories/NameProps.v
theories/JsonSpec.v
theories/JsonModel.v
theories/JsonProps.v
theories/ItemsSpec.v
theories/ItemsModel.v
theories/ItemsProofs.v
theories/ItemsProps.v
theories/HistSpec.v
theories/HistModel.v
theories/HistProofs.v
theories/HistProps.v
theories/NetSpec.v
theories/NetModel.v
theories/NetProofs.v
theories/NetProps.v
theories/SockSpec.v
theories/SockModel.v
theories/SockProofs.v
theories/SockProps.v
theories/MuxSpec.v
theories/MuxModel.v
theories/MuxProofs.v
theories/MuxProps.v
theories/CombSpec.v
theories/CombModel.v
theories/CombWrite.v
theories/CombIn.v
theories/CombSafe.v
theories/CombBytes.v
theories/CombDone.v
theories/CombLive.v
theories/CombProps.v
theories/SortSpec.v
theories/SortModel.v
theories/SortProofs.v
theories/SortDone.v
theories/SortProps.v
theories/UdpSpec.v
theories/UdpModel.v
theories/UdpProofs.v
theories/UdpProps.v
theories/HierSpec.v
theories/HierModel.v
theories/HierProofs.v
theories/HierInv.v
theories/HierStream.v
theories/HierSync.v
theories/HierHist.v
theories/HierProps.v
theories/OutTrSpec.v
theories/OutTrModel.v
theories/OutTrProofs.v
theories/OutTrStop.v
theories/OutTrProps.v
theories/InTrSpec.v
theories/InTrModel.v
theories/InTrProofs.v
theories/InTrRules.v
theories/InTrProgress.v
theories/InTrStop.v
theories/InTrCalls.v
theories/InTrRoom.v
theories/InTrProps.v
theories/CloseSpec.v
theories/CloseModel.v
theories/CloseProofs.v
theories/CloseProps.v
theories/MCombSpec.v
theories/MCombModel.v
theories/MCombProofs.v
theories/MCombGroups.v
theories/MCombJoin.v
theories/MCombRun.v
theories/MCombKept.v
theories/MCombSend.v
theories/MCombProgress.v
theories/MCombProps.v
theories/CfgVarSpec.v
theories/CfgVarModel.v
theories/CfgVarProofs.v
theories/CfgVarProps.v
theories/WalkSpec.v
theories/WalkModel.v
theories/WalkProofs.v
theories/WalkProps.v
theories/PathSpec.v
theories/PathModel.v
theories/PathProofs.v
theories/PathProps.v
theories/CSearchSpec.v
theories/CSearchModel.v
theories/CSearchProofs.v
theories/CSearchProps.v
theories/HUpdSpec.v
theories/HUpdModel.v
theories/HUpdProofs.v
theories/HUpdTree.v
theories/HUpdSync.v
theories/HUpdCopy.v
theories/HUpdProps.v
theories/XmlSpec.v
theories/XmlModel.v
theories/XmlStream.v
theories/XmlProofs.v
theories/XmlTotal.v
theories/XmlProps.v
theories/SrvSpec.v
theories/SrvModel.v
theories/SrvProofs.v
theories/SrvLive.v
theories/SrvProps.v
theories/FnumSpec.v
theories/FnumModel.v
theories/FnumProofs.v
theories/FnumProps.v
theories/RcmdSpec.v
theories/RcmdModel.v
theories/RcmdProofs.v
theories/RcmdLive.v
theories/RcmdProps.v
theories/RpktSpec.v
theories/RpktModel.v
theories/RpktProofs.v
theories/RpktProps.v
theories/SdevSpec.v
theories/SdevModel.v
theories/SdevProofs.v
theories/SdevProps.v
theories/ReplSpec.v
theories/ReplModel.v
theories/ReplProofs.v
theories/ReplProps.v
