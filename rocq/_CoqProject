-Q theories Verif
theories/Base.v
theories/ProtoModel.v
theories/ProtoSpec.v
theories/ProtoProofs.v
theories/ProtoProps.v
theories/StrModel.v
theories/StrSpec.v
theories/StrProofs.v
theories/StrProps.v
theories/ShModel.v
theories/ShRun.v
theories/ShLists.v
theories/ShInv.v
theories/ShMan.v
theories/ShHooks.v
theories/ShAdd.v
theories/ShRem.v
theories/ShApi.v
theories/ShUnload.v
theories/ShHist.v
theories/ShGood.v
theories/ShPool.v
theories/ShSpec.v
theories/ShView.v
theories/ShAbs.v
theories/ShFrames.v
theories/ShRel.v
theories/ShCalls.v
theories/ShMoves.v
theories/ShChange.v
theories/ShMgr.v
theories/ShOrder.v
theories/ShOwned.v
theories/ShFollow.v
theories/ShRefine.v
theories/ShTrace.v
theories/ShLoop.v
theories/ShAhead.v
theories/ShExact.v
theories/ShSkip.v
theories/ShRules.v
theories/ShReady.v
theories/ShPlay.v
theories/ShClient.v
theories/ShApiProps.v
theories/ShLoopProps.v
theories/Seq.v
theories/ListModel.v
theories/ListSpec.v
theories/ListProofs.v
theories/ListRefine.v
theories/ListProps.v
theories/VecModel.v
theories/VecSpec.v
theories/VecProofs.v
theories/VecProps.v
theories/StackModel.v
theories/StackSpec.v
theories/StackProofs.v
theories/StackProps.v
theories/HashModel.v
theories/HashSpec.v
theories/HashProofs.v
theories/HashRefine.v
theories/HashProps.v
theories/StringModel.v
theories/StringSpec.v
theories/StringProofs.v
theories/StringProps.v
theories/PageModel.v
theories/PageSpec.v
theories/PageProofs.v
theories/PageProps.v
theories/TrampModel.v
theories/TrampSpec.v
theories/TrampProofs.v
theories/TrampProps.v
theories/BufModel.v
theories/BufSpec.v
theories/BufProofs.v
theories/BufProps.v
theories/RelModel.v
theories/RelSpec.v
theories/RelProofs.v
theories/RelProps.v
theories/IfaceModel.v
theories/IfaceSpec.v
theories/IfaceProofs.v
theories/IfaceProps.v
theories/PlugModel.v
theories/PlugSpec.v
theories/PlugProofs.v
theories/PlugRun.v
theories/PlugNote.v
theories/PlugProps.v
theories/PlugSafe.v
theories/PlugSafe2.v
theories/PlugSafe3.v
theories/PlugSafeProps.v
theories/PlugConsProps.v
theories/PlugHooks.v
theories/PlugHookProps.v
theories/PlFileModel.v
theories/PlFileSpec.v
theories/PlFileProofs.v
theories/PlFileProps.v
theories/EngModel.v
theories/EngSpec.v
theories/EngProps.v
theories/DllModel.v
theories/DllSpec.v
theories/DllProofs.v
theories/DllProps.v
theories/GameModel.v
theories/GameSpec.v
theories/GameProofs.v
theories/GameProps.v
theories/GenModel.v
theories/GenSpec.v
theories/GenProofs.v
theories/GenProps.v
theories/Asm64Model.v
theories/Asm64Spec.v
theories/Asm64Proofs.v
theories/Mach64.v
theories/Asm64Props.v
theories/Mach64Proofs.v
theories/Jit64Model.v
theories/Jit64Spec.v
theories/Jit64Base.v
theories/Jit64PubProofs.v
theories/Jit64PubProps.v
theories/Mach64Mem.v
theories/Jit64HookSpec.v
theories/Jit64HookList.v
theories/Jit64Run.v
theories/Jit64Frame.v
theories/Jit64Steps.v
theories/Jit64Blocks.v
theories/Jit64Loop.v
theories/Jit64Orig.v
theories/Jit64Ends.v
theories/Jit64Epi.v
theories/Jit64HookProps.v
theories/ConsModel.v
theories/ConsSpec.v
theories/ConsProofs.v
theories/ConsProps.v
theories/MemModel.v
theories/MemSpec.v
theories/MemProofs.v
theories/MemProps.v
theories/Asm32Model.v
theories/Asm32Spec.v
theories/Asm32Proofs.v
theories/Asm32Props.v
theories/MfpModel.v
theories/MfpSpec.v
theories/MfpProofs.v
theories/MfpProps.v
theories/Mach32.v
theories/Mach32Proofs.v
theories/Jit32Model.v
theories/Jit32Spec.v
theories/Jit32Steps.v
theories/Jit32Base.v
theories/Jit32PubProofs.v
theories/Jit32PubProps.v
theories/Jit32HookSpec.v
theories/Jit32HookList.v
theories/Jit32Arith.v
theories/Jit32Frame.v
theories/Jit32Push.v
theories/Jit32Blocks.v
theories/Jit32HookProps.v
theories/VspModel.v
theories/VspSpec.v
theories/VspProofs.v
theories/VspRuns.v
theories/VspLib.v
theories/VspProps.v
theories/BootModel.v
theories/BootSpec.v
theories/BootProofs.v
theories/BootVsp.v
theories/BootProps.v
theories/LogModel.v
theories/LogSpec.v
theories/LogProofs.v
theories/LogProps.v
theories/ProvModel.v
theories/ProvSpec.v
theories/ProvProofs.v
theories/ProvProps.v
theories/UmsgModel.v
theories/UmsgSpec.v
theories/UmsgProofs.v
theories/UmsgProps.v
theories/CfgModel.v
theories/CfgSpec.v
theories/CfgProofs.v
theories/CfgProps.v
theories/FsModel.v
theories/FsSpec.v
theories/FsProofs.v
theories/FsProps.v
theories/S2lModel.v
theories/S2lSpec.v
theories/S2lProofs.v
theories/S2lProps.v
theories/VdfModel.v
theories/VdfSpec.v
theories/VdfProofs.v
theories/VdfProps.v
theories/DlgModel.v
theories/DlgSpec.v
theories/DlgProofs.v
theories/DlgProps.v
theories/CmdModel.v
theories/CmdSpec.v
theories/CmdProofs.v
theories/CmdProps.v
theories/SelfModel.v
theories/SelfSpec.v
theories/SelfProps.v
theories/PibModel.v
theories/PibSpec.v
theories/PibProps.v
theories/LibModel.v
theories/LibSpec.v
theories/LibProofs.v
theories/LibProps.v
theories/KvModel.v
theories/KvSpec.v
theories/KvProps.v
theories/S2cModel.v
theories/S2cSpec.v
theories/S2cProofs.v
theories/S2cProps.v
theories/UnlModel.v
theories/UnlSpec.v
theories/UnlProps.v
theories/ToldModel.v
theories/ToldSpec.v
theories/ToldProps.v
