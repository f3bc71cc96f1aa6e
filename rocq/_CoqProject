-Q theories Verif
theories/Base.v
theories/ListLemmas.v
theories/Darray.v
theories/DarraySpec.v
theories/DarrayRun.v
theories/DarrayProofs.v
theories/DarraySort.v
theories/DarrayOut.v
theories/PropsDarray.v
theories/Dict.v
theories/DictSpec.v
theories/DictRun.v
theories/PDict.v
theories/DictProofs.v
theories/BSet.v
theories/BSetProofs.v
theories/PropsDict.v
theories/PDictKeys.v
theories/Strman.v
theories/StrmanSpec.v
theories/StrmanProofs.v
theories/StrmanLimits.v
theories/PropsStrman.v
theories/Float.v
theories/Msg.v
theories/MsgProofs.v
theories/FloatProofs.v
theories/PropsMsg.v
theories/Obj.v
theories/Wire.v
theories/WireSpec.v
theories/WireProofs.v
theories/WireTotal.v
theories/PropsWire.v
theories/ObjSpec.v
theories/ObjProofs.v
theories/PropsObj.v
theories/Heap.v
theories/HeapSpec.v
theories/HeapProofs.v
theories/HeapClone.v
theories/PropsHeap.v
theories/InMsg.v
theories/InMsgSpec.v
theories/InMsgProofs.v
theories/PropsInMsg.v
theories/OutMsg.v
theories/OutMsgSpec.v
theories/OutMsgProofs.v
theories/Swarm.v
theories/SwarmSpec.v
theories/MembersProofs.v
theories/OutMsgRun.v
theories/PropsOutMsg.v
theories/SwarmProofs.v
theories/Neighbors.v
theories/NeighborsProofs.v
theories/PropsSwarm.v
theories/Vstig.v
theories/VstigSpec.v
theories/VstigProofs.v
theories/VstigConv.v
theories/Net.v
theories/NetProofs.v
theories/PropsVstig.v
theories/Instr.v
theories/Vm.v
theories/VmSpec.v
theories/VmProofs.v
theories/VmFrames.v
theories/PropsVm.v
theories/PropsVmArith.v
theories/PropsVmErr.v
theories/PropsVmFrames.v
theories/VmHeap.v
theories/PropsVmData.v
theories/Text.v
theories/Asm.v
theories/AsmSpec.v
theories/TextProofs.v
theories/AsmProofs.v
theories/PropsAsm.v
theories/VmCode.v
theories/Load.v
theories/PropsLoad.v
theories/Strlib.v
theories/CFunSpec.v
theories/CFunProofs.v
theories/PropsStrlib.v
theories/Debug.v
theories/PropsDebug.v
theories/VmExt.v
theories/Messages.v
theories/MessagesSpec.v
theories/MessagesProofs.v
theories/PropsMessages.v
theories/Listen.v
theories/ListenSpec.v
theories/ListenProofs.v
theories/PropsListen.v
theories/OutStep.v
theories/PropsOutStep.v
theories/TableLib.v
theories/TableLibSpec.v
theories/TableLibProofs.v
theories/PropsTableLib.v
theories/Mathlib.v
theories/MathSpec.v
theories/PropsMath.v
theories/SwarmExec.v
theories/SwarmExecSpec.v
theories/PropsSwarmExec.v
theories/Lex.v
theories/LexSpec.v
theories/LexProofs.v
theories/LexTotal.v
theories/PropsLex.v
theories/Parser.v
theories/ParserTotal.v
theories/ParserFuel.v
theories/LexGood.v
theories/PropsParse.v
theories/PropsTight.v
theories/Source.v
theories/Gen.v
theories/GenExt.v
theories/PgBase.v
theories/PgSym.v
theories/PgExpr.v
theories/PgOps.v
theories/PgRef.v
theories/PgFun.v
theories/PgStat.v
theories/PgScript.v
theories/GenOk.v
theories/GenStep.v
theories/GenSim.v
theories/GenChunks.v
theories/CompileSpec.v
theories/GenWords.v
theories/GenRun.v
theories/PropsCompile.v
theories/Meaning.v
theories/PropsScript.v
theories/GcSpec.v
theories/NeighborsVm.v
theories/NeighborsVmSpec.v
theories/NeighborsVmProofs.v
theories/PropsNeighborsVm.v
theories/PropsNeighborsAdd.v
theories/FunReg.v
theories/PropsFunReg.v
theories/Gc.v
theories/GcProofs.v
theories/GcMark.v
theories/PropsGc.v
theories/PropsGcScript.v
theories/Front.v
theories/FrontProofs.v
theories/HostSpec.v
theories/PropsHost.v
theories/Register.v
theories/LibrarySpec.v
theories/LibraryProofs.v
theories/StdSpec.v
theories/StdProofs.v
theories/PropsLibrary.v
theories/StringBzz.v
theories/BzzExec.v
theories/PropsStringBzz.v
theories/TableBzz.v
theories/PropsTableBzz.v
theories/PropsStrcmp.v
theories/ArrowsBzz.v
theories/PropsArrows.v
theories/Vec2Bzz.v
theories/PropsVec2.v
theories/SwarmVm.v
theories/SwarmVmSpec.v
theories/SwarmVmProofs.v
theories/PropsSwarmVm.v
theories/Robot.v
theories/RobotSpec.v
theories/RobotProofs.v
theories/VstigVm.v
theories/VstigVmSpec.v
theories/VstigVmProofs.v
theories/PropsVstigVm.v
theories/PropsRobot.v
theories/BroadcastVm.v
theories/BroadcastVmSpec.v
theories/BroadcastVmProofs.v
theories/PropsBroadcastVm.v
theories/FloatNear.v
theories/PropsFloatNear.v
theories/ListenVmSpec.v
theories/ListenVmProofs.v
theories/PropsListenVm.v
theories/PropsCallback.v
theories/PropsListenRun.v
