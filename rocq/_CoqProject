-Q theories Verif
theories/Base.v
theories/CircModel.v
theories/CircSpec.v
theories/CircProofs.v
theories/CircMore.v
theories/Heap.v
theories/CircBufModel.v
theories/CircBufSpec.v
theories/CircBufProofs.v
theories/CircBufWorld.v
theories/CircCheck.v
theories/CircFinal.v
theories/StackModel.v
theories/StackSpec.v
theories/StackProofs.v
theories/Own.v
theories/StackWorld.v
theories/StackFinal.v
theories/BlkHeap.v
theories/BlkIter.v
theories/VecModel.v
theories/BlkProofs.v
theories/BlkMore.v
theories/BlkRun.v
theories/BlkIterProofs.v
theories/VecSpec.v
theories/VecProofs.v
theories/BlkWorld.v
theories/VecWorld.v
theories/VecFinal.v
theories/DeqModel.v
theories/DeqSpec.v
theories/DeqProofs.v
theories/DeqMore.v
theories/DeqWorld.v
theories/DeqFinal.v
theories/MapStore.v
theories/MapStoreProofs.v
theories/MapModel.v
theories/MapSpec.v
theories/MapRel.v
theories/MapProofs.v
theories/DualModel.v
theories/DualSpec.v
theories/DualProofs.v
theories/MapReach.v
theories/MapFinal.v
theories/MapOps.v
theories/MapCheck.v
theories/DualReach.v
theories/DualFinal.v
theories/StrModel.v
theories/StrSpec.v
theories/StrProofs.v
theories/Conc.v
theories/SqModel.v
theories/SqSpec.v
theories/SqProofs.v
theories/CondVar.v
theories/AirModel.v
theories/AirSpec.v
theories/AirProofs.v
theories/BqModel.v
theories/BqSpec.v
theories/BqInv.v
theories/BqLin.v
theories/Herlihy.v
theories/BqFifo.v
theories/BqMore.v
theories/BqWake.v
theories/Serial.v
theories/BqSerial.v
theories/BqFlag.v
theories/BqMore2.v
theories/WqModel.v
theories/WqProofs.v
theories/WqCount.v
theories/WqMore.v
theories/WqBound.v
theories/WqLive.v
theories/WqSeq.v
theories/WqTurn.v
theories/WqWrap.v
theories/WbModel.v
theories/WbSpec.v
theories/WbProofs.v
theories/VecThrow.v
theories/DeqThrow.v
theories/WqPrio.v
theories/WqOpen.v
theories/WqDrain.v
theories/WqMisc.v
theories/AirWeak.v
theories/AirWeakProofs.v
theories/AirWeakSync.v
theories/BqThrow.v
theories/BqThrow2.v
theories/CircInts.v
theories/StackInts.v
theories/BlkMem.v
theories/MapThrow.v
theories/MapThrow2.v
theories/StrThrow.v
theories/VecIterStable.v
theories/DeqIterStable.v
theories/SqThrow.v
theories/SqThrow2.v
theories/DeqMoved.v
theories/DeqThrow2.v
theories/SelfAssign.v
theories/SelfBlock.v
theories/WbConc.v
theories/WbConcProofs.v
theories/WqDtor.v
theories/BqBound.v
theories/WqNest.v
theories/WqThrow.v
theories/AirThrow.v
theories/AirBound.v
theories/BlkAssign.v
theories/StackPtrs.v
theories/CircPtrs.v
theories/MoveOnce.v
theories/BlkCtor.v
theories/BufMem.v
theories/NoAlloc.v
theories/WbOut.v
theories/IterMix.v
theories/BlkAlias.v
theories/BlkCost.v
theories/ConcCost.v
theories/SqCost.v
theories/BqCost.v
theories/WqWorkers.v
theories/Leak.v
theories/CircLeak.v
theories/StackLeak.v
theories/BufLeak.v
theories/BlkCostF.v
theories/MapVisit.v
theories/WqExec.v
theories/CopyModel.v
theories/CopyProofs.v
theories/CopyFinal.v
theories/WqRace.v
theories/OwnModel.v
theories/OwnProofs.v
theories/OwnWorld.v
theories/NestModel.v
theories/NestSq.v
theories/NestBq.v
theories/NestWq.v
theories/MapNested.v
theories/BlkCostP.v
theories/BqAssign.v
theories/SqAssign.v
theories/WqCtor.v
theories/Props_Circ.v
theories/Props_Stack.v
theories/Props_Vec.v
theories/Props_Deque.v
theories/Props_Map.v
theories/Props_Dual.v
theories/Props_Str.v
theories/Props_Sq.v
theories/Props_Air.v
theories/Props_Bq.v
theories/Props_Bq2.v
theories/Props_Wq.v
theories/Props_Wq2.v
theories/Props_Wb.v
theories/Props_Throw.v
theories/Props_Wq3.v
theories/Props_Wq4.v
theories/Props_Wq5.v
theories/Props_Air2.v
theories/Props_Bq3.v
theories/Props_Ints.v
theories/Props_Mem.v
theories/Props_MapThrow.v
theories/Props_IterHeld.v
theories/Props_Sq2.v
theories/Props_Moved.v
theories/Props_Moved2.v
theories/Props_Throw2.v
theories/Props_Self.v
theories/Props_WbConc.v
theories/Props_Wq6.v
theories/Props_Circ2.v
theories/Props_Bq4.v
theories/Props_Wq7.v
theories/Props_Wq8.v
theories/Props_Air3.v
theories/Props_Throw3.v
theories/Props_Ptrs.v
theories/Props_Access.v
theories/Props_Move.v
theories/Props_BufMem.v
theories/Props_NoAlloc.v
theories/Props_Wb2.v
theories/Props_IterMix.v
theories/Props_Alias.v
theories/Props_Cost.v
theories/Props_QueueCost.v
theories/Props_Wq9.v
theories/Props_Leak.v
theories/Props_Visit.v
theories/Props_Wq10.v
theories/Props_Copy.v
theories/Props_Wq11.v
theories/Props_Own.v
theories/Props_NestSq.v
theories/Props_NestBq.v
theories/Props_NestWq.v
theories/Props_MapNested.v
theories/Props_BqAssign.v
theories/Props_SqAssign.v
theories/Props_WqCtor.v
theories/Props_Throw4.v
theories/Props_SqSelf.v
theories/Props_BqSelf.v
