-Q theories Verif
theories/Prio.v
theories/Heap.v
theories/State.v
theories/Model.v
theories/HeapProofs.v
theories/Frame.v
theories/Lib.v
theories/InvBusy.v
theories/InvCount.v
theories/Effects.v
theories/InvMsg.v
theories/InvMsg2.v
theories/InvHeap.v
theories/InvOne.v
theories/InvOne2.v
theories/InvDisc.v
theories/InvWait.v
theories/InvWait2.v
theories/InvFut.v
theories/InvCell.v
theories/WaitSpec.v
theories/InvWs.v
theories/InvBlk.v
theories/Mono.v
theories/InvSend.v
theories/InvErr.v
theories/Events.v
theories/Wake.v
theories/InvSmall.v
theories/InvRep.v
theories/InvPoll.v
theories/InvBc.v
theories/InvLag.v
theories/InvConn.v
theories/InvEnd.v
theories/Spec.v
theories/Bridge.v
theories/FinalA.v
theories/FinalB.v
theories/FinalC.v
theories/FinalD.v
theories/FinalE.v
theories/FinalF.v
theories/InvCalm.v
theories/FinalG.v
theories/WakeRel.v
theories/InvWake.v
theories/InvFresh.v
theories/InvJoin.v
theories/FinalH.v
theories/Witness.v
theories/WitnessB.v
theories/ClaimsA.v
theories/PropsA.v
theories/ClaimsB.v
theories/PropsB.v
theories/WitnessC.v
theories/WitnessD.v
theories/ClaimsC.v
theories/PropsC.v
theories/ClaimsD.v
theories/PropsD.v
theories/WitnessE.v
theories/ClaimsE.v
theories/PropsE.v
theories/AddrEq.v
theories/AddrSpec.v
theories/AddrProofs.v
theories/ClaimsF.v
theories/PropsF.v
theories/Actor.v
theories/ActorSpec.v
theories/ActorProofs.v
theories/ClaimsG.v
theories/PropsG.v
theories/InvPrio.v
theories/Spec2.v
theories/InvBprio.v
theories/FinalI.v
theories/WitnessF.v
theories/ClaimsH.v
theories/PropsH.v
theories/Scoped.v
theories/ScopedSpec.v
theories/ScopedProofs.v
theories/WitnessG.v
theories/ClaimsI.v
theories/PropsI.v
theories/Sink.v
theories/SinkSpec.v
theories/SinkProofs.v
theories/WitnessH.v
theories/ClaimsJ.v
theories/PropsJ.v
theories/Reent.v
theories/ReentSpec.v
theories/ReentProofs.v
theories/ClaimsK.v
theories/PropsK.v
theories/OrderSpec.v
theories/OrderProofs.v
theories/ClaimsL.v
theories/PropsL.v
theories/FinishSpec.v
theories/FinishProofs.v
theories/ClaimsM.v
theories/PropsM.v
theories/InvSpur.v
theories/ClaimsN.v
theories/PropsN.v
theories/System.v
theories/SystemSpec.v
theories/SystemProofs.v
theories/SystemInv.v
theories/SystemEnd.v
theories/SystemLost.v
theories/WitnessI.v
theories/ClaimsO.v
theories/PropsO.v
theories/StopSpec.v
theories/SystemStop.v
theories/SystemNext.v
theories/SystemCause.v
theories/CallSpec.v
theories/SystemCalls.v
theories/WitnessJ.v
theories/ClaimsP.v
theories/PropsP.v
theories/ClaimsQ.v
theories/PropsQ.v
theories/WitnessK.v
theories/ClaimsR.v
theories/PropsR.v
theories/Span.v
theories/SpanSpec.v
theories/SpanChan.v
theories/SpanProofs.v
theories/WitnessL.v
theories/ClaimsS.v
theories/PropsS.v
theories/PollSpec.v
theories/PollProofs.v
theories/FinalPoll.v
theories/WitnessM.v
theories/ClaimsT.v
theories/PropsT.v
theories/ModelTests.v
theories/BcastSpec.v
theories/SystemBcast.v
theories/SystemBcall.v
theories/WitnessN.v
theories/ClaimsU.v
theories/PropsU.v
theories/JoinSpec.v
theories/SystemJoin.v
theories/WitnessO.v
theories/ClaimsV.v
theories/PropsV.v
