-Q theories Verif
theories/Base.v
theories/RangesModel.v
theories/RangesSpec.v
theories/RangesProofs.v
theories/RangesProofs2.v
theories/PropRanges.v
theories/Errors.v
theories/FlowControlModel.v
theories/RangeBufModel.v
theories/RecvBufModel.v
theories/RangeBufProofs.v
theories/RecvBufProofs.v
theories/RecvBufProofs2.v
theories/RecvSpec.v
theories/RecvBufProofs3.v
theories/RecvBufProofs4.v
theories/RecvBufProofs5.v
theories/PropRecv.v
theories/Assoc.v
theories/ConnRecvModel.v
theories/ConnRecvSpec.v
theories/ConnRecvProofs.v
theories/FlowProofs.v
theories/PropFlow.v
theories/SendBufModel.v
theories/SendBufProofs.v
theories/SendBufProofs2.v
theories/SendBufProofs3.v
theories/SendSpec.v
theories/SendProofs.v
theories/SendProofs2.v
theories/SendProofs3.v
theories/SendProofs4.v
theories/SendProofs5.v
theories/SendProofs6.v
theories/PropSend.v
theories/NetModel.v
theories/NetProofs.v
theories/NetProofs2.v
theories/PropNet.v
theories/OctetsModel.v
theories/OctetsSpec.v
theories/OctetsProofs.v
theories/OctetsProofs2.v
theories/PropOctets.v
theories/DgramModel.v
theories/DgramSpec.v
theories/DgramProofs.v
theories/PropDgram.v
theories/PktNumModel.v
theories/PktNumSpec.v
theories/PktNumProofs.v
theories/PktNumProofs2.v
theories/PropPktNum.v
theories/FrameModel.v
theories/FrameSpec.v
theories/FrameProofs.v
theories/FrameProofs2.v
theories/FrameProofs3.v
theories/PropFrame.v
theories/PacketModel.v
theories/PacketSpec.v
theories/PacketProofs.v
theories/PacketProofs2.v
theories/PacketProofs3.v
theories/PropPacket.v
theories/PnSendModel.v
theories/PnSendSpec.v
theories/PnSendProofs.v
theories/PropPnSend.v
theories/TpModel.v
theories/TpSpec.v
theories/TpProofs.v
theories/TpProofs2.v
theories/TpProofs3.v
theories/PropTp.v
theories/CidModel.v
theories/CidSpec.v
theories/CidProofs.v
theories/CidProofs2.v
theories/CidProofs3.v
theories/CidProofs4.v
theories/CidProofs5.v
theories/CidProofs6.v
theories/CidProofs7.v
theories/CidProofs8.v
theories/PropCid.v
theories/CidSpec2.v
theories/CidProofs9.v
theories/PropCid2.v
theories/StreamsModel.v
theories/StreamsProofs.v
theories/StreamsEffects.v
theories/StreamsSpec.v
theories/StreamsShape.v
theories/StreamsShape2.v
theories/StreamsRecv.v
theories/StreamsShape3.v
theories/StreamsTx.v
theories/StreamsTx2.v
theories/StreamsTx3.v
theories/StreamsTx4.v
theories/StreamsTx5.v
theories/StreamsTx6.v
theories/StreamsBlk.v
theories/StreamsQ.v
theories/StreamsQ2.v
theories/StreamsQ3.v
theories/StreamsQ4.v
theories/StreamsSpec2.v
theories/StreamsQ5.v
theories/StreamsQ6.v
theories/StreamsQ7.v
theories/StreamsQ8.v
theories/StreamsLow.v
theories/PropStreams.v
theories/PropStreams2.v
theories/PropStreams3.v
theories/PropStreams4.v
theories/StreamsSpec3.v
theories/StreamsCtl.v
theories/StreamsCtl2.v
theories/StreamsCtl3.v
theories/StreamsCtl4.v
theories/StreamsCtl5.v
theories/PropStreams5.v
theories/RttModel.v
theories/RttSpec.v
theories/RttProofs.v
theories/PropRtt.v
theories/PmtudModel.v
theories/PmtudSpec.v
theories/PmtudProofs.v
theories/PropPmtud.v
theories/RecoveryModel.v
theories/RecoverySpec.v
theories/RecoveryProofs.v
theories/RecoveryInv.v
theories/RecoveryMain.v
theories/RecoverySteps.v
theories/RecoveryRun.v
theories/RecoveryCC.v
theories/RecoveryWin.v
theories/RecoveryTimer.v
theories/RecoveryThms.v
theories/PropRecovery.v
theories/HuffmanTables.v
theories/HuffmanModel.v
theories/HuffmanSpec.v
theories/HuffmanProofs.v
theories/HuffmanProofs2.v
theories/PropHuffman.v
theories/QpackTables.v
theories/QpackModel.v
theories/QpackSpec.v
theories/QpackProofs.v
theories/QpackProofs2.v
theories/PropQpack.v
theories/H3FrameModel.v
theories/H3FrameSpec.v
theories/H3FrameProofs.v
theories/PropH3Frame.v
theories/H3ConnModel.v
theories/H3ConnSpec.v
theories/H3ConnSpec2.v
theories/H3ConnProofs.v
theories/H3ConnProofs2.v
theories/H3ConnProofs3.v
theories/H3ConnProofs4.v
theories/H3ConnProofs5.v
theories/H3ConnProofs6.v
theories/H3ConnProofs7.v
theories/H3ConnProofs8.v
theories/H3ConnProofs9.v
theories/H3ConnFacts.v
theories/PropH3Conn.v
theories/H3SendModel.v
theories/H3SendSpec.v
theories/H3SendProofs.v
theories/H3SendProofs2.v
theories/H3SendProofs3.v
theories/PropH3Send.v
theories/LifeModel.v
theories/LifeMicro.v
theories/LifeMicro2.v
theories/LifeMicro3.v
theories/LifeMicro4.v
theories/LifeSpec.v
theories/LifeProofs1.v
theories/LifeProofs2.v
theories/LifeProofs3.v
theories/LifeProofs4.v
theories/LifeProofs5.v
theories/LifeProofs6.v
theories/LifeProofs7.v
theories/PropLife.v
theories/PropLife2.v
theories/KeyModel.v
theories/KeySpec.v
theories/PropKey.v
theories/NegModel.v
theories/NegSpec.v
theories/PropNeg.v
theories/KillModel.v
theories/KillSpec.v
theories/KillProofs.v
theories/PropKill.v
theories/BufModel.v
theories/BufSpec.v
theories/BufProofs.v
theories/PropBuf.v
theories/PoolModel.v
theories/PoolSpec.v
theories/PoolProofs.v
theories/PropPool.v
theories/FilterModel.v
theories/FilterSpec.v
theories/FilterProofs.v
theories/PropFilter.v
theories/BwModel.v
theories/BwSpec.v
theories/PropBw.v
theories/RateModel.v
theories/RateSpec.v
theories/RateProofs.v
theories/RateMarks.v
theories/PropRate.v
theories/PacerModel.v
theories/PacerSpec.v
theories/PacerProofs.v
theories/PropPacer.v
theories/GRecModel.v
theories/GRecSpec.v
theories/GRecProofs.v
theories/GRecRun.v
theories/GRecStat.v
theories/PropGRec.v
theories/SampModel.v
theories/SampSpec.v
theories/SampProofs.v
theories/SampOrder.v
theories/SampBytes.v
theories/SampRest.v
theories/SampPoints.v
theories/PropSamp.v
theories/BbrNetModel.v
theories/BbrNetSpec.v
theories/BbrNetProofs.v
theories/BbrNetRun.v
theories/BbrNetRest.v
theories/PropBbrNet.v
theories/BbrWinModel.v
theories/PropBbrWin.v
theories/BbrModeModel.v
theories/BbrModeProofs.v
theories/PropBbrMode.v
