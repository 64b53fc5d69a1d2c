-Q theories Verif
theories/Base.v
theories/BaseFacts.v
theories/Codec.v
theories/CodecFacts.v
theories/CodecSpec.v
theories/Config.v
theories/ConfigFacts.v
theories/ConfigSpec.v
theories/ConfigUse.v
theories/Crc.v
theories/CrcFacts.v
theories/CrcMain.v
theories/CrcSpec.v
theories/DeployFacts.v
theories/DeploySpec.v
theories/Emulator.v
theories/EmulatorFacts.v
theories/EmulatorSpec.v
theories/Endpoint.v
theories/EndpointClose.v
theories/EndpointFacts.v
theories/EndpointMain.v
theories/EndpointNonce.v
theories/EndpointPair.v
theories/EndpointReady.v
theories/EndpointRuns.v
theories/EndpointRx.v
theories/EndpointSafe.v
theories/EndpointSpec.v
theories/EndpointTimer.v
theories/EndpointTx.v
theories/Handshake.v
theories/HandshakeFacts.v
theories/HandshakeMain.v
theories/HandshakePair.v
theories/HandshakeSpec.v
theories/Icf.v
theories/IcfFacts.v
theories/IcfSpec.v
theories/Line.v
theories/LineCost.v
theories/LineFacts.v
theories/LineHandshake.v
theories/LineLive.v
theories/LineLocal.v
theories/LineMsgs.v
theories/LineRuns.v
theories/LineSide.v
theories/LineSpec.v
theories/Link.v
theories/LinkFacts.v
theories/LinkLayer.v
theories/LinkLayerBus.v
theories/LinkLayerFacts.v
theories/LinkLayerSpec.v
theories/LinkMain.v
theories/LinkSpec.v
theories/PairSpec.v
theories/Primitives.v
theories/Print.v
theories/PrintFacts.v
theories/PrintSpec.v
theories/Program.v
theories/ProgramFacts.v
theories/ProgramSpec.v
theories/PropCodec.v
theories/PropConfig.v
theories/PropCrc.v
theories/PropDeploy.v
theories/PropEmulator.v
theories/PropEndpoint.v
theories/PropEndpoint2.v
theories/PropEndpoint3.v
theories/PropEndpoint4.v
theories/PropEndpoint5.v
theories/PropHandshake.v
theories/PropIcf.v
theories/PropLine.v
theories/PropLink.v
theories/PropLinkLayer.v
theories/PropPair.v
theories/PropPrint.v
theories/PropProgram.v
theories/PropProxy.v
theories/PropQix.v
theories/PropRecover.v
theories/PropRenew.v
theories/PropResume.v
theories/PropSafe.v
theories/PropSession.v
theories/PropStack.v
theories/PropStack2.v
theories/PropStatistics.v
theories/PropTunnel.v
theories/PropUdpProxy.v
theories/Proxy.v
theories/ProxyFacts.v
theories/ProxySpec.v
theories/Qix.v
theories/QixFacts.v
theories/QixSpec.v
theories/QixStore.v
theories/RecoverFacts.v
theories/RecoverSpec.v
theories/Renew.v
theories/RenewFacts.v
theories/RenewSpec.v
theories/Resume.v
theories/SafeSpec.v
theories/Session.v
theories/SessionFacts.v
theories/SessionMain.v
theories/SessionSpec.v
theories/Shipped.v
theories/Stack.v
theories/StackDrain.v
theories/StackFacts.v
theories/StackRuns.v
theories/StackSafe.v
theories/StackSpec.v
theories/Statistics.v
theories/StatisticsFacts.v
theories/StatisticsSpec.v
theories/Tunnel.v
theories/TunnelFacts.v
theories/TunnelLive.v
theories/TunnelSpec.v
theories/UdpProxy.v
theories/UdpProxyFacts.v
theories/UdpProxySpec.v
