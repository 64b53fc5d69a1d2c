| (two `Endpoint`s) | the same, with an arbitrary network between | `PairSpec` | `EndpointPair` | `PropPair` |
| `UdpProxy` | `exe/proxy/src/udp/*`, `Session.h`, `AsioUpperLayer.h`, `AsioLowerLayer.h` | `UdpProxySpec` | `UdpProxyFacts` | `PropUdpProxy` |
| (`Endpoint`) | notification of the end of a transmission | `EndpointSpec` | `EndpointReady` | `PropEndpoint5` |
| `Stack` | `stack/LinkCryptoStack.h` with the link layer and the crypto layer | `StackSpec` | `LinkLayerBus`, `StackFacts`, `StackDrain` (`StackRuns`: concrete runs) | `PropStack`, `PropStack2` |
| `Config` | `exe/proxy/src/{main,ConfigReader,StackConfigReader,YAMLHelpers,IPEndpoint}.*`, `tcp/TcpConfig.*`, `udp/UdpConfig.*`, `qkd/QKDSourceRegistry.*`, `StackFactory.h` | `ConfigSpec` | `ConfigFacts`, `ConfigUse` | `PropConfig` |
| `Endpoint`, `Stack` (definedness of all runs) | as above | `SafeSpec` | `EndpointSafe`, `StackSafe` | `PropSafe` |
| `Line` (two `Endpoint`s) | a reliable line between two endpoints | `LineSpec` | `LineMsgs`, `LineHandshake`, `LineLocal`, `LineSide`, `LineCost`, `LineFacts`, `LineLive` (`LineRuns`: concrete runs) | `PropLine` |
| `Tunnel` (two proxies over `Line`) | `exe/proxy/src/AsioUpperLayer.h`, `tcp/AsioTcpSocketWrapper.h` | `TunnelSpec` | `TunnelFacts`, `TunnelLive` | `PropTunnel` |
| `Line` from `start_line` (a new connection after any history of `Endpoint`) | as `Line`, `Endpoint` | `RecoverSpec` | `RecoverFacts` | `PropRecover` |
| `Renew` (the session timer over `Line`) | `Initiator.cpp:86-100`, both sessions of `Sessions.h` | `RenewSpec` | `RenewFacts` | `PropRenew` |
| `Resume` (the timers of the initiator expire in any state) | `Initiator.cpp:58-95`, `InitiatorHandshakeStates.cpp:92-97, 143-155` | `RenewSpec` | `RenewFacts` | `PropResume` |
| `Print` | `exe/icftool/ConsolePrinter.h`, `Actions.cpp:29-53, 223-250`, the print functions of `gen/*.cpp`, `MessagePrinting.h`, `SeqStructField.h:75-87` | `PrintSpec` | `PrintFacts` | `PropPrint` |
| `Program` | `exe/icftool/Program.cpp`, `UserInput.cpp:8-26`, `main.cpp` | `ProgramSpec` | `ProgramFacts` | `PropProgram` |
| `Shipped` (generated) | `config/proxy/*/*/*.yml` | `DeploySpec` (two configured proxies) | `DeployFacts` | `PropDeploy` |
| `Statistics` | `Session.cpp`, `Sessions.cpp`, `crypto/Statistics.h`, `CryptoLayer.h` (get_statistics) | `StatisticsSpec` | `StatisticsFacts` | `PropStatistics` |
