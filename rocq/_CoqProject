-Q theories Verif
theories/BytesModel.v
theories/StringModel.v
theories/UniverseModel.v
theories/StringSpec.v
theories/WireSpec.v
theories/BytesProofs.v
theories/StringProofs.v
theories/StringTheorems.v
theories/PropertiesString.v
theories/UniverseProofs.v
theories/BytesTheorems.v
theories/PropertiesBytes.v
theories/PrimitivesModel.v
theories/PrimitivesSpec.v
theories/PrimitivesProofs.v
theories/PrimitivesTheorems.v
theories/OrderModel.v
theories/OrderTheorems.v
theories/PropertiesPrimitives.v
theories/MessageModel.v
theories/MessageSpec.v
theories/MessageProofs.v
theories/MessageTheorems.v
theories/PropertiesMessage.v
theories/TpModel.v
theories/TpSpec.v
theories/TpProofs.v
theories/TpTheorems.v
theories/PropertiesTp.v
theories/MapModel.v
theories/EndpointModel.v
theories/EndpointSpec.v
theories/EndpointProofs.v
theories/EndpointTheorems.v
theories/PropertiesEndpoint.v
theories/SampleModel.v
theories/SampleSpec.v
theories/SampleTheorems.v
theories/PropertiesSample.v
theories/SomeipModel.v
theories/SomeipSpec.v
theories/SomeipTheorems.v
theories/PropertiesSomeip.v
theories/UdpModel.v
theories/UdpSpec.v
theories/UdpProofs.v
theories/UdpInv.v
theories/UdpTheorems.v
theories/UdpAgainTheorems.v
theories/PropertiesUdp.v
theories/TcpModel.v
theories/TcpSpec.v
theories/TcpTheorems.v
theories/PropertiesTcp.v
theories/RuntimeModel.v
theories/RuntimeSpec.v
theories/RuntimeProofs.v
theories/RuntimeTheorems.v
theories/RuntimePacketTheorems.v
theories/RuntimeSendTheorems.v
theories/RuntimeAddrTheorems.v
theories/RuntimeProgressTheorems.v
theories/RuntimeWorkTheorems.v
theories/RuntimeOwnerTheorems.v
theories/RuntimeCallTheorems.v
theories/RuntimeCancelTheorems.v
theories/PropertiesRuntime.v
theories/DisplayModel.v
theories/DisplaySpec.v
theories/DisplayTheorems.v
theories/PropertiesDisplay.v
theories/ErrorDisplayModel.v
theories/ErrorDisplaySpec.v
theories/ErrorDisplayTheorems.v
theories/PropertiesErrorDisplay.v
theories/SupportModel.v
theories/SupportSpec.v
theories/SupportTheorems.v
theories/PropertiesSupport.v
theories/NodeModel.v
theories/NodeSpec.v
theories/NodeProofs.v
theories/NodeTheorems.v
theories/NodeNetTheorems.v
theories/NodeLossTheorems.v
theories/NodeProxyTheorems.v
theories/UdpCutTheorems.v
theories/NodeCutSpec.v
theories/NodeCutTheorems.v
theories/PropertiesNode.v
theories/LexTheorems.v
theories/ExchangeSpec.v
theories/UdpContact.v
theories/ExchangeTheorems.v
theories/ExchangeRestTheorems.v
theories/PropertiesExchange.v
theories/TcpNodeModel.v
theories/TcpNodeSpec.v
theories/TcpNodeTheorems.v
theories/PropertiesTcpNode.v
theories/TcpRestSpec.v
theories/TcpRestTheorems.v
theories/PropertiesTcpRest.v
theories/TcpNetModel.v
theories/TcpNetSpec.v
theories/TcpNetTheorems.v
theories/TcpNetRestTheorems.v
theories/PropertiesTcpNet.v
theories/FairSpec.v
theories/FairTheorems.v
theories/PropertiesFair.v
theories/UdpNetModel.v
theories/UdpNetSpec.v
theories/UdpNetTheorems.v
theories/UdpNetRestTheorems.v
theories/PropertiesUdpNet.v
theories/HandleSpec.v
theories/HandleTheorems.v
theories/PropertiesHandle.v
theories/QueueModel.v
theories/QueueSpec.v
theories/QueueTheorems.v
theories/QueueProgressTheorems.v
theories/QueueFairSpec.v
theories/QueueFairTheorems.v
theories/PropertiesQueue.v
theories/QueueUdpModel.v
theories/QueueUdpSpec.v
theories/QueueUdpTheorems.v
theories/PropertiesQueueUdp.v
theories/QueueTcpModel.v
theories/QueueTcpSpec.v
theories/QueueTcpTheorems.v
theories/PropertiesQueueTcp.v
theories/UdpListenSpec.v
theories/UdpListenTheorems.v
theories/PropertiesUdpListen.v
theories/QueueNetModel.v
theories/QueueNetSpec.v
theories/QueueNetSendTheorems.v
theories/QueueNetTheorems.v
theories/PropertiesQueueNet.v
theories/QueueTcpNetModel.v
theories/QueueTcpNetSpec.v
theories/QueueTcpNetSendTheorems.v
theories/QueueTcpNetTheorems.v
theories/PropertiesQueueTcpNet.v
theories/LoadSpec.v
theories/LoadTheorems.v
theories/PropertiesLoad.v
theories/LoadTcpSpec.v
theories/LoadTcpTheorems.v
theories/PropertiesLoadTcp.v
theories/LoadNetSpec.v
theories/LoadNetTheorems.v
theories/PropertiesLoadNet.v
theories/LoadUdpSpec.v
theories/LoadUdpTheorems.v
theories/PropertiesLoadUdp.v
