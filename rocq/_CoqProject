-Q theories Verif
theories/Base.v
theories/ModuloModel.v
theories/ModuloProps.v
theories/TimersModel.v
theories/TimersSpec.v
theories/TimersProofs.v
theories/TimersHist.v
theories/TimersProps.v
theories/PacketModel.v
theories/PacketSpec.v
theories/PacketProofs.v
theories/PacketRound.v
theories/PacketSafe.v
theories/PacketProps.v
theories/NiceModel.v
theories/NiceProps.v
theories/CrcModel.v
theories/CrcProofs.v
theories/CrcBits.v
theories/CrcProps.v
theories/Dict.v
theories/BridgeModel.v
theories/BridgeProps.v
theories/AddrModel.v
theories/AddrProps.v
theories/LanModel.v
theories/LanProps.v
theories/MultinetModel.v
theories/MultinetProps.v
theories/EventModel.v
theories/EventProps.v
theories/I3Model.v
theories/I3Props.v
theories/PacketCheck.v
theories/DdcmpModel.v
theories/DdcmpProofs.v
theories/DdcmpProps.v
theories/DdcmpFrameModel.v
theories/DdcmpFrameProps.v
theories/RouteMsgModel.v
theories/RouteMsgProps.v
theories/RoutingModel.v
theories/RoutingProps.v
theories/ForwardModel.v
theories/ForwardProps.v
theories/DvModel.v
theories/DvProps.v
theories/LanCircModel.v
theories/LanCircProofs.v
theories/LanCircProps.v
theories/PtpModel.v
theories/PtpProps.v
theories/NspIdModel.v
theories/NspIdProps.v
theories/NspPktModel.v
theories/NspPktProps.v
theories/NspModel.v
theories/NspFrame.v
theories/NspPrim.v
theories/NspSend.v
theories/NspSendInv.v
theories/NspFlow.v
theories/NspFlowProps.v
theories/NspRetx.v
theories/NspRetxProps.v
theories/NspRx.v
theories/NspRxProps.v
theories/NspAck.v
theories/NspTags.v
theories/NspE2E.v
theories/NspE2EProps.v
theories/NspAckProps.v
theories/NspNodeModel.v
theories/NspNodeProps.v
theories/NspLife.v
theories/NspWatch.v
theories/NspLifeProps.v
theories/NspCloseProps.v
theories/MopModel.v
theories/MopProps.v
theories/MopLoopModel.v
theories/MopLoopProps.v
theories/CarrierModel.v
theories/CarrierProps.v
theories/DapModel.v
theories/DapProps.v
theories/SessPktModel.v
theories/SessPktProps.v
theories/SessModel.v
theories/SessProps.v
theories/SessRegProps.v
theories/InterceptModel.v
theories/InterceptProps.v
theories/EndCircModel.v
theories/EndCircProps.v
theories/FalModel.v
theories/FalProps.v
theories/ConnModel.v
theories/ConnProps.v
theories/ConsModel.v
theories/ConsProps.v
theories/NmlModel.v
theories/NmlProps.v
theories/AreaModel.v
theories/AreaProofs.v
theories/AreaProps.v
theories/DdcmpLiveProps.v
theories/DdcmpTimerModel.v
theories/DdcmpTimerProps.v
theories/HostModel.v
theories/HostProps.v
theories/ApiModel.v
theories/ApiProps.v
theories/ConfModel.v
theories/ConfProps.v
theories/NodeDbModel.v
theories/NodeDbProps.v
theories/PmrModel.v
theories/PmrProps.v
theories/DapMsgModel.v
theories/DapMsgProps.v
theories/ShowModel.v
theories/ShowProps.v
theories/UpdateModel.v
theories/UpdateProps.v
theories/HelloModel.v
theories/HelloProps.v
theories/NspTimeModel.v
theories/NspTimeProps.v
theories/HttpModel.v
theories/HttpProps.v
theories/MapScanModel.v
theories/MapScanProps.v
theories/PollModel.v
theories/PollProps.v
theories/MapDbModel.v
theories/MapDbProps.v
theories/TopolModel.v
theories/TopolProps.v
theories/P2RouteModel.v
theories/P2RouteProps.v
theories/LsnModel.v
theories/LsnProps.v
theories/EvtMsgModel.v
theories/EvtMsgProps.v
theories/LogModel.v
theories/LogProps.v
theories/MapColorModel.v
theories/MapColorProps.v
theories/MirrorModel.v
theories/MirrorProps.v
theories/HtmlModel.v
theories/HtmlProps.v
