-Q theories Verif
theories/Base.v
theories/CodecModel.v
theories/CodecSpec.v
theories/CodecProofs.v
theories/CodecProofs2.v
theories/CodecProps.v
theories/SendRawModel.v
theories/SendRawProofs.v
theories/SendRawProps.v
theories/FlowModel.v
theories/FlowSpec.v
theories/FlowProofs.v
theories/LinkModel.v
theories/LinkProofs.v
theories/FlowProps.v
theories/SequencerModel.v
theories/SequencerSpec.v
theories/SequencerProofs.v
theories/FeederModel.v
theories/FeederProofs.v
theories/SequencerProps.v
theories/ReadyModel.v
theories/ReadySpec.v
theories/ReadyProofs.v
theories/ReadyProps.v
theories/OutModel.v
theories/OutSpec.v
theories/OutProofs.v
theories/OutProps.v
theories/ReplyModel.v
theories/ReplySpec.v
theories/ReplyProofs.v
theories/ReplyProofs2.v
theories/ReplyProps.v
theories/MimeModel.v
theories/MimeSpec.v
theories/MimeProofs.v
theories/MimeProofs2.v
theories/MimeProps.v
theories/ReassemblyModel.v
theories/ReassemblySpec.v
theories/ReassemblyProofs.v
theories/ReassemblyProofs2.v
theories/ReassemblyProps.v
theories/QueueModel.v
theories/QueueSpec.v
theories/QueueProofs.v
theories/QueueProps.v
theories/AsyncModel.v
theories/AsyncSpec.v
theories/AsyncProofs.v
theories/AsyncProps.v
theories/TimeModel.v
theories/TimeSpec.v
theories/TimeProofs.v
theories/TimeProps.v
theories/HashModel.v
theories/HashSpec.v
theories/HashProofs.v
theories/HashProofs2.v
theories/HashProps.v
theories/PoolModel.v
theories/PoolSpec.v
theories/PoolProofs.v
theories/PoolProofs2.v
theories/PoolProofs3.v
theories/PoolProofs4.v
theories/PoolProofs5.v
theories/PoolProps.v
theories/EventModel.v
theories/EventSpec.v
theories/EventProofs.v
theories/EventProofs2.v
theories/EventProofs3.v
theories/EventProofs4.v
theories/EventProps.v
theories/ChanPoolModel.v
theories/ChanPoolSpec.v
theories/ChanPoolProofs.v
theories/ChanPoolProps.v
theories/RegistryModel.v
theories/RegistrySpec.v
theories/RegistryProofs.v
theories/RegistryProofs2.v
theories/RegistryProps.v
theories/ConnModel.v
theories/ConnSpec.v
theories/ConnProofs.v
theories/ConnProofs2.v
theories/ConnProps.v
theories/OnCloseModel.v
theories/OnCloseSpec.v
theories/OnCloseProofs.v
theories/OnCloseProofs2.v
theories/OnCloseProofs3.v
theories/OnCloseProps.v
theories/WaitModel.v
theories/WaitSpec.v
theories/WaitProofs.v
theories/WaitProofs2.v
theories/WaitProps.v
theories/ConfirmModel.v
theories/ConfirmSpec.v
theories/ConfirmProofs.v
theories/ConfirmProps.v
theories/StartModel.v
theories/StartSpec.v
theories/StartProofs.v
theories/StartProofs2.v
theories/StartProps.v
theories/CloseModel.v
theories/CloseSpec.v
theories/CloseProofs.v
theories/CloseProofs2.v
theories/CloseProofs3.v
theories/CloseProofs4.v
theories/CloseProofs5.v
theories/CloseProps.v
theories/SerializeModel.v
theories/SerializeSpec.v
theories/SerializeProofs.v
theories/SerializeProps.v
theories/RefModel.v
theories/RefSpec.v
theories/RefProofs.v
theories/RefProps.v
theories/PiggyModel.v
theories/PiggySpec.v
theories/PiggyProofs.v
theories/PiggyProps.v
theories/SearchModel.v
theories/SearchSpec.v
theories/SearchProofs.v
theories/SearchProps.v
theories/HeadModel.v
theories/HeadSpec.v
theories/HeadProofs.v
theories/HeadProofs2.v
theories/HeadProofs3.v
theories/HeadProofs4.v
theories/HeadProps.v
theories/GreetModel.v
theories/GreetSpec.v
theories/GreetProofs.v
theories/GreetProofs2.v
theories/GreetProps.v
theories/AliveModel.v
theories/AliveSpec.v
theories/AliveProofs.v
theories/AliveProofs2.v
theories/AliveProofs3.v
theories/AliveProps.v
theories/SaslModel.v
theories/SaslSpec.v
theories/SaslProofs.v
theories/SaslProofs2.v
theories/SaslProofs3.v
theories/SaslProofs4.v
theories/SaslProofs5.v
theories/SaslProps.v
theories/SaslCliModel.v
theories/SaslCliSpec.v
theories/SaslCliProofs.v
theories/SaslCliProps.v
theories/TlsModel.v
theories/TlsSpec.v
theories/TlsProofs.v
theories/TlsProps.v
theories/PullModel.v
theories/PullSpec.v
theories/PullProofs.v
theories/PullProofs2.v
theories/PullProofs3.v
theories/PullProps.v
theories/IoModel.v
theories/IoSpec.v
theories/IoProofs.v
theories/IoProps.v
theories/LoopModel.v
theories/LoopSpec.v
theories/LoopProofs.v
theories/LoopProofs2.v
theories/LoopProofs3.v
theories/LoopProofs4.v
theories/LoopProofs5.v
theories/LoopProofs6.v
theories/LoopProps.v
theories/HttpModel.v
theories/HttpSpec.v
theories/HttpProofs.v
theories/HttpProps.v
theories/TunnelModel.v
theories/TunnelSpec.v
theories/TunnelProofs.v
theories/TunnelProofs2.v
theories/TunnelProps.v
theories/ListenModel.v
theories/ListenSpec.v
theories/ListenProofs.v
theories/ListenProofs2.v
theories/ListenProofs3.v
theories/ListenProofs4.v
theories/ListenProps.v
theories/HdrModel.v
theories/HdrSpec.v
theories/HdrProofs.v
theories/HdrProps.v
theories/FrameModel.v
theories/FrameSpec.v
theories/FrameProofs.v
theories/FrameProofs2.v
theories/FrameProofs3.v
theories/FrameProofs4.v
theories/FrameProofs5.v
theories/FrameProofs6.v
theories/FrameProofs7.v
theories/FrameProofs8.v
theories/FrameProofs9.v
theories/FrameProps.v
theories/MsgModel.v
theories/MsgSpec.v
theories/MsgProofs.v
theories/MsgProofs2.v
theories/MsgProofs3.v
theories/MsgProps.v
theories/ProfModel.v
theories/ProfSpec.v
theories/ProfProofs.v
theories/ProfProofs2.v
theories/ProfProofs3.v
theories/ProfProofs4.v
theories/ProfProofs5.v
theories/ProfProps.v
theories/DlvModel.v
theories/DlvSpec.v
theories/DlvProofs.v
theories/DlvProofs2.v
theories/DlvProofs3.v
theories/DlvProofs4.v
theories/DlvProofs5.v
theories/DlvProps.v
theories/CtxModel.v
theories/CtxSpec.v
theories/CtxProofs.v
theories/CtxProofs2.v
theories/CtxProofs3.v
theories/CtxProofs4.v
theories/CtxProofs5.v
theories/CtxProps.v
theories/IdleModel.v
theories/IdleSpec.v
theories/IdleProofs.v
theories/IdleProofs2.v
theories/IdleProps.v
theories/RpcModel.v
theories/RpcSpec.v
theories/RpcProofs.v
theories/RpcProofs2.v
theories/RpcProofs3.v
theories/RpcProofs4.v
theories/RpcProps.v
theories/InvokeModel.v
theories/InvokeSpec.v
theories/InvokeProofs.v
theories/InvokeProofs2.v
theories/InvokeProps.v
theories/ConnEndModel.v
theories/ConnEndSpec.v
theories/ConnEndProofs.v
theories/ConnEndProofs2.v
theories/ConnEndProps.v
theories/TmoModel.v
theories/TmoSpec.v
theories/TmoProofs.v
theories/TmoProps.v
theories/DialModel.v
theories/DialSpec.v
theories/DialProofs.v
theories/DialProps.v
theories/AgainModel.v
theories/AgainSpec.v
theories/AgainProofs.v
theories/AgainProps.v
theories/LogModel.v
theories/LogSpec.v
theories/LogProofs.v
theories/LogProps.v
theories/PendModel.v
theories/PendSpec.v
theories/PendProofs.v
theories/PendProps.v
theories/ExtModel.v
theories/ExtSpec.v
theories/ExtProofs.v
theories/ExtProps.v
theories/PyModel.v
theories/PySpec.v
theories/PyProofs.v
theories/PyProofs2.v
theories/PyProofs3.v
theories/PyProps.v
theories/WsModel.v
theories/WsSpec.v
theories/WsProofs.v
theories/WsProps.v
theories/ValModel.v
theories/ValSpec.v
theories/ValProofs.v
theories/ValProofs2.v
theories/ValProofs3.v
theories/ValProps.v
theories/LuaModel.v
theories/LuaSpec.v
theories/LuaProofs.v
theories/LuaProofs2.v
theories/LuaProofs3.v
theories/LuaProps.v
theories/DataModel.v
theories/DataSpec.v
theories/DataProofs.v
theories/DataProps.v
theories/ArgModel.v
theories/ArgSpec.v
theories/ArgProofs.v
theories/ArgProps.v
theories/LifeModel.v
theories/LifeSpec.v
theories/LifeProofs.v
theories/LifeProps.v
theories/MechModel.v
theories/MechSpec.v
theories/MechProofs.v
theories/MechProps.v
theories/PipeModel.v
theories/PipeSpec.v
theories/PipeProofs.v
theories/PipeProofs2.v
theories/PipeProps.v
theories/SslModel.v
theories/SslSpec.v
theories/SslProofs.v
theories/SslProps.v
theories/OptsModel.v
theories/OptsSpec.v
theories/OptsProofs.v
theories/OptsProps.v
theories/HostIpModel.v
theories/HostIpSpec.v
theories/HostIpProofs.v
theories/HostIpProps.v
theories/StallSpec.v
theories/StallProofs.v
theories/StallProps.v
