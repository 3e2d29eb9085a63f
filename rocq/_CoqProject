-Q theories Verif
theories/AccModel.v
theories/AccProofs.v
theories/AccProps.v
theories/AccSpec.v
theories/AcmdModel.v
theories/AcmdProofs.v
theories/AcmdProps.v
theories/AcmdSpec.v
theories/AfModel.v
theories/AfProofs.v
theories/AfProps.v
theories/AfSpec.v
theories/AgentModel.v
theories/AgentProofs.v
theories/AgentProps.v
theories/AgentSpec.v
theories/AsyncModel.v
theories/AsyncProofs.v
theories/AsyncProps.v
theories/AsyncSpec.v
theories/Base.v
theories/BootModel.v
theories/BootProofs.v
theories/BootProps.v
theories/BootSpec.v
theories/BrrModel.v
theories/BrrProofs.v
theories/BrrProps.v
theories/BrrSpec.v
theories/BytesModel.v
theories/BytesProofs.v
theories/BytesProps.v
theories/BytesSpec.v
theories/CcModel.v
theories/CcProofs.v
theories/CcProps.v
theories/CcSpec.v
theories/CgiModel.v
theories/CgiProofs.v
theories/CgiProps.v
theories/CgiSpec.v
theories/ClcModel.v
theories/ClcProofs.v
theories/ClcProofs2.v
theories/ClcProofs3.v
theories/ClcProps.v
theories/ClcSpec.v
theories/ClusterModel.v
theories/ClusterProofs.v
theories/ClusterProps.v
theories/ClusterSpec.v
theories/CmdModel.v
theories/CmdProofs.v
theories/CmdProofs2.v
theories/CmdProps.v
theories/CmdSpec.v
theories/ConfModel.v
theories/ConfProofs.v
theories/ConfProps.v
theories/ConfSpec.v
theories/ConvModel.v
theories/ConvProofs.v
theories/ConvProps.v
theories/ConvSpec.v
theories/CoreModel.v
theories/CoreProofs.v
theories/CoreProps.v
theories/CoreSpec.v
theories/CountModel.v
theories/CountProofs.v
theories/CountProps.v
theories/CountSpec.v
theories/CtxModel.v
theories/CtxProofs.v
theories/CtxProps.v
theories/CtxSpec.v
theories/DcoModel.v
theories/DcoProofs.v
theories/DcoProps.v
theories/DcoSpec.v
theories/DiscModel.v
theories/DiscProofs.v
theories/DiscProps.v
theories/DiscSpec.v
theories/DthModel.v
theories/DthProofs.v
theories/DthProps.v
theories/DthSpec.v
theories/DynModel.v
theories/DynProofs.v
theories/DynProps.v
theories/DynSpec.v
theories/EpModel.v
theories/EpProofs.v
theories/EpProofs2.v
theories/EpProps.v
theories/EpSpec.v
theories/EsModel.v
theories/EsProofs.v
theories/EsProps.v
theories/EsSpec.v
theories/ExtModel.v
theories/ExtProofs.v
theories/ExtProps.v
theories/ExtSpec.v
theories/FailfastModel.v
theories/FailfastProofs.v
theories/FailfastProps.v
theories/FailfastSpec.v
theories/FilterModel.v
theories/FilterProofs.v
theories/FilterProps.v
theories/FilterSpec.v
theories/FoModel.v
theories/FoProofs.v
theories/FoProps.v
theories/FoSpec.v
theories/GoStrings.v
theories/GoStrings2.v
theories/GrpModel.v
theories/GrpProofs.v
theories/GrpProps.v
theories/GrpSpec.v
theories/GrpcModel.v
theories/GrpcProofs.v
theories/GrpcProps.v
theories/GrpcSpec.v
theories/HaModel.v
theories/HaProofs.v
theories/HaProps.v
theories/HaSpec.v
theories/HlocModel.v
theories/HlocProofs.v
theories/HlocProps.v
theories/HlocSpec.v
theories/HolderModel.v
theories/HolderProofs.v
theories/HolderProps.v
theories/HolderSpec.v
theories/HourModel.v
theories/HourProofs.v
theories/HourProps.v
theories/HourSpec.v
theories/HprovModel.v
theories/HprovProofs.v
theories/HprovProps.v
theories/HprovSpec.v
theories/HrModel.v
theories/HrProofs.v
theories/HrProps.v
theories/HrSpec.v
theories/HttpModel.v
theories/HttpProofs.v
theories/HttpProps.v
theories/HttpSpec.v
theories/LbModel.v
theories/LbProofs.v
theories/LbProofs2.v
theories/LbProofs3.v
theories/LbProofs4.v
theories/LbProofs5.v
theories/LbProps.v
theories/LbSpec.v
theories/Lists.v
theories/LogModel.v
theories/LogProofs.v
theories/LogProps.v
theories/LogSpec.v
theories/LsnModel.v
theories/LsnProofs.v
theories/LsnProps.v
theories/LsnSpec.v
theories/MeshModel.v
theories/MeshProofs.v
theories/MeshProps.v
theories/MeshSpec.v
theories/MetaModel.v
theories/MetaProofs.v
theories/MetaProps.v
theories/MetaSpec.v
theories/MetricModel.v
theories/MetricProofs.v
theories/MetricProps.v
theories/MetricSpec.v
theories/MgModel.v
theories/MgProofs.v
theories/MgProps.v
theories/MgSpec.v
theories/MsModel.v
theories/MsProofs.v
theories/MsProps.v
theories/MsSpec.v
theories/NgxModel.v
theories/NgxProofs.v
theories/NgxProps.v
theories/NgxSpec.v
theories/OtModel.v
theories/OtProofs.v
theories/OtProps.v
theories/OtSpec.v
theories/PbModel.v
theories/PbProofs.v
theories/PbProps.v
theories/PbSpec.v
theories/PingModel.v
theories/PingProofs.v
theories/PingProps.v
theories/PingSpec.v
theories/PoolModel.v
theories/PoolProofs.v
theories/PoolProps.v
theories/PoolSpec.v
theories/ProtoModel.v
theories/ProtoProofs.v
theories/ProtoProps.v
theories/ProtoSpec.v
theories/ProvModel.v
theories/ProvProofs.v
theories/ProvProps.v
theories/ProvSpec.v
theories/RateModel.v
theories/RateProofs.v
theories/RateProps.v
theories/RateSpec.v
theories/RecycleModel.v
theories/RecycleProofs.v
theories/RecycleProps.v
theories/RecycleSpec.v
theories/RelayModel.v
theories/RelayProofs.v
theories/RelayProps.v
theories/RelaySpec.v
theories/RepModel.v
theories/RepProofs.v
theories/RepProps.v
theories/RepSpec.v
theories/ReqModel.v
theories/ReqProofs.v
theories/ReqProps.v
theories/ReqSpec.v
theories/RevModel.v
theories/RevProofs.v
theories/RevProps.v
theories/RevSpec.v
theories/RhModel.v
theories/RhProofs.v
theories/RhProps.v
theories/RhSpec.v
theories/RiModel.v
theories/RiProofs.v
theories/RiProps.v
theories/RiSpec.v
theories/RrfModel.v
theories/RrfProofs.v
theories/RrfProps.v
theories/RrfSpec.v
theories/ServerModel.v
theories/ServerProofs.v
theories/ServerProps.v
theories/ServerSpec.v
theories/SimpleModel.v
theories/SimpleProofs.v
theories/SimpleProps.v
theories/SimpleSpec.v
theories/SnapModel.v
theories/SnapProofs.v
theories/SnapProps.v
theories/SnapSpec.v
theories/Strconv.v
theories/StreamModel.v
theories/StreamProofs.v
theories/StreamProofs2.v
theories/StreamProps.v
theories/StreamSpec.v
theories/SwitchCmdModel.v
theories/SwitchCmdProofs.v
theories/SwitchCmdProps.v
theories/SwitchCmdSpec.v
theories/TrcModel.v
theories/TrcProofs.v
theories/TrcProps.v
theories/TrcSpec.v
theories/UrlModel.v
theories/UrlProofs.v
theories/UrlProps.v
theories/UrlSpec.v
theories/V1Model.v
theories/V1Proofs.v
theories/V1Props.v
theories/V1Spec.v
theories/WatModel.v
theories/WatProofs.v
theories/WatProps.v
theories/WatSpec.v
theories/WebModel.v
theories/WebProofs.v
theories/WebProps.v
theories/WebSpec.v
theories/WefModel.v
theories/WefProofs.v
theories/WefProofs2.v
theories/WefProps.v
theories/WefSpec.v
theories/ZkModel.v
theories/ZkProofs.v
theories/ZkProps.v
theories/ZkSpec.v
theories/ZkpModel.v
theories/ZkpProofs.v
theories/ZkpProps.v
theories/ZkpSpec.v
