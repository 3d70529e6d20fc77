-Q theories Verif
theories/Base.v
theories/BaseLemmas.v
theories/MapLib.v
theories/ReaderSpec.v
theories/ReaderProofs.v
theories/ReaderProps.v
theories/UdpNotifModel.v
theories/UdpNotifSpec.v
theories/UdpNotifProofs.v
theories/UdpReasmProofs.v
theories/UdpNotifProps.v
theories/FramingModel.v
theories/FramingProofs.v
theories/AfModel.v
theories/BgpCapModel.v
theories/BgpCapSpec.v
theories/BgpCapProofs.v
theories/BgpFrameModel.v
theories/BgpFrameSpec.v
theories/BgpFrameProofs.v
theories/BgpNlriModel.v
theories/BgpNlriSpec.v
theories/BgpNlriProofs.v
theories/BgpAttrModel.v
theories/BgpAttrSpec.v
theories/BgpAttrProofs.v
theories/BgpMsgModel.v
theories/BgpMsgSpec.v
theories/BgpMsgProofs.v
theories/BgpProps.v
theories/BmpModel.v
theories/BmpSpec.v
theories/BmpFrameProofs.v
theories/BmpCtxProofs.v
theories/BmpRoundProofs.v
theories/BmpSafeProofs.v
theories/BmpStreamProofs.v
theories/BmpProps.v
theories/WinModel.v
theories/WinSpec.v
theories/WinProofs.v
theories/WinRunProofs.v
theories/WinGroupProofs.v
theories/WinTopProofs.v
theories/WinProps.v
theories/NcModel.v
theories/NcSpec.v
theories/NcProofs.v
theories/NcProps.v
theories/PcapModel.v
theories/PcapSpec.v
theories/PcapProofs.v
theories/PcapProps.v
theories/ActorModel.v
theories/ActorSpec.v
theories/ActorProofs.v
theories/ActorProps.v
theories/EnModel.v
theories/EnSpec.v
theories/EnProofs.v
theories/EnProps.v
theories/RnModel.v
theories/RnSpec.v
theories/RnProofs.v
theories/RnProps.v
theories/AgModel.v
theories/AgSpec.v
theories/AgProofs.v
theories/AgProps.v
theories/SpModel.v
theories/SpSpec.v
theories/SpProofs.v
theories/SpPeerProofs.v
theories/SpProps.v
theories/FlFieldModel.v
theories/FlModel.v
theories/FlSpec.v
theories/FlSafeProofs.v
theories/FlDecodeProofs.v
theories/FlTemplateProofs.v
theories/FlValueProofs.v
theories/FlRoundProofs.v
theories/FlStreamProofs.v
theories/FlNRoundProofs.v
theories/FlMoreProofs.v
theories/FlLegalProofs.v
theories/FlEchoProofs.v
theories/FlProps.v
theories/FiModel.v
theories/FiSpec.v
theories/FiTextProofs.v
theories/FiRunProofs.v
theories/FiProps.v
theories/InModel.v
theories/InSpec.v
theories/InProofs.v
theories/InRunProofs.v
theories/InLabelProofs.v
theories/InSonataProofs.v
theories/InProps.v
theories/YcModel.v
theories/YcSpec.v
theories/YcFileProofs.v
theories/YcProofs.v
theories/YcLoadProofs.v
theories/YcCrashProofs.v
theories/YcActorProofs.v
theories/YcCheck.v
theories/YcProps.v
theories/YpModel.v
theories/YpSpec.v
theories/YpFuelProofs.v
theories/YpAsciiProofs.v
theories/YpProofs.v
theories/YpHangProofs.v
theories/YpProps.v
theories/YlModel.v
theories/YlSpec.v
theories/YlProofs.v
theories/YlBProofs.v
theories/YlProps.v
theories/YgModel.v
theories/YgSpec.v
theories/YgProofs.v
theories/YgProps.v
theories/NsModel.v
theories/NsSpec.v
theories/NsProofs.v
theories/NsProps.v
theories/EcModel.v
theories/EcSpec.v
theories/EcProofs.v
theories/EcProps.v
theories/LsModel.v
theories/LsSpec.v
theories/LsProofs.v
theories/LsNlriProofs.v
theories/LsFaultProofs.v
theories/LsWireProofs.v
theories/LsProps.v
theories/BsModel.v
theories/BsSpec.v
theories/BsProofs.v
theories/BsTableProofs.v
theories/BsProps.v
theories/BvModel.v
theories/BvSpec.v
theories/BvProofs.v
theories/BvProps.v
theories/PbModel.v
theories/PbSpec.v
theories/PbProofs.v
theories/PbYangProofs.v
theories/PbProps.v
theories/YvModel.v
theories/YvSpec.v
theories/YvProofs.v
theories/YvProofs2.v
theories/YvProps.v
theories/PdModel.v
theories/PdHandlers.v
theories/PdSpec.v
theories/PdProofs.v
theories/PdProofs2.v
theories/PdProofs3.v
theories/PdProps.v
theories/SvModel.v
theories/SvSpec.v
theories/SvProofs.v
theories/SvProofs2.v
theories/SvProofs3.v
theories/SvProofs4.v
theories/SvProps.v
theories/AaModel.v
theories/AaSpec.v
theories/AaProofs.v
theories/AaProofs2.v
theories/AaProofs3.v
theories/AaProps.v
theories/PmModel.v
theories/PmSpec.v
theories/PmProofs.v
theories/PmProps.v
theories/LpModel.v
theories/LpSpec.v
theories/LpProofs.v
theories/LpProofs2.v
theories/LpProps.v
theories/FxModel.v
theories/FxSpec.v
theories/FxProofs.v
theories/FxProofs2.v
theories/FxProofs3.v
theories/FxProps.v
theories/KcModel.v
theories/KcSpec.v
theories/KcProofs.v
theories/KcProps.v
theories/StModel.v
theories/StSpec.v
theories/StProofs.v
theories/StProps.v
theories/CaModel.v
theories/CaSpec.v
theories/CaProofs.v
theories/CaProps.v
theories/TeModel.v
theories/TeSpec.v
theories/TeProofs.v
theories/TeProps.v
