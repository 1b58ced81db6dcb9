-Q theories Verif
theories/PhListModel.v
theories/PhListSpec.v
theories/PhListProofs.v
theories/PhListProps.v
theories/SumLib.v
theories/ExchModel.v
theories/ExchSpec.v
theories/ExchProofs.v
theories/ExchProps.v
theories/HaloModel.v
theories/HaloSpec.v
theories/HaloProofs.v
theories/HaloProps.v
theories/FixModel.v
theories/FixSpec.v
theories/FixProofs.v
theories/FixProps.v
theories/RLib.v
theories/ReconModel.v
theories/ReconSpec.v
theories/ReconProofs.v
theories/ReconProps.v
theories/FluxModel.v
theories/FluxSpec.v
theories/FluxProofs.v
theories/FluxProps.v
theories/GeomModel.v
theories/GeomSpec.v
theories/GeomProofs.v
theories/SpaceProofs.v
theories/FrameProofs.v
theories/NullProofs.v
theories/GeomProps.v
theories/PermModel.v
theories/PermProofs.v
theories/PermProps.v
theories/XLib.v
theories/UtopModel.v
theories/UtopSpec.v
theories/UtopProofs.v
theories/UtopExact.v
theories/UtopWit.v
theories/UtopMain.v
theories/UtopProps.v
theories/UtopConv.v
theories/RootModel.v
theories/RootSpec.v
theories/RootProofs.v
theories/RootProps.v
theories/ParamModel.v
theories/ParamSpec.v
theories/ParamProofs.v
theories/ParamProps.v
theories/TimeModel.v
theories/TimeSpec.v
theories/TimeProofs.v
theories/TimeProps.v
theories/RestartModel.v
theories/RestartSpec.v
theories/RestartProofs.v
theories/RestartProps.v
theories/SaveModel.v
theories/SaveSpec.v
theories/SaveProofs.v
theories/SaveProps.v
theories/HdrModel.v
theories/HdrSpec.v
theories/HdrProofs.v
theories/HdrProps.v
theories/AccModel.v
theories/AccSpec.v
theories/AccProofs.v
theories/AccProps.v
theories/SlabModel.v
theories/SlabSpec.v
theories/SlabProofs.v
theories/SlabProps.v
theories/PushModel.v
theories/PushSpec.v
theories/PushProofs.v
theories/PushProps.v
theories/InterModel.v
theories/InterSpec.v
theories/InterProofs.v
theories/InterTimes.v
theories/InterCases.v
theories/InterProps.v
theories/BiasModel.v
theories/BiasSpec.v
theories/BiasProofs.v
theories/BiasProps.v
theories/OscModel.v
theories/OscSpec.v
theories/OscProofs.v
theories/OscProps.v
theories/IntLib.v
theories/TabModel.v
theories/TabSpec.v
theories/TabProofs.v
theories/TabRound.v
theories/TabProps.v
theories/BinModel.v
theories/BinSpec.v
theories/BinProofs.v
theories/BinProps.v
theories/ScatModel.v
theories/ScatSpec.v
theories/ScatProofs.v
theories/ScatKN.v
theories/ScatCross.v
theories/HotModel.v
theories/HotProofs.v
theories/ScatProps.v
theories/EmitModel.v
theories/EmitSpec.v
theories/EmitProofs.v
theories/EmitTune.v
theories/EmitProps.v
theories/TimeSched.v
theories/LagModel.v
theories/LagSpec.v
theories/LagProofs.v
theories/LagProps.v
theories/PushForce.v
theories/PushHeun.v
theories/TracModel.v
theories/TracSpec.v
theories/TracProofs.v
theories/TracProps.v
theories/EosGModel.v
theories/EosGSpec.v
theories/EosGProofs.v
theories/EosGProps.v
theories/ElecModel.v
theories/ElecSpec.v
theories/ElecProofs.v
theories/ElecProps.v
theories/FloorModel.v
theories/FloorSpec.v
theories/FloorProofs.v
theories/FloorWit.v
theories/FloorProps.v
theories/TDumpModel.v
theories/TDumpSpec.v
theories/TDumpProofs.v
theories/TDumpProps.v
theories/FailModel.v
theories/FailProofs.v
theories/FailProps.v
theories/VchModel.v
theories/VchSpec.v
theories/VchProofs.v
theories/VchWit.v
theories/VchProps.v
theories/CrdModel.v
theories/CrdSpec.v
theories/CrdProofs.v
theories/CrdPoles.v
theories/CrdInv.v
theories/CrdRadii.v
theories/CrdSph.v
theories/CrdProps.v
theories/OscNoise.v
theories/InterMore.v
theories/EmitMore.v
theories/FluxMore.v
theories/FloorMore.v
theories/EosGMore.v
theories/ElecMore.v
theories/ParamMore.v
theories/ThermModel.v
theories/ThermSpec.v
theories/ThermProofs.v
theories/ThermLight.v
theories/ThermProps.v
theories/CurModel.v
theories/CurSpec.v
theories/CurProofs.v
theories/CurWit.v
theories/CurProps.v
theories/EmisModel.v
theories/EmisSpec.v
theories/EmisBrem.v
theories/EmisSynch.v
theories/EmisTab.v
theories/EmisProps.v
theories/ZoneModel.v
theories/ZoneSpec.v
theories/ZoneProofs.v
theories/ZoneProps.v
theories/TallyModel.v
theories/TallySpec.v
theories/TallyProofs.v
theories/TallyProps.v
theories/LedgerModel.v
theories/LedgerSpec.v
theories/LedgerProofs.v
theories/LedgerProps.v
theories/DepthModel.v
theories/DepthProofs.v
theories/DepthProps.v
theories/InvModel.v
theories/InvSpec.v
theories/InvProofs.v
theories/InvFill.v
theories/InvWit.v
theories/InvProps.v
theories/InvEnds.v
theories/PinvModel.v
theories/PinvProofs.v
theories/PinvMain.v
theories/PinvWit.v
theories/PinvEnds.v
theories/PinvProps.v
theories/GhostModel.v
theories/GhostProofs.v
theories/GhostProps.v
theories/RimModel.v
theories/RimSpec.v
theories/RimProofs.v
theories/RimProps.v
theories/OpacModel.v
theories/OpacSpec.v
theories/OpacProofs.v
theories/OpacMore.v
theories/OpacProps.v
theories/CoolModel.v
theories/CoolProofs.v
theories/CoolProps.v
theories/RzModel.v
theories/RzSpec.v
theories/RzProofs.v
theories/RzWit.v
theories/RzProps.v
theories/DiagModel.v
theories/DiagSpec.v
theories/DiagProofs.v
theories/DiagMore.v
theories/DiagProps.v
theories/AdiaModel.v
theories/AdiaSpec.v
theories/AdiaFilt.v
theories/AdiaProofs.v
theories/AdiaMore.v
theories/AdiaPoly.v
theories/AdiaWit.v
theories/AdiaProps.v
theories/PpmModel.v
theories/PpmSpec.v
theories/PpmProofs.v
theories/PpmMore.v
theories/PpmArr.v
theories/PpmProps.v
theories/IsoModel.v
theories/IsoSpec.v
theories/IsoProofs.v
theories/IsoMore.v
theories/IsoProps.v
theories/OwrModel.v
theories/OwrSpec.v
theories/OwrProofs.v
theories/OwrMore.v
theories/OwrProps.v
theories/PasModel.v
theories/PasSpec.v
theories/PasProofs.v
theories/PasMore.v
theories/PasWit.v
theories/PasProps.v
theories/TimModel.v
theories/TimSpec.v
theories/TimProofs.v
theories/TimProps.v
theories/TypModel.v
theories/TypSpec.v
theories/TypProofs.v
theories/TypMore.v
theories/TypProps.v
theories/TunModel.v
theories/TunProofs.v
theories/TunProps.v
theories/XdmModel.v
theories/XdmSpec.v
theories/XdmProofs.v
theories/XdmProps.v
theories/JetModel.v
theories/JetSpec.v
theories/JetProofs.v
theories/JetProps.v
theories/EstModel.v
theories/EstSpec.v
theories/EstProofs.v
theories/EstProps.v
theories/EhtModel.v
theories/EhtProps.v
theories/CmdModel.v
theories/CmdProps.v
theories/RngModel.v
theories/RngProps.v
theories/TMassModel.v
theories/TMassProps.v
theories/LoadModel.v
theories/LoadProps.v
