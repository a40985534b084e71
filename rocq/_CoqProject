-Q theories Verif
theories/ArrModel.v
theories/ArrProofs.v
theories/ArrProps.v
theories/ArrSpec.v
theories/AttrModel.v
theories/AttrProofs.v
theories/AttrProps.v
theories/AttrSpec.v
theories/AxModel.v
theories/AxProofs.v
theories/AxProofs2.v
theories/AxProofs3.v
theories/AxProps.v
theories/AxSpec.v
theories/BtModel.v
theories/BtProofs.v
theories/BtProofs2.v
theories/BtProofs3.v
theories/BtProofs4.v
theories/BtProofs5.v
theories/BtProofs6.v
theories/BtProps.v
theories/BtSpec.v
theories/CfgModel.v
theories/CfgProofs.v
theories/CfgProofs2.v
theories/CfgProps.v
theories/CfgSpec.v
theories/CioModel.v
theories/CioProofs.v
theories/CioProofs2.v
theories/CioProofs3.v
theories/CioProofs4.v
theories/CioProps.v
theories/CioSpec.v
theories/ColModel.v
theories/ColProofs.v
theories/ColProofs2.v
theories/ColProps.v
theories/ColSpec.v
theories/ConstModel.v
theories/ConstProofs.v
theories/ConstProps.v
theories/ContModel.v
theories/ContProofs.v
theories/ContProofs2.v
theories/ContProps.v
theories/ContSpec.v
theories/CopyModel.v
theories/CopyProofs.v
theories/CopyProofs2.v
theories/CopyProps.v
theories/CopySpec.v
theories/CtaskModel.v
theories/CtaskProofs.v
theories/CtaskProps.v
theories/CtaskProps2.v
theories/CtaskSpec.v
theories/DcModel.v
theories/DcProofs.v
theories/DcProps.v
theories/DecoModel.v
theories/DecoProps.v
theories/DhModel.v
theories/DhProofs.v
theories/DhProofs2.v
theories/DhProofs3.v
theories/DhProofs4.v
theories/DhProps.v
theories/DhSpec.v
theories/DistModel.v
theories/DistProofs.v
theories/DistProps.v
theories/DskModel.v
theories/DskProofs.v
theories/DskProps.v
theories/DskProps2.v
theories/DuModel.v
theories/DuProofs.v
theories/DuProofs2.v
theories/DuProofs3.v
theories/DuProofs4.v
theories/DuProofs5.v
theories/DuProofs6.v
theories/DuProofs7.v
theories/DuProofs8.v
theories/DuProps.v
theories/DuProps2.v
theories/DuSpec.v
theories/ExtModel.v
theories/ExtProofs.v
theories/ExtProofs2.v
theories/ExtProps.v
theories/ExtSpec.v
theories/FftModel.v
theories/FftProofs.v
theories/FftProofs2.v
theories/FftProps.v
theories/FftSpec.v
theories/FiltModel.v
theories/FiltProofs.v
theories/FiltProofs2.v
theories/FiltProps.v
theories/FiltProps2.v
theories/FiltSpec.v
theories/FlowModel.v
theories/FlowProofs.v
theories/FlowProps.v
theories/FlowProps2.v
theories/FlowSpec.v
theories/FmtModel.v
theories/FmtProps.v
theories/FmtSpec.v
theories/FtModel.v
theories/FtProofs.v
theories/FtProofs2.v
theories/FtProofs3.v
theories/FtProofs4.v
theories/FtProofs5.v
theories/FtProps.v
theories/FtProps2.v
theories/FtSpec.v
theories/GfModel.v
theories/GfProofs.v
theories/GfProofs2.v
theories/GfProofs3.v
theories/GfProps.v
theories/GfProps2.v
theories/GfSpec.v
theories/Glob2Props.v
theories/Glob2Spec.v
theories/GlobModel.v
theories/GlobProofs.v
theories/GlobProofs2.v
theories/GlobProps.v
theories/GlobProps2.v
theories/GlobSpec.v
theories/GlobSpec2.v
theories/GqModel.v
theories/GqProofs.v
theories/GqProofs2.v
theories/GqProofs3.v
theories/GqProofs4.v
theories/GqProofs5.v
theories/GqProofs6.v
theories/GqProofs7.v
theories/GqProps.v
theories/GqProps2.v
theories/GqSpec.v
theories/GqSpec2.v
theories/HistModel.v
theories/HistProofs.v
theories/HistProps.v
theories/HistProps2.v
theories/HistSpec.v
theories/InitModel.v
theories/InitProofs.v
theories/InitProps.v
theories/InitSpec.v
theories/InvModel.v
theories/InvProofs.v
theories/InvProps.v
theories/InvSpec.v
theories/JlModel.v
theories/JlProofs.v
theories/JlProofs2.v
theories/JlProps.v
theories/JlProps2.v
theories/JlSpec.v
theories/JlSpec2.v
theories/JsaProps.v
theories/JsonModel.v
theories/JsonProofs.v
theories/JsonSpec.v
theories/LayModel.v
theories/LayProofs.v
theories/LayProofs2.v
theories/LayProofs3.v
theories/LayProps.v
theories/LaySpec.v
theories/LnModel.v
theories/LnProps.v
theories/LoadModel.v
theories/LoadProofs.v
theories/LoadProps.v
theories/LoadSpec.v
theories/LockModel.v
theories/LockProofs.v
theories/LockProps.v
theories/LockSpec.v
theories/LruModel.v
theories/LruProofs.v
theories/LruProps.v
theories/LruSpec.v
theories/LsdModel.v
theories/LsdProofs.v
theories/LsdProps.v
theories/LsdSpec.v
theories/MdfModel.v
theories/MdfProps.v
theories/MdgModel.v
theories/MdgProofs.v
theories/MdgProps.v
theories/MdgSpec.v
theories/MedModel.v
theories/MedProofs.v
theories/MedProofs2.v
theories/MedProofs3.v
theories/MedProofs4.v
theories/MedProps.v
theories/MedSpec.v
theories/MemModel.v
theories/MemProofs.v
theories/MemProofs2.v
theories/MemProps.v
theories/MemSpec.v
theories/MplModel.v
theories/MplProofs.v
theories/MplProofs2.v
theories/MplProofs3.v
theories/MplProofs4.v
theories/MplProofs5.v
theories/MplProps.v
theories/MplSpec.v
theories/MsgModel.v
theories/MsgProg.v
theories/MsgProofs.v
theories/MsgProofs2.v
theories/MsgProofs3.v
theories/MsgProofs4.v
theories/MsgProofs5.v
theories/MsgProofs6.v
theories/MsgProofs7.v
theories/MsgProofs8.v
theories/MsgProps.v
theories/MsgSpec.v
theories/MsyProofs.v
theories/MsyProps.v
theories/MsySpec.v
theories/NioModel.v
theories/NioProofs.v
theories/NioProofs2.v
theories/NioProofs3.v
theories/NioProofs4.v
theories/NioProofs5.v
theories/NioProps.v
theories/NioSpec.v
theories/NormProofs.v
theories/ObjModel.v
theories/ObjProofs.v
theories/ObjProofs2.v
theories/ObjProps.v
theories/ObjSpec.v
theories/OrdModel.v
theories/OrdProps.v
theories/OrdProps2.v
theories/OrdSpec.v
theories/PartModel.v
theories/PartProofs.v
theories/PartProps.v
theories/PartProps0.v
theories/PartSpec.v
theories/PfbModel.v
theories/PfbProofs.v
theories/PfbProofs2.v
theories/PfbProps.v
theories/PfbSpec.v
theories/PipeModel.v
theories/PipeProofs.v
theories/PipeProofs2.v
theories/PipeProofs3.v
theories/PipeProofs4.v
theories/PipeProofs5.v
theories/PipeProofs6.v
theories/PipeProofs7.v
theories/PipeProofs8.v
theories/PipeProofs9.v
theories/PipeProps.v
theories/PipeSpec.v
theories/PipeSpec2.v
theories/ProfModel.v
theories/ProfProofs.v
theories/ProfProps.v
theories/ProfSpec.v
theories/PyBase.v
theories/PyStr.v
theories/QselModel.v
theories/QselProofs.v
theories/QselProofs2.v
theories/RedModel.v
theories/RedProofs.v
theories/RedProps.v
theories/RedSpec.v
theories/RisModel.v
theories/RisProofs.v
theories/RisProofs2.v
theories/RisProofs3.v
theories/RisProps.v
theories/RisProps2.v
theories/RisSpec.v
theories/RngModel.v
theories/RngProofs.v
theories/RngProps.v
theories/RngSpec.v
theories/RunModel.v
theories/RunProofs.v
theories/RunProps.v
theories/RunProps2.v
theories/RunSpec.v
theories/SelModel.v
theories/SelProofs.v
theories/SelProps.v
theories/SelSpec.v
theories/SkyModel.v
theories/SkyProofs.v
theories/SkyProps.v
theories/SkySpec.v
theories/SliceModel.v
theories/SliceProofs.v
theories/SliceProps.v
theories/SliceProps0.v
theories/SliceSpec.v
theories/SlxProofs.v
theories/SlxProps.v
theories/SlxSpec.v
theories/SolveModel.v
theories/SolveProofs.v
theories/SolveProps.v
theories/SolveSpec.v
theories/SphModel.v
theories/SphProofs.v
theories/SphProps.v
theories/SphSpec.v
theories/SysModel.v
theories/SysProofs.v
theories/SysProps.v
theories/SysSpec.v
theories/TfModel.v
theories/TfProofs.v
theories/TfProofs2.v
theories/TfProps.v
theories/TfiProofs.v
theories/TfiProofs2.v
theories/TfiProps.v
theories/TfiProps2.v
theories/TimeModel.v
theories/TimeProofs.v
theories/TimeProofs2.v
theories/TimeProofs3.v
theories/TimeProps.v
theories/TimeSpec.v
theories/TodModel.v
theories/TodProofs.v
theories/TodProps.v
theories/TodProps2.v
theories/TodSpec.v
theories/TqModel.v
theories/TqProps.v
theories/TruncFloat.v
theories/TruncModel.v
theories/TruncProofs.v
theories/TruncProps.v
theories/TruncProps0.v
theories/TruncSpec.v
theories/TtModel.v
theories/TtProps.v
theories/TtSpec.v
theories/TtimeModel.v
theories/TtimeProps.v
theories/TxModel.v
theories/TxProofs.v
theories/TxProofs2.v
theories/TxProofs3.v
theories/TxProps.v
theories/TxSpec.v
theories/TxmModel.v
theories/TxmProps.v
theories/TxmSpec.v
theories/TxsProofs.v
theories/TxsProps.v
theories/TxsSpec.v
theories/TypModel.v
theories/TypProofs.v
theories/TypProofs2.v
theories/TypProps.v
theories/TypSpec.v
theories/WinModel.v
theories/WinProofs.v
theories/WinProps.v
theories/WinSpec.v
theories/ZipModel.v
theories/ZipProofs.v
theories/ZipProps.v
theories/ZipSpec.v
