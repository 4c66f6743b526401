-Q theories Verif
theories/AcBind.v
theories/AcModel.v
theories/AcProofs.v
theories/AcProps.v
theories/AcRedact.v
theories/AcSpec.v
theories/AcThms.v
theories/AnModel.v
theories/AnProofs.v
theories/AnProps.v
theories/AnSpec.v
theories/AnThms.v
theories/B64Model.v
theories/B64Proofs.v
theories/B64Props.v
theories/B64Thms.v
theories/BlModel.v
theories/BlProofs.v
theories/BlProofs2.v
theories/BlProofs3.v
theories/BlProofs4.v
theories/BlProps.v
theories/BlSpec.v
theories/BlThms.v
theories/CfModel.v
theories/CfProofs.v
theories/CfProps.v
theories/CfSpec.v
theories/CfThms.v
theories/ClModel.v
theories/ClProofs.v
theories/ClProofs2.v
theories/ClProofs3.v
theories/ClProps.v
theories/ClSpec.v
theories/ClThms.v
theories/CoModel.v
theories/CoProofs.v
theories/CoProofs2.v
theories/CoProofs3.v
theories/CoProofs4.v
theories/CoProofs5.v
theories/CoProps.v
theories/CoSpec.v
theories/CoThms.v
theories/CpAgg.v
theories/CpCompact.v
theories/CpModel.v
theories/CpProofs.v
theories/CpProps.v
theories/CpRoll.v
theories/CpSpec.v
theories/CpThms.v
theories/CtrModel.v
theories/CtrProofs.v
theories/CtrProps.v
theories/CtrThms.v
theories/DbDup.v
theories/DbModel.v
theories/DbOn.v
theories/DbOn2.v
theories/DbProofs.v
theories/DbProps.v
theories/DbRef.v
theories/DbSpec.v
theories/DbThms.v
theories/ExModel.v
theories/ExProofs.v
theories/ExProofs2.v
theories/ExProofs3.v
theories/ExProps.v
theories/ExSpec.v
theories/ExThms.v
theories/GrModel.v
theories/GrProofs.v
theories/GrProps.v
theories/GrSpec.v
theories/GrThms.v
theories/HbEx.v
theories/HbModel.v
theories/HbProofs.v
theories/HbProofs2.v
theories/HbProofs3.v
theories/HbProofs4.v
theories/HbProofs5.v
theories/HbProofs6.v
theories/HbProps.v
theories/HbSpec.v
theories/HbThms.v
theories/IdxInv.v
theories/IdxModel.v
theories/IdxProofs.v
theories/IdxProps.v
theories/IdxThms.v
theories/JsonModel.v
theories/JsonProofs.v
theories/KelInv.v
theories/KelLaw.v
theories/KelModel.v
theories/KelProofs.v
theories/KelProps.v
theories/KelSpec.v
theories/KelThms.v
theories/KrConf.v
theories/KrHist.v
theories/KrInv.v
theories/KrModel.v
theories/KrProofs.v
theories/KrProps.v
theories/KrSpec.v
theories/KrThms.v
theories/KsCrash.v
theories/KsHab.v
theories/KsHeld.v
theories/KsInv.v
theories/KsLedger.v
theories/KsModel.v
theories/KsProofs.v
theories/KsProps.v
theories/KsRun.v
theories/KsSeal.v
theories/KsSpec.v
theories/KsThms.v
theories/Lex.v
theories/MatterBinInv.v
theories/MatterInv.v
theories/MatterModel.v
theories/MatterProofs.v
theories/MatterProps.v
theories/MatterSpec.v
theories/MatterThms.v
theories/MbModel.v
theories/MbProofs.v
theories/MbProofs2.v
theories/MbProofs3.v
theories/MbProofs4.v
theories/MbProofs5.v
theories/MbProps.v
theories/MbSpec.v
theories/MbThms.v
theories/MkModel.v
theories/MkProofs.v
theories/MkProps.v
theories/MkSpec.v
theories/MkThms.v
theories/MxModel.v
theories/MxProofs.v
theories/MxProofs2.v
theories/MxProofs3.v
theories/MxProps.v
theories/MxSpec.v
theories/MxThms.v
theories/MzModel.v
theories/MzProofs.v
theories/MzProofs2.v
theories/MzProps.v
theories/MzSpec.v
theories/MzThms.v
theories/NkModel.v
theories/NkProofs.v
theories/NkProofs2.v
theories/NkProofs3.v
theories/NkProofs4.v
theories/NkProofs5.v
theories/NkProofs6.v
theories/NkProofs7.v
theories/NkProps.v
theories/NkSpec.v
theories/NkThms.v
theories/NmModel.v
theories/NmProofs.v
theories/NmProofs2.v
theories/NmProofs3.v
theories/NmProofs4.v
theories/NmProps.v
theories/NmSpec.v
theories/NmThms.v
theories/ObModel.v
theories/ObProofs.v
theories/ObProofs2.v
theories/ObProps.v
theories/ObSpec.v
theories/ObThms.v
theories/OgModel.v
theories/OgProofs.v
theories/OgProofs2.v
theories/OgProofs3.v
theories/OgProofs4.v
theories/OgProps.v
theories/OgSpec.v
theories/OgThms.v
theories/OoProofs.v
theories/OoProofs2.v
theories/OoProofs3.v
theories/OoProofs4.v
theories/OoProps.v
theories/OoSpec.v
theories/OoThms.v
theories/Prelude.v
theories/PsGroup.v
theories/PsModel.v
theories/PsProofs.v
theories/PsProps.v
theories/PsSpec.v
theories/PsTerm.v
theories/PsThms.v
theories/QnModel.v
theories/QnProofs.v
theories/QnProps.v
theories/QnSpec.v
theories/QnThms.v
theories/QualProofs.v
theories/QyModel.v
theories/QyProofs.v
theories/QyProofs2.v
theories/QyProofs3.v
theories/QyProps.v
theories/QySpec.v
theories/QyThms.v
theories/RcInv.v
theories/RcKeep.v
theories/RcModel.v
theories/RcProofs.v
theories/RcProps.v
theories/RcSpec.v
theories/RcThms.v
theories/RgModel.v
theories/RgProofs.v
theories/RgProps.v
theories/RgSpec.v
theories/RgThms.v
theories/RpFair.v
theories/RpLive.v
theories/RpModel.v
theories/RpProofs.v
theories/RpProps.v
theories/RpSpec.v
theories/RpThms.v
theories/SerInv.v
theories/SerMake.v
theories/SerModel.v
theories/SerProofs.v
theories/SerProps.v
theories/SerSpec.v
theories/SerThms.v
theories/SgModel.v
theories/SgProofs.v
theories/SgProps.v
theories/SgSpec.v
theories/SgThms.v
theories/SqModel.v
theories/SqProofs.v
theories/SqProps.v
theories/SqSpec.v
theories/SqThms.v
theories/SubsModel.v
theories/SubsProofs.v
theories/SubsProps.v
theories/SubsThms.v
theories/ThModel.v
theories/ThProofs.v
theories/ThProps.v
theories/ThSpec.v
theories/ThThms.v
theories/TlBack.v
theories/TlInv.v
theories/TlLive.v
theories/TlModel.v
theories/TlProofs.v
theories/TlProps.v
theories/TlSpec.v
theories/TlThms.v
theories/TmModel.v
theories/TmProofs.v
theories/TmProps.v
theories/TmSpec.v
theories/TmThms.v
theories/TsModel.v
theories/TsProofs.v
theories/TsProofs2.v
theories/TsProps.v
theories/TsSpec.v
theories/TsThms.v
theories/VcInv.v
theories/VcLive.v
theories/VcModel.v
theories/VcProofs.v
theories/VcProps.v
theories/VcSpec.v
theories/VcTel.v
theories/VcThms.v
theories/VerModel.v
theories/VerProps.v
theories/VerThms.v
theories/WaModel.v
theories/WaProofs.v
theories/WaProofs2.v
theories/WaProofs3.v
theories/WaProps.v
theories/WaSpec.v
theories/WaThms.v
theories/WbModel.v
theories/WbProofs.v
theories/WbProofs2.v
theories/WbProofs3.v
theories/WbProofs4.v
theories/WbProps.v
theories/WbSpec.v
theories/WbThms.v
theories/WnModel.v
theories/WnProofs.v
theories/WnProps.v
theories/WnSpec.v
theories/WnThms.v
theories/WxModel.v
theories/WxProofs.v
theories/WxProps.v
theories/WxSpec.v
theories/WxThms.v
