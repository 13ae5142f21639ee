-Q theories Verif
theories/ActionModel.v
theories/ActionProofs.v
theories/ActionProps.v
theories/AsfdModel.v
theories/AsfdProofs.v
theories/AsfdProps.v
theories/AttribsModel.v
theories/AttribsProofs.v
theories/AttribsProps.v
theories/AuthModel.v
theories/AuthProofs.v
theories/AuthProps.v
theories/AutoModel.v
theories/AutoProofs.v
theories/BakModel.v
theories/BakProofs.v
theories/BakProps.v
theories/BedupFineProofs.v
theories/BedupModel.v
theories/BedupProofs.v
theories/BedupProps.v
theories/BedupRunProofs.v
theories/BedupWalkProofs.v
theories/BlocklenProofs.v
theories/BuModel.v
theories/BuProofs.v
theories/BuProps.v
theories/Bytes.v
theories/CaConfProofs.v
theories/CaModel.v
theories/CaProofs.v
theories/CaProps.v
theories/CacheModel.v
theories/CacheProofs.v
theories/CacheProps.v
theories/ChldModel.v
theories/ChldParProofs.v
theories/ChldProofs.v
theories/ChldProps.v
theories/CmdModel.v
theories/CmdProofs.v
theories/CmdProps.v
theories/CntrModel.v
theories/CntrProofs.v
theories/CntrProps.v
theories/CntrStatProofs.v
theories/CntrSumProofs.v
theories/ConfModel.v
theories/ConfProofs.v
theories/ConfProps.v
theories/CstatModel.v
theories/CstatProofs.v
theories/CstatProps.v
theories/DeleteModel.v
theories/DeleteProofs.v
theories/DeleteProps.v
theories/DiffModel.v
theories/DiffProofs.v
theories/DiffProps.v
theories/DpthModel.v
theories/DpthProofs.v
theories/DpthProps.v
theories/EstModel.v
theories/EstProofs.v
theories/EstProps.v
theories/ExtraModel.v
theories/ExtraProofs.v
theories/ExtraProps.v
theories/FindModel.v
theories/FindProofs.v
theories/FindProps.v
theories/FrameModel.v
theories/FrameProofs.v
theories/FrameProps.v
theories/FsModel.v
theories/FsProofs.v
theories/FsProps.v
theories/GcModel.v
theories/GcProofs.v
theories/GcProps.v
theories/HistModel.v
theories/HistProofs.v
theories/HistProps.v
theories/HlsModel.v
theories/HlsProofs.v
theories/HlsProps.v
theories/IncexcModel.v
theories/IncexcProofs.v
theories/IncexcProps.v
theories/IpaclModel.v
theories/IpaclProofs.v
theories/IpaclProps.v
theories/JinModel.v
theories/JinProofs.v
theories/JinProps.v
theories/JinShowProofs.v
theories/JinUniProofs.v
theories/JsonModel.v
theories/JsonProofs.v
theories/JsonProps.v
theories/LinkModel.v
theories/LinkProofs.v
theories/LinkProps.v
theories/LinksModel.v
theories/LinksProofs.v
theories/LinksProps.v
theories/LisModel.v
theories/LisProofs.v
theories/LisProps.v
theories/ListModel.v
theories/ListProofs.v
theories/ListProps.v
theories/LockModel.v
theories/LockProofs.v
theories/LockProps.v
theories/LogicModel.v
theories/LogicProofs.v
theories/LogicProps.v
theories/LoginModel.v
theories/LoginProofs.v
theories/LoginProps.v
theories/LstModel.v
theories/LstProofs.v
theories/LstProps.v
theories/LstReqProofs.v
theories/MergeModel.v
theories/MergeProofs.v
theories/MergeProps.v
theories/MonAskProofs.v
theories/MonModel.v
theories/MonProofs.v
theories/MonProps.v
theories/MonRunProofs.v
theories/MonSeeProofs.v
theories/NavLogProofs.v
theories/NavModel.v
theories/NavProofs.v
theories/NavProps.v
theories/OverModel.v
theories/OverProofs.v
theories/OverProps.v
theories/PathcmpModel.v
theories/PathcmpProofs.v
theories/PathcmpProps.v
theories/Ph1Model.v
theories/Ph1Proofs.v
theories/Ph1Props.v
theories/Phase2Model.v
theories/Phase2Proofs.v
theories/Phase2Props.v
theories/Phase4Model.v
theories/Phase4Proofs.v
theories/Phase4Props.v
theories/ProgModel.v
theories/ProgProofs.v
theories/ProgProps.v
theories/RcliModel.v
theories/RcliProofs.v
theories/RcliProps.v
theories/RestoreModel.v
theories/RestoreProofs.v
theories/RestoreProps.v
theories/ResumeModel.v
theories/ResumeProofs.v
theories/ResumeProps.v
theories/ResumeRunProofs.v
theories/RlModel.v
theories/RlProofs.v
theories/RlProps.v
theories/RsbModel.v
theories/RsbProofs.v
theories/RsbProps.v
theories/RtmpModel.v
theories/RtmpProofs.v
theories/RtmpProps.v
theories/RubbleModel.v
theories/RubbleProofs.v
theories/RubbleProps.v
theories/SbufModel.v
theories/SbufProofs.v
theories/SbufProps.v
theories/ScrModel.v
theories/ScrProofs.v
theories/ScrProps.v
theories/SeedModel.v
theories/SeedProofs.v
theories/SeedProps.v
theories/TimerModel.v
theories/TimerProofs.v
theories/TimerProps.v
theories/TpModel.v
theories/TpProofs.v
theories/TpProps.v
theories/TransferModel.v
theories/TransferMoreProofs.v
theories/TransferProofs.v
theories/TransferProps.v
theories/UtilModel.v
theories/UtilProofs.v
theories/UtilProps.v
theories/VssModel.v
theories/VssMoreProofs.v
theories/VssProofs.v
theories/VssProps.v
theories/XattrBsdProofs.v
theories/XattrModel.v
theories/XattrProofs.v
theories/XattrProps.v
