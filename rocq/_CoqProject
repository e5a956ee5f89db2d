-Q theories Verif
theories/Base.v
theories/Float64.v
theories/FloatBridge.v
theories/FilterModel.v
theories/FilterSpec.v
theories/FilterProofs.v
theories/FilterProps.v
theories/SettersModel.v
theories/SettersProofs.v
theories/SettersProps.v
theories/ProgressModel.v
theories/ProgressProofs.v
theories/ProgressProps.v
theories/HitMissModel.v
theories/HitMissSpec.v
theories/HitMissProofs.v
theories/HitMissConf.v
theories/HitMissProps.v
theories/LabelsModel.v
theories/LabelsProofs.v
theories/LabelsProps.v
theories/CtorModel.v
theories/CtorProps.v
theories/RealBase.v
theories/Solver.v
theories/QuantileModel.v
theories/QuantileProofs.v
theories/QuantileProps.v
theories/InterpModel.v
theories/InterpProofs.v
theories/InterpProps.v
theories/DetectionModel.v
theories/DetectionProps.v
theories/BoxCoxModel.v
theories/BoxCoxProps.v
theories/RegModel.v
theories/RegProofs.v
theories/RegProps.v
theories/LinPodModel.v
theories/LinPodProps.v
theories/BinomialProps.v
theories/MatBase.v
theories/DwModel.v
theories/DwProps.v
theories/AdaptiveModel.v
theories/AdaptiveProofs.v
theories/AdaptiveProps.v
theories/LayoutModel.v
theories/LayoutProps.v
theories/SobolModel.v
theories/SobolProps.v
theories/SobolObjModel.v
theories/SobolObjProps.v
theories/HitMissPodProps.v
theories/QrConfProps.v
theories/KrigSimModel.v
theories/KrigSimProps.v
theories/LooModel.v
theories/LooProps.v
theories/PliModel.v
theories/PliProps.v
theories/PliDeltaProps.v
theories/PliSigmaProps.v
theories/CountModel.v
theories/CountProps.v
theories/PliDensityModel.v
theories/PliDensityProofs.v
theories/PliDensityProps.v
theories/PliPodModel.v
theories/PliPodProps.v
theories/PliTableModel.v
theories/PliTableProofs.v
theories/PliTableProps.v
theories/PliEndModel.v
theories/PliEndProps.v
theories/PliObjModel.v
theories/PliObjProps.v
theories/LinObjModel.v
theories/LinObjProps.v
theories/TableModel.v
theories/TableProps.v
theories/PrintProps.v
theories/SummaryModel.v
theories/SummaryProps.v
theories/SummaryReportProps.v
theories/SummaryPrintModel.v
theories/SummaryPrintProps.v
theories/KrigAttrModel.v
theories/KrigAttrProps.v
theories/ChaosAttrModel.v
theories/ChaosAttrProps.v
theories/QrObjModel.v
theories/QrObjProps.v
theories/DocModel.v
theories/DocProps.v
theories/LinspaceModel.v
theories/LinspaceProps.v
theories/BoxCoxLikModel.v
theories/BoxCoxLikProps.v
theories/AnaModel.v
theories/AnaProps.v
theories/DrawModel.v
theories/DrawProps.v
theories/EnrichModel.v
theories/EnrichProps.v
theories/ThetaModel.v
theories/ThetaProps.v
theories/AccessModel.v
theories/AccessProps.v
theories/CoefModel.v
theories/CoefProps.v
theories/QrR2Model.v
theories/QrR2Props.v
theories/SumDataModel.v
theories/SumDataProps.v
theories/LawModel.v
theories/LawProps.v
theories/PliLawModel.v
theories/PliLawProps.v
theories/HmConfModel.v
theories/HmConfProps.v
theories/ConstProps.v
theories/OutcomeProps.v
theories/QrRunModel.v
theories/QrRunProps.v
theories/UnitsProps.v
theories/BoundsModel.v
theories/BoundsProps.v
theories/AliasModel.v
theories/AliasProps.v
theories/ShareModel.v
theories/ShareProps.v
theories/QrShareModel.v
theories/QrShareProps.v
theories/ThresholdProps.v
theories/ClassifierModel.v
theories/ClassifierProps.v
theories/MetaUnitsProps.v
theories/QrUnitsProps.v
