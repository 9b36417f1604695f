-Q theories Verif
theories/AcceptProofs.v
theories/AcceptProps.v
theories/AcceptSpec.v
theories/AcceptStash.v
theories/AcceptState.v
theories/AgreeProofs.v
theories/AgreeProps.v
theories/AgreeSpec.v
theories/AmountModel.v
theories/AmountProofs.v
theories/AmountProps.v
theories/AmountSpec.v
theories/ArmorModel.v
theories/ArmorProps.v
theories/ArmorSpec.v
theories/Base.v
theories/BuilderCalls.v
theories/BuilderComplete.v
theories/BuilderModel.v
theories/BuilderProofs.v
theories/BuilderProps.v
theories/BuilderSpec.v
theories/CmpModel.v
theories/CmpProps.v
theories/CmpSpec.v
theories/ComposeBlank.v
theories/ComposeErr.v
theories/ComposeMain.v
theories/ComposeModel.v
theories/ComposePaid.v
theories/ComposeProofs.v
theories/ComposeProps.v
theories/ComposeSpec.v
theories/ConsignAccept.v
theories/ConsignModel.v
theories/ConsignProofs.v
theories/ConsignProps.v
theories/ConsignSpec.v
theories/ContainerModel.v
theories/ContainerProofs.v
theories/ContainerProps.v
theories/ContainerSpec.v
theories/Core.v
theories/DebugCompose.v
theories/DebugModel.v
theories/DebugProofs.v
theories/DebugProps.v
theories/DeniedProofs.v
theories/DeniedProps.v
theories/DeniedSpec.v
theories/DetProofs.v
theories/DetProps.v
theories/DetSpec.v
theories/EvolveModel.v
theories/EvolveProofs.v
theories/EvolveProps.v
theories/EvolveSpec.v
theories/ExportProofs.v
theories/ExportProps.v
theories/ExportSpec.v
theories/FasciaProps.v
theories/FlagProps.v
theories/FoundProps.v
theories/GlobalProps.v
theories/GlobalSpec.v
theories/GrowMain.v
theories/GrowProofs.v
theories/GrowProps.v
theories/GrowSpec.v
theories/HandEndProps.v
theories/HandMain.v
theories/HandPayProps.v
theories/HandProofs.v
theories/HandProps.v
theories/HandSpec.v
theories/HashExists.v
theories/HashOrdItems.v
theories/HashOrdMain.v
theories/HashOrdProofs.v
theories/HashOrdProps.v
theories/HashOrdSpec.v
theories/HistoryModel.v
theories/HistoryProofs.v
theories/HistoryProps.v
theories/HistorySpec.v
theories/IdentModel.v
theories/IdentProofs.v
theories/IdentProps.v
theories/IdentSpec.v
theories/IfaceExt.v
theories/IfaceModel.v
theories/IfaceProofs.v
theories/IfaceProps.v
theories/IfaceRefine.v
theories/IfaceSpec.v
theories/InvoiceModel.v
theories/InvoiceProofs.v
theories/InvoiceProps.v
theories/InvoiceSpec.v
theories/IsolationProofs.v
theories/IsolationProps.v
theories/IsolationSpec.v
theories/LedgerProofs.v
theories/LedgerProps.v
theories/LedgerSpec.v
theories/LettersProofs.v
theories/LettersProps.v
theories/LettersSpec.v
theories/ListedProps.v
theories/LoadProps.v
theories/MergeModel.v
theories/MergeProofs.v
theories/MergeProps.v
theories/MergeSpec.v
theories/OwnProps.v
theories/PIndexModel.v
theories/PIndexProofs.v
theories/PIndexProps.v
theories/PIndexSpec.v
theories/PayDataProps.v
theories/PayLostProps.v
theories/PayProofs.v
theories/PayProps.v
theories/PaySpec.v
theories/PayableBlank.v
theories/PayableErr.v
theories/PayableMain.v
theories/PayablePanic.v
theories/PayableProofs.v
theories/PayableProps.v
theories/PayableSpec.v
theories/QueryModel.v
theories/QueryMore.v
theories/QueryProofs.v
theories/QueryProps.v
theories/QuerySpec.v
theories/ReadMain.v
theories/ReadProofs.v
theories/ReadProps.v
theories/ReadSpec.v
theories/RecordIndex.v
theories/RecordProofs.v
theories/RecordProps.v
theories/RecordSpec.v
theories/RecordState.v
theories/RefuseProofs.v
theories/RefuseProps.v
theories/RefuseSpec.v
theories/RelayProofs.v
theories/RelayProps.v
theories/RelaySpec.v
theories/ReplicaMore.v
theories/ReplicaProofs.v
theories/ReplicaProps.v
theories/ReplicaSpec.v
theories/ReportMain.v
theories/ReportProofs.v
theories/ReportProps.v
theories/ReportSpec.v
theories/Ser.v
theories/SourceModel.v
theories/SourceProofs.v
theories/SourceProps.v
theories/SourceSpec.v
theories/StM.v
theories/StashAgain.v
theories/StashModel.v
theories/StashProofs.v
theories/StashProps.v
theories/StashSpec.v
theories/StateModel.v
theories/StateProofs.v
theories/StateProps.v
theories/StateSpec.v
theories/StlModel.v
theories/StlProofs.v
theories/StlProps.v
theories/StlSpec.v
theories/StockAgain.v
theories/StockCodec.v
theories/StockModel.v
theories/StockProofs.v
theories/StockProps.v
theories/StockSpec.v
theories/Str.v
theories/SupplModel.v
theories/SupplProofs.v
theories/SupplProps.v
theories/SupplSpec.v
theories/SupplyProps.v
theories/SupplySpec.v
theories/TapretProofs.v
theories/TapretProps.v
theories/TapretSpec.v
theories/TransferProofs.v
theories/TransferProps.v
theories/TransferSpec.v
theories/WhereProofs.v
theories/WhereProps.v
theories/WhereSpec.v
