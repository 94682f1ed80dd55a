-Q theories Verif
theories/Base.v
theories/NamesModel.v
theories/NamesSpec.v
theories/NamesProofs.v
theories/NamesIndexProofs.v
theories/NamesProps.v
theories/TableModel.v
theories/TableSpec.v
theories/TableProofs.v
theories/TablePermProofs.v
theories/TableOps.v
theories/TableSortProofs.v
theories/TableInsertProofs.v
theories/TableOpsProofs.v
theories/TableOps2Proofs.v
theories/TableOps3Proofs.v
theories/TableGroupProofs.v
theories/TableNameSortProofs.v
theories/TableProps.v
theories/SparseModel.v
theories/SparseSpec.v
theories/SparseProofs.v
theories/SparseOpsProofs.v
theories/SparseHistProofs.v
theories/SparseEqProofs.v
theories/SparseRefine.v
theories/IdentModel.v
theories/IdentProofs.v
theories/SparseProps.v
theories/FlatModel.v
theories/FlatSpec.v
theories/FlatProofs.v
theories/FlatProps.v
theories/PrepModel.v
theories/PrepSpec.v
theories/PrepProofs.v
theories/SplitProofs.v
theories/PrepProps.v
theories/EncodeProofs.v
theories/EncodeProps.v
theories/FoldModel.v
theories/FoldSpec.v
theories/FoldProofs.v
theories/TuneModel.v
theories/TuneSpec.v
theories/TuneProofs.v
theories/TuneIterProofs.v
theories/TuneProps.v
theories/LearnModel.v
theories/LearnSpec.v
theories/LearnProofs.v
theories/FoldGroupProofs.v
theories/FoldProps.v
theories/LearnMultiProofs.v
theories/LearnProps.v
theories/CalcModel.v
theories/CalcStatModel.v
theories/CalcSpec.v
theories/CalcProofs.v
theories/CalcNormProofs.v
theories/CalcPercProofs.v
theories/CalcInterpProofs.v
theories/CalcStatProofs.v
theories/CalcModeProofs.v
theories/CalcProps.v
theories/ConfModel.v
theories/ConfSpec.v
theories/ConfProofs.v
theories/ConfProps.v
theories/RandModel.v
theories/RandSpec.v
theories/RandProofs.v
theories/RandProps.v
theories/LogModel.v
theories/LogSpec.v
theories/LogProofs.v
theories/LogProps.v
theories/ViewModel.v
theories/ViewSpec.v
theories/ViewProofs.v
theories/ViewSetProofs.v
theories/ViewSparseProofs.v
theories/ViewProps.v
theories/FillModel.v
theories/FillSpec.v
theories/FillProofs.v
theories/FillMatchProofs.v
theories/FillProps.v
theories/MatchModel.v
theories/MatchSpec.v
theories/MatchProofs.v
theories/MatchProps.v
theories/QueryModel.v
theories/QuerySpec.v
theories/QueryProofs.v
theories/QueryParseProofs.v
theories/QueryTargetProofs.v
theories/QueryProps.v
theories/ElementsModel.v
theories/ElementsSpec.v
theories/ElementsProofs.v
theories/ElementsCalcProofs.v
theories/ElementsProps.v
theories/BinOpModel.v
theories/BinOpSpec.v
theories/BinOpProofs.v
theories/BinOpMainProofs.v
theories/BinOpProps.v
theories/MergeModel.v
theories/MergeSpec.v
theories/MergeLoopProofs.v
theories/MergeColsProofs.v
theories/MergeJoinProofs.v
theories/MergeProofs.v
theories/MergeNamesProofs.v
theories/MergeMainProofs.v
theories/MergeSortProofs.v
theories/MergeProps.v
theories/CsvModel.v
theories/CsvSpec.v
theories/CsvTypesProofs.v
theories/CsvLoadProofs.v
theories/CsvMainProofs.v
theories/CsvRefuseProofs.v
theories/CsvNamesProofs.v
theories/CsvOrderProofs.v
theories/CsvProps.v
theories/CsvTextModel.v
theories/CsvTextSpec.v
theories/CsvTextProofs.v
theories/CsvTextMoreProofs.v
theories/CsvTextProps.v
theories/ReshapeModel.v
theories/ReshapeSpec.v
theories/ReshapeTextProofs.v
theories/ReshapeSplitProofs.v
theories/ReshapeCollapseProofs.v
theories/ReshapeExpandProofs.v
theories/ReshapeFillProofs.v
theories/ReshapeExpandMain.v
theories/ReshapeRoundProofs.v
theories/ReshapeProps.v
theories/DisplayModel.v
theories/DisplaySpec.v
theories/DisplayProofs.v
theories/DisplayMainProofs.v
theories/DisplayLayoutProofs.v
theories/DisplayTextProofs.v
theories/DisplayProps.v
theories/StretchModel.v
theories/StretchSpec.v
theories/StretchProofs.v
theories/StretchMainProofs.v
theories/StretchProps.v
theories/MatMulModel.v
theories/MatMulSpec.v
theories/MatMulProofs.v
theories/MatMulProps.v
theories/SparseArithModel.v
theories/SparseArithSpec.v
theories/SparseArithProofs.v
theories/SparseArithProps.v
theories/LogicModel.v
theories/LogicSpec.v
theories/LogicProofs.v
theories/LogicProps.v
theories/RawModel.v
theories/RawSpec.v
theories/RawProofs.v
theories/RawDictProofs.v
theories/RawKeepProofs.v
theories/RawConvProofs.v
theories/RawTypesProofs.v
theories/RawProps.v
theories/FetchModel.v
theories/FetchSpec.v
theories/FetchProofs.v
theories/FetchMainProofs.v
theories/FetchProps.v
theories/StrictModel.v
theories/StrictSpec.v
theories/StrictProofs.v
theories/StrictMainProofs.v
theories/StrictProps.v
theories/ArgsModel.v
theories/ArgsSpec.v
theories/ArgsProofs.v
theories/ArgsMainProofs.v
theories/ArgsProps.v
theories/ImputeModel.v
theories/ImputeSpec.v
theories/ImputeProofs.v
theories/ImputeKnnProofs.v
theories/ImputeProps.v
theories/GetModel.v
theories/GetSpec.v
theories/GetProofs.v
theories/GetIterProofs.v
theories/GetCountProofs.v
theories/GetFrontProofs.v
theories/GetProps.v
theories/MultiModel.v
theories/MultiSpec.v
theories/MultiProofs.v
theories/MultiOvoProofs.v
theories/MultiTrainProofs.v
theories/MultiProps.v
theories/HighModel.v
theories/HighSpec.v
theories/HighProofs.v
theories/HighOpsProofs.v
theories/HighProps.v
theories/DimsModel.v
theories/DimsSpec.v
theories/DimsProofs.v
theories/DimsProps.v
theories/MtxModel.v
theories/MtxSpec.v
theories/MtxProofs.v
theories/MtxSaveProofs.v
theories/MtxProps.v
theories/SparseReshapeModel.v
theories/SparseReshapeSpec.v
theories/SparseReshapeProofs.v
theories/SparseReshapeSplit.v
theories/SparseReshapeCollapse.v
theories/SparseReshapeCollapseMain.v
theories/SparseReshapeExpand.v
theories/SparseReshapeProps.v
theories/CopyModel.v
theories/CopySpec.v
theories/CopyProofs.v
theories/CopyTextProofs.v
theories/CopyNimbleProofs.v
theories/CopyMainProofs.v
theories/CopyRawProofs.v
theories/CopyMoreProofs.v
theories/CopyProps.v
theories/TypedModel.v
theories/TypedSpec.v
theories/TypedProofs.v
theories/TypedTakeProofs.v
theories/TypedWriteProofs.v
theories/TypedFlatProofs.v
theories/TypedTransformProofs.v
theories/TypedReshapeProofs.v
theories/TypedProps.v
theories/MergeMatModel.v
theories/MergeMatSpec.v
theories/MergeMatProofs.v
theories/MergeMatMain.v
theories/MergeMatRest.v
theories/MergeMatProps.v
theories/MergeSparseModel.v
theories/MergeSparseSpec.v
theories/MergeSparseProofs.v
theories/MergeSparseStore.v
theories/MergeSparseMain.v
theories/MergeSparseRest.v
theories/MergeSparseProps.v
theories/RidgeModel.v
theories/RidgeSpec.v
theories/RidgeAlgebra.v
theories/RidgeProofs.v
theories/RidgeGauss.v
theories/RidgeMore.v
theories/RidgeProps.v
theories/FromSparseModel.v
theories/FromSparseSpec.v
theories/FromSparseDup.v
theories/FromSparseNames.v
theories/FromSparseMain.v
theories/FromSparseRest.v
theories/FromSparseConv.v
theories/FromSparseProps.v
theories/WorkModel.v
theories/WorkSpec.v
theories/WorkProofs.v
theories/WorkMain.v
theories/WorkRest.v
theories/WorkProps.v
theories/ReplaceModel.v
theories/ReplaceSpec.v
theories/ReplaceProofs.v
theories/ReplaceMatProofs.v
theories/ReplaceProps.v
theories/SimStatModel.v
theories/SimStatSpec.v
theories/SimStatAlgebra.v
theories/SimStatProofs.v
theories/SimStatMain.v
theories/SimStatDot.v
theories/SimStatProps.v
theories/MapReduceModel.v
theories/MapReduceProps.v
theories/StransModel.v
theories/StransSpec.v
theories/StransProofs.v
theories/StransElemProofs.v
theories/StransDenseProofs.v
theories/StransNumProofs.v
theories/StransProps.v
theories/CalcSparseModel.v
theories/CalcSparseProofs.v
theories/CalcSparseProps.v
theories/NormModel.v
theories/NormSpec.v
theories/NormProofs.v
theories/NormProps.v
theories/NormRangeModel.v
theories/NormRangeProps.v
theories/ResidModel.v
theories/ResidSpec.v
theories/ResidProofs.v
theories/ResidProps.v
theories/ReportModel.v
theories/ReportSpec.v
theories/ReportProofs.v
theories/ReportProps.v
