-Q theories Verif
theories/TextModel.v
theories/TextProofs.v
theories/LinesSpec.v
theories/LinesModel.v
theories/LinesProofs.v
theories/LinesProps.v
theories/SyncModel.v
theories/SyncSpec.v
theories/SyncProofs.v
theories/SyncProps.v
theories/PointModel.v
theories/PointSpec.v
theories/PointProofs.v
theories/PointProps.v
theories/PathSpec.v
theories/PathModel.v
theories/PathProofs.v
theories/PathProps.v
theories/SemTokModel.v
theories/SemTokSpec.v
theories/SemTokProofs.v
theories/SemTokProps.v
theories/ServerModel.v
theories/ServerSpec.v
theories/ServerProofs.v
theories/ServerProps.v
theories/OverrideModel.v
theories/OverrideSpec.v
theories/OverrideProofs.v
theories/OverrideProps.v
theories/SettingsModel.v
theories/SettingsSpec.v
theories/SettingsProps.v
theories/MroModel.v
theories/MroSpec.v
theories/MroProofs.v
theories/MroProps.v
theories/VfsModel.v
theories/VfsSpec.v
theories/VfsProofs.v
theories/VfsTreeProofs.v
theories/VfsStateProofs.v
theories/VfsEventProofs.v
theories/VfsProps.v
theories/VfsNotifyProofs.v
theories/VfsNotifyProps.v
theories/ImportModel.v
theories/ImportSpec.v
theories/ImportProofs.v
theories/ImportPropProofs.v
theories/ImportChangeProofs.v
theories/ImportProps.v
theories/DedentModel.v
theories/DedentSpec.v
theories/DedentProofs.v
theories/DedentProps.v
theories/BacktrackModel.v
theories/BacktrackSpec.v
theories/BacktrackProofs.v
theories/BacktrackProps.v
theories/GuardModel.v
theories/GuardProps.v
theories/ReportModel.v
theories/ReportProps.v
theories/NotebookModel.v
theories/NotebookSpec.v
theories/NotebookProofs.v
theories/NotebookProps.v
theories/LicenseModel.v
theories/LicenseProps.v
theories/TreeModel.v
theories/TreeSpec.v
theories/TreeProofs.v
theories/TreeProps.v
theories/TreeSearchProps.v
theories/SelectModel.v
theories/SelectProps.v
theories/AutomatonModel.v
theories/AutomatonSpec.v
theories/AutomatonProofs.v
theories/PowersetProofs.v
theories/PythonGrammar.v
theories/AutomatonProps.v
theories/UnionModel.v
theories/UnionSpec.v
theories/UnionProofs.v
theories/EqualModel.v
theories/EqualSpec.v
theories/EqualProofs.v
theories/EqualProps.v
theories/UnionProps.v
theories/LiteralModel.v
theories/LiteralSpec.v
theories/LiteralProofs.v
theories/LiteralProps.v
theories/IgnoreModel.v
theories/IgnoreSpec.v
theories/IgnoreProofs.v
theories/IgnoreFixSpec.v
theories/IgnoreFixProofs.v
theories/IgnoreProps.v
theories/ParserModel.v
theories/ParserSpec.v
theories/ParserTree.v
theories/ParserInv.v
theories/ParserPop.v
theories/ParserTok.v
theories/ParserPlan.v
theories/ParserReuse.v
theories/ParserProofs.v
theories/ParserTables.v
theories/ParserProps.v
theories/RegexModel.v
theories/TokenizerModel.v
theories/TokenizerSpec.v
theories/TokenizerLiterals.v
theories/TokenizerProofs.v
theories/TokenizerProps.v
theories/CallModel.v
theories/CallSpec.v
theories/CallFacts.v
theories/CallProofs.v
theories/CallMarks.v
theories/CallProps.v
theories/CallOpen.v
theories/CallOpenFacts.v
theories/CallOpenProps.v
theories/CallOrderProps.v
theories/CallPlain.v
theories/OverloadModel.v
theories/OverloadSpec.v
theories/OverloadProofs.v
theories/OverloadMath.v
theories/OverloadProps.v
theories/OverloadTypes.v
theories/OverloadValues.v
theories/OverloadSplit.v
theories/OverloadCall.v
theories/OverloadCallProps.v
theories/ParamsModel.v
theories/ParamsProofs.v
theories/ParamsProps.v
theories/TupleModel.v
theories/TupleSpec.v
theories/TupleProofs.v
theories/TupleOps.v
theories/TupleExact.v
theories/TupleProps.v
theories/SubtypeModel.v
theories/SubtypeSpec.v
theories/SubtypeProofs.v
theories/SubtypeSound.v
theories/SubtypeTuples.v
theories/SubtypeComplete.v
theories/SubtypeProps.v
theories/SubtypeRules.v
theories/SubtypeDecides.v
theories/SubtypeDecidesProps.v
theories/UnpackModel.v
theories/UnpackSpec.v
theories/UnpackProofs.v
theories/UnpackExact.v
theories/UnpackOther.v
theories/UnpackProps.v
theories/FlowModel.v
theories/FlowSpec.v
theories/FlowTame.v
theories/FlowProofs.v
theories/FlowCheck.v
theories/FlowWorld.v
theories/FlowProps.v
theories/FlowExact.v
theories/FlowExactProps.v
theories/NarrowModel.v
theories/NarrowSpec.v
theories/NarrowProofs.v
theories/NarrowLen.v
theories/NarrowProps.v
theories/NarrowIsModel.v
theories/NarrowIsSpec.v
theories/NarrowIs.v
theories/NarrowExhausts.v
theories/NarrowIsProps.v
theories/NarrowTruthSpec.v
theories/NarrowTruth.v
theories/NarrowTruthProps.v
theories/NarrowInstanceModel.v
theories/NarrowInstanceSpec.v
theories/NarrowInstance.v
theories/NarrowInstanceProps.v
theories/DataclassModel.v
theories/DataclassSpec.v
theories/Dataclass.v
theories/DataclassProps.v
theories/VersionCheckModel.v
theories/VersionCheckSpec.v
theories/VersionCheck.v
theories/VersionCheckProps.v
theories/ScopeModel.v
theories/ScopeSpec.v
theories/Scope.v
theories/ScopeProps.v
theories/TypedDictModel.v
theories/TypedDictSpec.v
theories/TypedDict.v
theories/TypedDictProps.v
theories/SolveModel.v
theories/SolveSpec.v
theories/Solve.v
theories/SolveCall.v
theories/SolveInstance.v
theories/SolveProps.v
theories/OperatorModel.v
theories/OperatorSpec.v
theories/Operator.v
theories/OperatorChecks.v
theories/OperatorInstance.v
theories/OperatorProps.v
theories/OverlapModel.v
theories/OverlapSpec.v
theories/Overlap.v
theories/OverlapProps.v
theories/AbstractModel.v
theories/AbstractSpec.v
theories/Abstract.v
theories/AbstractProps.v
theories/JoinModel.v
theories/JoinSpec.v
theories/Join.v
theories/JoinProps.v
theories/EnumModel.v
theories/EnumSpec.v
theories/Enum.v
theories/EnumRun.v
theories/EnumCall.v
theories/EnumProps.v
theories/VarianceModel.v
theories/VarianceSpec.v
theories/Variance.v
theories/VarianceClass.v
theories/VarianceProps.v
theories/AutoImportModel.v
theories/AutoImportSpec.v
theories/AutoImport.v
theories/AutoImportProps.v
theories/FileChoiceModel.v
theories/FileChoiceSpec.v
theories/FileChoice.v
theories/FileChoiceProps.v
theories/SignatureModel.v
theories/SignatureSpec.v
theories/Signature.v
theories/SignatureProps.v
theories/RenameModel.v
theories/RenameSpec.v
theories/Rename.v
theories/RenameProps.v
theories/PytestModel.v
theories/PytestSpec.v
theories/Pytest.v
theories/PytestProps.v
theories/NamedTupleModel.v
theories/NamedTupleSpec.v
theories/NamedTuple.v
theories/NamedTupleProps.v
theories/FoldingModel.v
theories/FoldingSpec.v
theories/Folding.v
theories/FoldingProps.v
theories/DataMethodsModel.v
theories/DataMethodsSpec.v
theories/DataMethods.v
theories/DataMethodsProps.v
theories/DataNamesModel.v
theories/DataNamesSpec.v
theories/DataNames.v
theories/DataNamesProps.v
theories/ConfigSearchModel.v
theories/ConfigSearchSpec.v
theories/ConfigSearch.v
theories/ConfigSearchProps.v
