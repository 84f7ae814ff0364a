-Q theories Verif
theories/Outcome.v
theories/Arith.v
theories/MatrixModel.v
theories/StrBase.v
theories/MatrixSpec.v
theories/MatrixFacts.v
theories/MatrixCtor.v
theories/MatrixOps.v
theories/MatrixOps2.v
theories/MatrixReach.v
theories/MatrixPrint.v
theories/Exact.v
theories/MatrixFinal.v
theories/MatrixProps.v
theories/MatrixShape.v
theories/MatrixShapeProps.v
theories/MatrixStateModel.v
theories/MatrixStateProps.v
theories/QcModel.v
theories/QcSpec.v
theories/QcSwap.v
theories/QcBlocks.v
theories/QcUnscramble.v
theories/QcTransfer.v
theories/QcOrder.v
theories/QcExactSpec.v
theories/QcExact.v
theories/QcFinal.v
theories/QcTerm.v
theories/QcProps.v
theories/QcCycleSpec.v
theories/QcCycle.v
theories/QcCycleProps.v
theories/QcShape.v
theories/QcShapeProps.v
theories/StrModel.v
theories/StrSpec.v
theories/StrFacts.v
theories/StrProps.v
theories/ArgsModel.v
theories/ArgsSpec.v
theories/ArgsFacts.v
theories/ArgsProps.v
theories/ParserModel.v
theories/ParserStateModel.v
theories/ParserSpec.v
theories/ParserWf.v
theories/ParserFacts.v
theories/ParserStateWf.v
theories/ParserRun.v
theories/ParserLine.v
theories/ParserEffect.v
theories/ParserRejectSpec.v
theories/ParserReject.v
theories/ParserCheck.v
theories/ParserMore.v
theories/ParserProps.v
theories/ParserUnset.v
theories/CatnipFlags.v
theories/OptionSpec.v
theories/OptionFacts.v
theories/OptionHistory.v
theories/OptionProps.v
theories/OptionExact.v
theories/ListModel.v
theories/ListSpec.v
theories/ListProps.v
theories/ParserRejectProps.v
theories/ParserThrow.v
theories/ParserExit.v
theories/ParserEnds.v
theories/CatnipSpec.v
theories/CatnipFacts.v
theories/CatnipFiles.v
theories/CatnipParams.v
theories/CatnipMore.v
theories/CatnipProps.v
theories/CatnipExact.v
theories/CatnipExactProps.v
theories/HelpSpec.v
theories/HelpProps.v
theories/ReaderModel.v
theories/ReaderSpec.v
theories/ReaderFacts.v
theories/ReaderLog.v
theories/ReaderOverlap.v
theories/ReaderPop.v
theories/ReaderFile.v
theories/ReaderExample.v
theories/ReaderProps.v
theories/ReaderMissingSpec.v
theories/ReaderMissing.v
theories/ReaderSafeSpec.v
theories/ReaderSafe.v
theories/ReaderTables.v
theories/ReaderNames.v
theories/ReaderPun.v
theories/ReaderPunProps.v
theories/ReaderFuel.v
theories/ReaderTrunc.v
theories/ReaderCut.v
theories/ReaderTruncProps.v
theories/ReaderOverlapCut.v
theories/ReaderRetryModel.v
theories/ReaderRetryProps.v
theories/ReaderSafeProps.v
theories/MemFacts.v
theories/MainSafeSpec.v
theories/MemQc.v
theories/MainSafe.v
theories/ReaderAgainProps.v
theories/HeapModel.v
theories/HeapSpec.v
theories/HeapFacts.v
theories/HeapValue.v
theories/HeapProg.v
theories/HeapProps.v
theories/HeapProgProps.v
theories/HeapPtrModel.v
theories/HeapPtrProps.v
theories/FloatModel.v
theories/FloatFormat.v
theories/FloatDigits.v
theories/FloatRound.v
theories/FloatTol.v
theories/FloatProps.v
theories/MainModel.v
theories/MainSpec.v
theories/MainFacts.v
theories/MainRun.v
theories/MainExample.v
theories/MainProps.v
theories/MissingProps.v
theories/OutputSpec.v
theories/OutputFacts.v
theories/OutputExit.v
theories/OutputProps.v
theories/PrintSpec.v
theories/PrintFacts.v
theories/PrintProps.v
theories/RoundSpec.v
theories/RoundFacts.v
theories/RoundProps.v
theories/ScanModel.v
theories/ScanSpec.v
theories/ScanFacts.v
theories/ScanProps.v
theories/DoubleArgSpec.v
theories/DoubleArgProps.v
theories/AccPara.v
theories/AccFin.v
theories/AccSpec.v
theories/AccFacts.v
theories/AccMatch.v
theories/AccCoupling.v
theories/AccJob.v
theories/AccExample.v
theories/AccProps.v
theories/AccReport.v
theories/AccReportProps.v
theories/MainSafeProps.v
theories/PropertyModel.v
theories/PropertySpec.v
theories/PropertyProps.v
theories/AddProps.v
theories/ParserOrderSpec.v
theories/ParserOrder.v
theories/ParserOrderProps.v
theories/ExchangeSpec.v
theories/ExchangeFacts.v
theories/ExchangeRun.v
theories/ExchangeExample.v
theories/ExchangeProps.v
theories/RelistSpec.v
theories/RelistRun.v
theories/RelistProps.v
theories/ParserLast.v
theories/PhaseSpec.v
theories/PhaseRun.v
theories/PhaseFloatSpec.v
theories/PhaseFloat.v
theories/PhaseProps.v
theories/PhaseFloatProps.v
theories/ContentSpec.v
theories/ContentRun.v
theories/ContentProps.v
theories/MixSpec.v
theories/MixRun.v
theories/MixExample.v
theories/MixProps.v
theories/FuelFacts.v
theories/FuelProps.v
theories/LevelsSpec.v
theories/ElementSpec.v
theories/LevelsRun.v
theories/LevelsExample.v
theories/LevelsProps.v
theories/ElementRun.v
theories/ElementExample.v
theories/ElementProps.v
theories/LowdinSpec.v
theories/LowdinRun.v
theories/LowdinExample.v
theories/LowdinProps.v
theories/BasisSpec.v
theories/MoveSpec.v
theories/MoveRun.v
theories/BasisExample.v
theories/BasisProps.v
theories/MoveExample.v
theories/MoveProps.v
theories/RangeSpec.v
theories/RangeRun.v
theories/RangeProps.v
theories/RangeSame.v
theories/RangeExample.v
theories/StableSpec.v
theories/StableRun.v
theories/StableProps.v
theories/GhostSpec.v
theories/GhostRun.v
theories/GhostProps.v
theories/SuperSpec.v
theories/SuperRun.v
theories/SuperProps.v
theories/SymmetrySpec.v
theories/SymmetryExample.v
theories/SymmetryProps.v
