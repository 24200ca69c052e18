-Q theories Verif
theories/GoBase.v
theories/Utf8.v
theories/Utf8Facts.v
theories/Dict.v
theories/Lattice.v
theories/Token.v
theories/Tokenizer.v
theories/SpecTok.v
theories/SpecOut.v
theories/BuildFacts.v
theories/ForwardFacts.v
theories/PathFacts.v
theories/TokFacts.v
theories/AnalyzeFacts.v
theories/Check.v
theories/SpecFeat.v
theories/TokenFacts.v
theories/Example.v
theories/SaturationFacts.v
theories/LimitFacts.v
theories/RefuteTok.v
theories/ExtendedAny.v
theories/PropertiesTok.v
theories/PropertiesToken.v
theories/Filter.v
theories/SpecFilter.v
theories/FilterFacts.v
theories/FilterMore.v
theories/FilterText.v
theories/PropertiesFilter.v
theories/Scanner.v
theories/Splitter.v
theories/SpecSent.v
theories/ScannerFacts.v
theories/SplitterFacts.v
theories/SentenceFacts.v
theories/SpaceFacts.v
theories/ChunkFacts.v
theories/LoaderFacts.v
theories/Assets.v
theories/SpecLucene.v
theories/LuceneFacts.v
theories/SentenceRuns.v
theories/PropertiesSentence.v
theories/Dot.v
theories/SpecDot.v
theories/DotFacts.v
theories/DotSyntax.v
theories/DotRuns.v
theories/SpecRead.v
theories/DotRead.v
theories/PropertiesDot.v
theories/Heap.v
theories/HeapSound.v
theories/HeapFacts.v
theories/SpecHeap.v
theories/HeapDot.v
theories/HeapProps.v
theories/PropertiesHeap.v
theories/Json.v
theories/SpecJson.v
theories/JsonFacts.v
theories/Flag.v
theories/Cmd.v
theories/SpecCmd.v
theories/FlagFacts.v
theories/OptFacts.v
theories/CmdFacts.v
theories/CmdRuns.v
theories/CmdMore.v
theories/CmdMain.v
theories/CmdExamples.v
theories/PropertiesCmd.v
theories/Server.v
theories/SpecServer.v
theories/ServerFacts.v
theories/InertFacts.v
theories/PropertiesServer.v
theories/PropertiesLucene.v
theories/Text.v
theories/SpecText.v
theories/TextFacts.v
theories/PropertiesText.v
theories/Help.v
theories/SpecHelp.v
theories/HelpFacts.v
theories/FaultFacts.v
theories/PropertiesHelp.v
theories/SpecTie.v
theories/TieFacts.v
theories/DefaultSplit.v
theories/PropertiesTie.v
theories/SpecSplit.v
theories/AnySplit.v
theories/PropertiesSplit.v
theories/ServerHeap.v
theories/SpecServing.v
theories/HeapAny.v
theories/ServingFacts.v
theories/LatticeUse.v
theories/SpecUse.v
theories/ForwardAgain.v
theories/UseFacts.v
theories/HeapRun.v
theories/UseCases.v
theories/PropertiesUse.v
theories/Recover.v
theories/SpecRecover.v
theories/WreckFacts.v
theories/WreckDot.v
theories/EndsFacts.v
theories/RecoverFacts.v
theories/PropertiesRecover.v
theories/Page.v
theories/SpecHtml.v
theories/SpecPage.v
theories/PageFacts.v
theories/PageRuns.v
theories/PropertiesPage.v
theories/Route.v
theories/SpecRoute.v
theories/RouteFacts.v
theories/PropertiesRoute.v
theories/Work.v
theories/SpecWork.v
theories/WorkFacts.v
theories/PropertiesWork.v
theories/Live.v
theories/SpecLive.v
theories/LiveFacts.v
theories/LiveRuns.v
theories/PropertiesLive.v
theories/SpecLocal.v
theories/LocalFacts.v
theories/LocalRuns.v
theories/PropertiesLocal.v
theories/SpecCost.v
theories/CostFacts.v
theories/CostRuns.v
theories/PropertiesCost.v
theories/Samples.v
theories/SpecSamples.v
theories/SampleFacts.v
theories/PropertiesSamples.v
theories/LatticeText.v
theories/SpecLatticeText.v
theories/OnceFacts.v
theories/LatticeTextFacts.v
theories/PropertiesLatticeText.v
theories/Writes.v
theories/SpecWrites.v
theories/WriteFacts.v
theories/PropertiesWrites.v
theories/Form.v
theories/SpecForm.v
theories/FormFacts.v
theories/FormRuns.v
theories/PropertiesForm.v
theories/Decode.v
theories/SpecDecode.v
theories/DecodeFacts.v
theories/DecodeSound.v
theories/DecodeRuns.v
theories/DecodeValue.v
theories/DecodeAll.v
theories/DecodeContract.v
theories/DecodeErrors.v
theories/DecodeServe.v
theories/PropertiesDecode.v
theories/SpecRequest.v
theories/RequestFacts.v
theories/PropertiesRequest.v
theories/Stream.v
theories/SpecStream.v
theories/StreamFacts.v
theories/PropertiesStream.v
theories/Slices.v
theories/SpecSlices.v
theories/SlicesFacts.v
theories/PropertiesSlices.v
theories/SpecMode.v
theories/ModeFacts.v
theories/PropertiesMode.v
theories/Inplace.v
theories/SpecInplace.v
theories/InplaceFacts.v
theories/PropertiesInplace.v
theories/SpecCuts.v
theories/ValidCuts.v
theories/PropertiesCuts.v
theories/SpecPipe.v
theories/PipeFacts.v
theories/PropertiesPipe.v
theories/SpecAgain.v
theories/AgainFacts.v
theories/SpecAgainCmd.v
theories/AgainCmd.v
theories/PropertiesAgain.v
theories/SpecAgree.v
theories/AgreeFacts.v
theories/PropertiesAgree.v
theories/RepoTests.v
theories/SpecShrink.v
theories/ShrinkFacts.v
theories/PropertiesShrink.v
theories/SpecCat.v
theories/CatFacts.v
theories/PropertiesCat.v
theories/SpecForced.v
theories/ForcedFacts.v
theories/PropertiesForced.v
theories/SpecPrice.v
theories/PriceFacts.v
theories/PropertiesPrice.v
theories/SpecPast.v
theories/PastFacts.v
theories/PropertiesPast.v
theories/SpecGauge.v
theories/GaugeFacts.v
theories/PropertiesGauge.v
theories/SplitWork.v
theories/SplitWorkFacts.v
theories/PropertiesSplitWork.v
theories/SpecAlike.v
theories/AlikeFacts.v
theories/PropertiesAlike.v
theories/DrawSize.v
theories/PropertiesDraw.v
theories/SpecRenumber.v
theories/RenumberFacts.v
theories/PropertiesRenumber.v
theories/SpecChain.v
theories/ChainFacts.v
theories/PropertiesChain.v
theories/RenumberDraw.v
theories/PropertiesRenumberDraw.v
theories/SpecQuota.v
theories/QuotaFacts.v
theories/QuotaText.v
theories/QuotaPeak.v
theories/PropertiesQuota.v
theories/QuotaBusy.v
theories/SpecRules.v
theories/FilterWork.v
theories/RulesFacts.v
theories/PropertiesRules.v
theories/SpecLong.v
theories/LongFacts.v
theories/PropertiesLong.v
theories/CmdWork.v
theories/CmdJsonWork.v
theories/PropertiesCmdWork.v
theories/SpecSoon.v
theories/SoonFacts.v
theories/PropertiesSoon.v
theories/ApiWork.v
theories/ApiBody.v
theories/PropertiesApiWork.v
theories/PageWork.v
theories/PropertiesPageWork.v
