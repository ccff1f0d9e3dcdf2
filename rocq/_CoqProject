-Q theories Verif
theories/AesModel.v
theories/AesProofs.v
theories/AnalysisProofs.v
theories/AndersonCdf.v
theories/AndersonError.v
theories/AndersonFix.v
theories/AndersonPoly.v
theories/AndersonProofs.v
theories/AndersonReal.v
theories/Base.v
theories/BatteryModel.v
theories/BatteryProofs.v
theories/BatterySpec.v
theories/BatteryUse.v
theories/BetaLarge.v
theories/BetaModel.v
theories/BetaProofs.v
theories/BetaSpec.v
theories/BetaTests.v
theories/BinomProofs.v
theories/BinomValue.v
theories/BitVectorModel.v
theories/BitVectorProofs.v
theories/BitVectorSpec.v
theories/BitwiseModel.v
theories/BitwiseProofs.v
theories/BitwiseSpec.v
theories/Collect2Proofs.v
theories/Collect3Proofs.v
theories/CollectModel.v
theories/CollectProofs.v
theories/CollectSpec.v
theories/CommandModel.v
theories/CommandProofs.v
theories/CommandSpec.v
theories/ConfigModel.v
theories/ConfigProofs.v
theories/ConfigSpec.v
theories/CorrCount.v
theories/CorrKendall.v
theories/CorrModel.v
theories/CorrPearson.v
theories/CorrPearson2.v
theories/CorrPearson3.v
theories/CorrProofs.v
theories/CorrSpearman.v
theories/CorrSpec.v
theories/CorrTest.v
theories/CouponFloatProofs.v
theories/CouponModel.v
theories/CouponProofs.v
theories/CouponSpec.v
theories/DetectDiv.v
theories/DetectGens.v
theories/DetectProofs.v
theories/DetectSpec.v
theories/DetectTool.v
theories/DetectVerdict.v
theories/DistGamma.v
theories/DistInst.v
theories/DistLarge.v
theories/DistLentz.v
theories/DistModel.v
theories/DistProofs.v
theories/DistReal.v
theories/DistReal2.v
theories/DistSeries.v
theories/DistSpec.v
theories/EngineModel.v
theories/EngineTool.v
theories/ErrorSpec.v
theories/EvalProofs.v
theories/EvaluateModel.v
theories/EvaluateSpec.v
theories/FermatPrime.v
theories/FermatProofs.v
theories/FilesModel.v
theories/FilesProofs.v
theories/FisherProofs.v
theories/FloatLemmas.v
theories/FloatModel.v
theories/FormatModel.v
theories/FormatProofs.v
theories/FormatSpec.v
theories/GProofs.v
theories/HistProofs.v
theories/InspectProofs.v
theories/InspectProofs2.v
theories/JobsModel.v
theories/JobsProofs.v
theories/KsProofs.v
theories/LfsrCount.v
theories/LfsrModel.v
theories/LfsrProofs.v
theories/LfsrSpec.v
theories/LfsrStats.v
theories/LibInst.v
theories/LimitProofs.v
theories/LinearProofs.v
theories/MinstdProofs.v
theories/MixerModel.v
theories/MixerProofs.v
theories/MixerSpec.v
theories/MtProofs.v
theories/OtherInst.v
theories/OtherModel.v
theories/OtherSpec.v
theories/Period128.v
theories/Period128Gens.v
theories/Period128Use.v
theories/PeriodProofs.v
theories/PrngModel.v
theories/PrngProofs.v
theories/PrngSpec.v
theories/Prop_Aes.v
theories/Prop_Anderson.v
theories/Prop_Beta.v
theories/Prop_Binomial.v
theories/Prop_BitVector.v
theories/Prop_Bitwise.v
theories/Prop_Collect.v
theories/Prop_Commands.v
theories/Prop_Config.v
theories/Prop_Corr.v
theories/Prop_Detect.v
theories/Prop_Dist.v
theories/Prop_Engines.v
theories/Prop_Evaluate.v
theories/Prop_Files.v
theories/Prop_Fisher.v
theories/Prop_Format.v
theories/Prop_GTest.v
theories/Prop_Jobs.v
theories/Prop_Lfsr.v
theories/Prop_Mixers.v
theories/Prop_Prngs.v
theories/Prop_Rank.v
theories/Prop_Search.v
theories/Prop_Seeds.v
theories/Prop_Setup.v
theories/Prop_Stats.v
theories/Prop_Stirling.v
theories/Prop_Streams.v
theories/Prop_Tests.v
theories/Prop_Text.v
theories/ProtocolProofs.v
theories/RankBridge.v
theories/RankCount.v
theories/RankModel.v
theories/RankMx.v
theories/RankProb.v
theories/RankProofs.v
theories/RankSpec.v
theories/RankStats.v
theories/RankTop.v
theories/RecurrenceProofs.v
theories/ReportProofs.v
theories/RescaleProofs.v
theories/ResultModel.v
theories/ResultProofs.v
theories/ResultSpec.v
theories/SearchModel.v
theories/SearchProofs.v
theories/SeedModel.v
theories/SeedProofs.v
theories/SerialProofs.v
theories/SetupProofs.v
theories/StatFormulas.v
theories/StatsModel.v
theories/StatsProofs.v
theories/StatsSpec.v
theories/StirlingModel.v
theories/StirlingProofs.v
theories/StirlingSpec.v
theories/StreamModel.v
theories/StreamProofs.v
theories/StreamSpec.v
theories/StrengthProofs.v
theories/TableProofs.v
theories/TestsAval.v
theories/TestsCoupon.v
theories/TestsDiv.v
theories/TestsGap.v
theories/TestsInst.v
theories/TestsMeaning.v
theories/TestsModel.v
theories/TestsPerm.v
theories/TestsProofs.v
theories/TestsRank.v
theories/TestsSerial.v
theories/TestsSpec.v
theories/TestsUniform.v
theories/TextModel.v
theories/TextProofs.v
theories/TextSpec.v
theories/WordBij.v
theories/WordLemmas.v
