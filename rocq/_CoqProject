-Q theories Verif
theories/Prelude.v
theories/Bytes.v
theories/Base64.v
theories/Utils.v
theories/BinInput.v
theories/Bleaching.v
theories/Ram.v
theories/Float32.v
theories/Json.v
theories/Fs.v
theories/RamData.v
theories/Disc.v
theories/DataSet.v
theories/Wisard.v
theories/SpecBase64.v
theories/SpecBin.v
theories/Base64Proofs.v
theories/DecodeProofs.v
theories/BytesProofs.v
theories/BinProofs.v
theories/UtilsProofs.v
theories/TextProofs.v
theories/RamDataProofs.v
theories/BinAnyProofs.v
theories/HandleProofs.v
theories/SpecDataSet.v
theories/DataSetProofs.v
theories/DataFacts.v
theories/PropsData.v
theories/SpecDisc.v
theories/DiscCtorProofs.v
theories/CtorFacts.v
theories/JsonNF.v
theories/RamProofs.v
theories/PropsCtor.v
theories/DiscProofs.v
theories/MentalProofs.v
theories/MentalHistory.v
theories/DiscFacts.v
theories/PropsDisc.v
theories/SpecBleach.v
theories/BleachProofs.v
theories/PropsBleach.v
theories/SpecWisard.v
theories/WisardProofs.v
theories/WisardFacts.v
theories/WisardSafety.v
theories/WisardMore.v
theories/PropsWisard.v
theories/SpecSaved.v
theories/JsonProofs.v
theories/JsonFacts.v
theories/WisardJson.v
theories/WisardSaved.v
theories/PropsJson.v
theories/Cluster.v
theories/ClusWisard.v
theories/FloatSign.v
theories/SpecCluster.v
theories/ClusterProofs.v
theories/ScoreProofs.v
theories/PropsCluster.v
theories/SpecClus.v
theories/ClusProofs.v
theories/ClusMore.v
theories/SpecLaw.v
theories/ClusterLaw.v
theories/ClusUnsup.v
theories/ClusMental.v
theories/PropsClusMental.v
theories/ClusIso.v
theories/PropsClusIso.v
theories/SpecTwin.v
theories/ClusOne.v
theories/PropsClusOne.v
theories/LeaveOut.v
theories/PropsLeave.v
theories/PropsClus.v
theories/SpecClusSaved.v
theories/ClusJson.v
theories/ClusSaved.v
theories/PropsClusJson.v
theories/Synth.v
theories/PropsSynth.v
theories/Kernel.v
theories/SpecKernel.v
theories/KernelFloat.v
theories/KernelProofs.v
theories/KernelReals.v
theories/KernelDir.v
theories/KernelSort.v
theories/PropsKernel.v
theories/Wrapper.v
theories/SpecWrapper.v
theories/WrapperProofs.v
theories/WrapperReals.v
theories/ClusCounts.v
theories/PropsWrapper.v
theories/HandleFile.v
theories/PropsHandle.v
theories/Options.v
theories/SpecOptions.v
theories/OptionsProofs.v
theories/OptionsJson.v
theories/OptionsFacts.v
theories/PropsOptions.v
theories/Sizes.v
theories/SpecSizes.v
theories/SizesProofs.v
theories/SizesClus.v
theories/PropsSizes.v
theories/PropsGuards.v
theories/Grisu.v
theories/GrisuSpec.v
theories/GrisuProofs.v
theories/FloatConv.v
theories/JsonText.v
theories/TextString.v
theories/TextNumber.v
theories/TextParse.v
theories/TextTotal.v
theories/TextPrefix.v
theories/TextApi.v
theories/SpecText.v
theories/Nearest.v
theories/SpecUtf8.v
theories/Utf8Proofs.v
theories/TextApiProofs.v
theories/ParseValues.v
theories/LabelProofs.v
theories/TextFacts.v
theories/PropsText.v
theories/PropsGrisu.v
theories/PropsUtf8.v
theories/BBleaching.v
theories/SpecBBleach.v
theories/BBleachProofs.v
theories/PropsBBleach.v
theories/SpecReload.v
theories/ReloadTotal.v
theories/PropsReload.v
theories/Crash.v
theories/SpecCrash.v
theories/CrashProofs.v
theories/PropsCrash.v
theories/SpecDecode.v
theories/DecodeIff.v
theories/PropsDecode.v
theories/Heap.v
theories/HeapProofs.v
theories/HeapSafe.v
theories/PropsHeap.v
theories/PropsMissing.v
theories/Rand.v
theories/RandProofs.v
theories/RandSave.v
theories/PropsRand.v
theories/SpecJsonOptions.v
theories/JsonOptionsProofs.v
theories/TidyProofs.v
theories/PropsJsonOptions.v
theories/PropsBatch.v
theories/Recall.v
theories/Repeat.v
theories/PropsRecall.v
theories/SpecRename.v
theories/Rename.v
theories/PropsRename.v
theories/SpecMove.v
theories/Move.v
theories/PropsMove.v
theories/KernelDead.v
theories/KernelSpread.v
theories/PropsSpread.v
theories/SpecClusOrder.v
theories/ClusOrder.v
theories/PropsClusOrder.v
theories/SpecWiring.v
theories/Wiring.v
theories/PropsWiring.v
theories/Verbose.v
theories/SpecVerbose.v
theories/VerboseProofs.v
theories/VerboseSemi.v
theories/SpecReporting.v
theories/Reporting.v
theories/PropsVerbose.v
theories/SpecCanon.v
theories/Canon.v
theories/PropsCanon.v
theories/SpecGrammar.v
theories/GrammarLex.v
theories/GrammarProofs.v
theories/GrammarSound.v
theories/PropsGrammar.v
theories/Pipeline.v
theories/PropsPipeline.v
theories/PropsExact.v
theories/SaveTwice.v
theories/PropsSaveTwice.v
theories/SpecMental.v
theories/MentalWide.v
theories/PropsWide.v
theories/SaveOver.v
theories/PropsSaveOver.v
theories/SpecAlias.v
theories/PropsAlias.v
theories/SpecRecode.v
theories/Recode.v
theories/PropsRecode.v
theories/SpecValues.v
theories/ValueSim.v
theories/ClusRename.v
theories/WisRename.v
theories/PropsRename2.v
theories/PropsKernelExact.v
theories/SpecReinforce.v
theories/Reinforce.v
theories/PropsReinforce.v
theories/ClusRecall.v
theories/PropsClusRecall.v
theories/SpecLimit.v
theories/Limit.v
theories/PropsLimit.v
theories/PropsPortions.v
theories/PropsCanvasWisard.v
theories/SpecClusRename.v
theories/ClusLabels.v
theories/PropsClusRename.v
theories/SpecMoveRandom.v
theories/MoveSim.v
theories/MoveLockstep.v
theories/PropsMoveRandom.v
theories/SpecOrder.v
theories/PropsOrder.v
theories/SpecNumber.v
theories/PropsNumber.v
theories/SpecNear.v
theories/Near.v
theories/PropsNear.v
theories/SpecOnly.v
theories/PropsOnly.v
theories/SpecUnread.v
theories/PropsUnread.v
theories/PropsDamage.v
theories/PropsClusLimit.v
theories/PropsBleachWisard.v
theories/PropsConfidence.v
theories/PropsLoaded.v
theories/PropsComplete.v
theories/PropsAdd.v
theories/ClusDamage.v
theories/PropsClusDamage.v
theories/PropsDominate.v
theories/PropsThreads.v
theories/PropsBounded.v
theories/PropsCopies.v
theories/PropsUnknown.v
theories/PropsDict.v
theories/PropsDefined.v
theories/PropsClusDefined.v
theories/PropsDefinedMental.v
theories/PropsDefinedSaved.v
theories/PropsSessions.v
theories/PropsClusSessions.v
theories/PropsSavedExact.v
theories/PropsDiscSessions.v
theories/PropsDiscDefined.v
theories/PropsDiscHuge.v
theories/PropsFileSessions.v
