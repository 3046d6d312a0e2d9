-Q theories Verif
theories/Base.v
theories/Bytes.v
theories/HopperModel.v
theories/ArrayDefs.v
theories/GclSpec.v
theories/HopperProofs.v
theories/GclProofs.v
theories/ArrayProofs.v
theories/VectorModel.v
theories/VectorProofs.v
theories/UnaryModel.v
theories/UnaryProofs.v
theories/AnswerProofs.v
theories/HopperWitness.v
theories/PropsHopper.v
theories/QueryModel.v
theories/QuerySpec.v
theories/QueryProofs.v
theories/QuerySem.v
theories/OptProofs.v
theories/ParseProofs.v
theories/PhraseProofs.v
theories/QueryWitness.v
theories/PropsQuery.v
theories/CodecModel.v
theories/CodecSpec.v
theories/CodecProofs.v
theories/BitsProofs.v
theories/PropsCodec.v
theories/PostingModel.v
theories/PostingSpec.v
theories/PostingProofs.v
theories/AnnProofs.v
theories/PostingIO.v
theories/PostingWitness.v
theories/PropsPosting.v
theories/ShardModel.v
theories/ShardSpec.v
theories/ShardProofs.v
theories/ShardQuery.v
theories/ShardWitness.v
theories/PropsShard.v
theories/TokenModel.v
theories/TokenSpec.v
theories/TokenProofs.v
theories/LexProofs.v
theories/LexWords.v
theories/TextModel.v
theories/TextSpec.v
theories/TextProofs.v
theories/DraftProofs.v
theories/TextStore.v
theories/TextBack.v
theories/TextMerge.v
theories/TextShards.v
theories/TextIndex.v
theories/TextCount.v
theories/TextWitness.v
theories/PropsToken.v
theories/PropsText.v
theories/FeatModel.v
theories/FeatSpec.v
theories/FeatProofs.v
theories/PropsFeat.v
theories/NameModel.v
theories/NameSpec.v
theories/NameProofs.v
theories/RecoverProofs.v
theories/RecoverAll.v
theories/NameWitness.v
theories/PropsName.v
theories/StoreModel.v
theories/StoreDir.v
theories/StoreSpec.v
theories/StoreInv.v
theories/StoreFacts.v
theories/StoreClone.v
theories/StoreCommit.v
theories/StoreJob.v
theories/StoreMerge.v
theories/StoreInstall.v
theories/StoreDown.v
theories/StoreOpen.v
theories/StoreMain.v
theories/StoreHist.v
theories/StoreTop.v
theories/StoreAddr.v
theories/StoreWitness.v
theories/StoreShards.v
theories/PropsStore.v
theories/SchedModel.v
theories/SchedSpec.v
theories/SchedProofs.v
theories/SchedStore.v
theories/SchedWitness.v
theories/PropsSched.v
theories/CommitModel.v
theories/CommitSpec.v
theories/CommitProofs.v
theories/CommitWitness.v
theories/PropsCommit.v
theories/RecipeModel.v
theories/RecipeSpec.v
theories/RecipeProofs.v
theories/RecipeDna.v
theories/RecipeExact.v
theories/RecipeWitness.v
theories/PropsRecipe.v
theories/HazelModel.v
theories/HazelSpec.v
theories/HazelProofs.v
theories/HazelSources.v
theories/HazelLoop.v
theories/HazelMerge.v
theories/HazelWitness.v
theories/PropsHazel.v
theories/FileModel.v
theories/FileSpec.v
theories/FileProofs.v
theories/FileWitness.v
theories/PropsFile.v
theories/LexCut.v
theories/HazelText.v
theories/HazelWrite.v
theories/OwslaModel.v
theories/OwslaSpec.v
theories/OwslaIdx.v
theories/OwslaFile.v
theories/OwslaText.v
theories/OwslaLater.v
theories/OwslaLife.v
theories/OwslaWitness.v
theories/PropsOwsla.v
theories/Utf8Table.v
theories/Utf8Model.v
theories/Utf8Spec.v
theories/Utf8Proofs.v
theories/Utf8Laws.v
theories/Utf8Words.v
theories/Utf8Witness.v
theories/PropsUtf8.v
theories/JsonModel.v
theories/JsonSpec.v
theories/JsonBack.v
theories/JsonStore.v
theories/JsonRead.v
theories/JsonUtf8.v
theories/JsonInput.v
theories/JsonWitness.v
theories/JsonTxtModel.v
theories/PropsJson.v
theories/SingleModel.v
theories/SingleSpec.v
theories/SingleLookup.v
theories/SingleMerge.v
theories/SingleBatch.v
theories/SingleCommit.v
theories/SingleLife.v
theories/SingleWitness.v
theories/PropsSingle.v
theories/ChunkModel.v
theories/ChunkSpec.v
theories/ChunkFiles.v
theories/ChunkProofs.v
theories/ChunkOps.v
theories/ChunkLife.v
theories/ChunkStep.v
theories/ChunkTop.v
theories/ChunkWitness.v
theories/PropsChunk.v
theories/PlainModel.v
theories/PlainSpec.v
theories/PlainRead.v
theories/PlainWrite.v
theories/PlainLife.v
theories/PlainTop.v
theories/PlainRange.v
theories/PlainWitness.v
theories/PropsPlain.v
theories/CacheModel.v
theories/CacheSpec.v
theories/CacheInv.v
theories/CacheSteps.v
theories/CacheThreads.v
theories/CacheAll.v
theories/CacheLive.v
theories/CacheView.v
theories/CacheViewProofs.v
theories/GateModel.v
theories/GateSpec.v
theories/GateProofs.v
theories/ObtainModel.v
theories/ObtainSpec.v
theories/ObtainProofs.v
theories/CacheViewSpec.v
theories/CacheWitness.v
theories/PropsCache.v
theories/BuildModel.v
theories/BuildSpec.v
theories/BuildMerge.v
theories/BuildBatch.v
theories/BuildProofs.v
theories/BuildTop.v
theories/BuildWitness.v
theories/PropsBuild.v
theories/RankModel.v
theories/RankSpec.v
theories/RankProofs.v
theories/RankSsr.v
theories/RankParallel.v
theories/RankFuse.v
theories/RankDocs.v
theories/RankWand.v
theories/RankTop.v
theories/RankWitness.v
theories/PropsRank.v
theories/StatsModel.v
theories/StatsHopper.v
theories/StatsSpec.v
theories/StatsProofs.v
theories/StatsTop.v
theories/StatsRange.v
theories/StatsWitness.v
theories/PropsStats.v
theories/InfixModel.v
theories/InfixSpec.v
theories/InfixProofs.v
theories/InfixParse.v
theories/InfixTop.v
theories/InfixWitness.v
theories/PropsInfix.v
theories/PorterModel.v
theories/PorterSpec.v
theories/PorterProofs.v
theories/PorterSteps.v
theories/PorterTop.v
theories/PorterWitness.v
theories/PropsPorter.v
theories/StatsSum.v
theories/ForagerModel.v
theories/ForagerSpec.v
theories/ForagerProofs.v
theories/PropsForager.v
theories/TsvModel.v
theories/TsvSpec.v
theories/TsvSplit.v
theories/TsvProofs.v
theories/TsvIndex.v
theories/TsvMore.v
theories/TsvFinal.v
theories/TsvWitness.v
theories/PropsTsv.v
theories/JsonlModel.v
theories/JsonlSpec.v
theories/JsonlProofs.v
theories/PropsJsonl.v
theories/ForageModel.v
theories/ForageSpec.v
theories/ForageProofs.v
theories/ForageTop.v
theories/ForageRun.v
theories/ForageFinal.v
theories/ForageWitness.v
theories/PropsForage.v
theories/FastidModel.v
theories/FastidProofs.v
theories/FastidWitness.v
theories/PropsFastid.v
theories/AlreadyModel.v
theories/AlreadyProofs.v
theories/PropsAlready.v
theories/RankerModel.v
theories/RankerSpec.v
theories/RankerProofs.v
theories/RankerText.v
theories/RankerFeed.v
theories/RankerFinal.v
theories/RankerWitness.v
theories/PropsRanker.v
theories/TrecModel.v
theories/TrecProofs.v
theories/TrecFinal.v
theories/PropsTrec.v
theories/EvalModel.v
theories/EvalSpec.v
theories/EvalProofs.v
theories/EvalGain.v
theories/EvalFinal.v
theories/EvalMore.v
theories/EvalMed.v
theories/EvalLoad.v
theories/EvalQrels.v
theories/EvalWitness.v
theories/PropsEval.v
theories/WorkModel.v
theories/WorkSpec.v
theories/WorkProofs.v
theories/SortModel.v
theories/SortSpec.v
theories/SortProofs.v
theories/PropsWork.v
theories/BuilderModel.v
theories/BuilderSpec.v
theories/BuilderProofs.v
theories/PropsBuilder.v
theories/TextCrashModel.v
theories/TextCrashSpec.v
theories/TextCrashProofs.v
theories/TextCrashTop.v
theories/WarrenCrashSpec.v
theories/WarrenCrashProofs.v
theories/TextCrashWitness.v
theories/PropsCrash.v
theories/FieldModel.v
theories/FieldSpec.v
theories/FieldHopper.v
theories/FieldMade.v
theories/FieldLoop.v
theories/FieldTop.v
theories/FieldChoose.v
theories/FieldWitness.v
theories/PropsField.v
theories/IdfModel.v
theories/IdfSpec.v
theories/IdfProofs.v
theories/IdfWitness.v
theories/PropsIdf.v
theories/TierModel.v
theories/TierSpec.v
theories/TierParse.v
theories/TierProofs.v
theories/TierSem.v
theories/TierTop.v
theories/TierWitness.v
theories/PropsTier.v
theories/IcoverModel.v
theories/IcoverSpec.v
theories/IcoverProofs.v
theories/IcoverRound.v
theories/IcoverTop.v
theories/IcoverWitness.v
theories/PropsIcover.v
theories/RandomModel.v
theories/RandomSpec.v
theories/RandomProofs.v
theories/PropsRandom.v
theories/QapModel.v
theories/QapSpec.v
theories/QapProofs.v
theories/QapTop.v
theories/PropsQap.v
theories/QaModel.v
theories/QaSpec.v
theories/QaProofs.v
theories/QaWitness.v
theories/PropsQa.v
theories/MakeModel.v
theories/MakeSpec.v
theories/MakeProofs.v
theories/MakeWitness.v
theories/PropsMake.v
theories/OpenModel.v
theories/OpenSpec.v
theories/OpenProofs.v
theories/OpenWitness.v
theories/PropsOpen.v
theories/ChoiceModel.v
theories/ChoiceSpec.v
theories/ChoiceProofs.v
theories/ChoiceWitness.v
theories/PropsChoice.v
theories/OptionsModel.v
theories/OptionsSpec.v
theories/OptionsProofs.v
theories/OptionsWitness.v
theories/PropsOptions.v
