-Q theories Verif
theories/Model/AC.v
theories/Model/Args.v
theories/Model/Averager.v
theories/Model/BestMatch.v
theories/Model/CTW.v
theories/Model/CTWHeap.v
theories/Model/Checks.v
theories/Model/CoinFlip.v
theories/Model/Copies.v
theories/Model/CtwCTW.v
theories/Model/CtwFMN.v
theories/Model/CtwFactorize.v
theories/Model/CtwPTW.v
theories/Model/DataSplitter.v
theories/Model/Dirs.v
theories/Model/Experiments.v
theories/Model/FMN.v
theories/Model/FMNObjects.v
theories/Model/Factored.v
theories/Model/FileEnvironment.v
theories/Model/FileFilters.v
theories/Model/FileNames.v
theories/Model/Float.v
theories/Model/Floats.v
theories/Model/FloatsAC.v
theories/Model/FloatsAny.v
theories/Model/FloatsAverager.v
theories/Model/FloatsFMN.v
theories/Model/Folders.v
theories/Model/Groups.v
theories/Model/Gzip.v
theories/Model/Heap.v
theories/Model/Helpers.v
theories/Model/Iface.v
theories/Model/Jobs.v
theories/Model/KT.v
theories/Model/LearnersAvg.v
theories/Model/LearnersBase.v
theories/Model/LearnersPTW.v
theories/Model/LogData.v
theories/Model/LogFiles.v
theories/Model/LogHeaders.v
theories/Model/ModelFast.v
theories/Model/Nested.v
theories/Model/NumUtils.v
theories/Model/PTW.v
theories/Model/PTWText.v
theories/Model/Params.v
theories/Model/Pomdp.v
theories/Model/PosixPath.v
theories/Model/Protocol.v
theories/Model/Py.v
theories/Model/PyDict.v
theories/Model/PyStr.v
theories/Model/Records.v
theories/Model/Regions.v
theories/Model/Signals.v
theories/Model/SmallHelpers.v
theories/Model/Stores.v
theories/Model/StructLogs.v
theories/Model/Structures.v
theories/Model/Tiles.v
theories/Model/UtilNames.v
theories/Model/Walk.v
theories/Model/Zip.v
theories/Proofs/ACBytes.v
theories/Proofs/ACCoin.v
theories/Proofs/ACDecode.v
theories/Proofs/ACFacts.v
theories/Proofs/ACKT.v
theories/Proofs/ACLast.v
theories/Proofs/ACLength.v
theories/Proofs/ACLossless.v
theories/Proofs/ACModel.v
theories/Proofs/ACOverhead.v
theories/Proofs/ACPrefix.v
theories/Proofs/ACRedundancy.v
theories/Proofs/ACRound.v
theories/Proofs/ACTop.v
theories/Proofs/ACTrack.v
theories/Proofs/ACWaste.v
theories/Proofs/AgreeFacts.v
theories/Proofs/ArgsEx.v
theories/Proofs/ArgsFacts.v
theories/Proofs/ArgsLost.v
theories/Proofs/ArgsMoreFacts.v
theories/Proofs/ArgsNeg.v
theories/Proofs/ArgsRead.v
theories/Proofs/ArgsTop.v
theories/Proofs/AveragerFacts.v
theories/Proofs/AveragerProps.v
theories/Proofs/BestFacts.v
theories/Proofs/BinFacts.v
theories/Proofs/CTWFacts.v
theories/Proofs/CTWFast.v
theories/Proofs/CTWFastKT.v
theories/Proofs/CTWKTFacts.v
theories/Proofs/CTWKTShare.v
theories/Proofs/CTWMixture.v
theories/Proofs/CTWProps.v
theories/Proofs/CTWShare.v
theories/Proofs/CTWShareEx.v
theories/Proofs/CTWTop.v
theories/Proofs/ChecksFacts.v
theories/Proofs/CoinFlipFacts.v
theories/Proofs/CombinedFacts.v
theories/Proofs/CombinedTop.v
theories/Proofs/CombinedTree.v
theories/Proofs/CopiesFacts.v
theories/Proofs/CopiesTop.v
theories/Proofs/CopiesUpdate.v
theories/Proofs/CtwAveragerFacts.v
theories/Proofs/CtwAveragerTop.v
theories/Proofs/CtwCTWFacts.v
theories/Proofs/CtwCTWTop.v
theories/Proofs/CtwFMNFacts.v
theories/Proofs/CtwFMNProps.v
theories/Proofs/CtwFactorizeFacts.v
theories/Proofs/CtwFactorizeTop.v
theories/Proofs/CtwKTFacts.v
theories/Proofs/CtwPTWFacts.v
theories/Proofs/CtwPTWVar.v
theories/Proofs/CtwSADFacts.v
theories/Proofs/DataSplitterFacts.v
theories/Proofs/DictFacts.v
theories/Proofs/DirsFacts.v
theories/Proofs/EquivFacts.v
theories/Proofs/EstimatorProps.v
theories/Proofs/ExperimentsFacts.v
theories/Proofs/ExperimentsModel.v
theories/Proofs/ExperimentsTop.v
theories/Proofs/FMNFacts.v
theories/Proofs/FMNObjectsEx.v
theories/Proofs/FMNObjectsFacts.v
theories/Proofs/FMNObjectsNodes.v
theories/Proofs/FMNObjectsTop.v
theories/Proofs/FMNProps.v
theories/Proofs/FactorsOwn.v
theories/Proofs/FactorsTop.v
theories/Proofs/FileEnvironmentFacts.v
theories/Proofs/FileFiltersFacts.v
theories/Proofs/FileNamesFacts.v
theories/Proofs/FloatsACFacts.v
theories/Proofs/FloatsAnyTop.v
theories/Proofs/FloatsAvgCTW.v
theories/Proofs/FloatsAvgFacts.v
theories/Proofs/FloatsAvgTop.v
theories/Proofs/FloatsCTW.v
theories/Proofs/FloatsCTWAny.v
theories/Proofs/FloatsChop.v
theories/Proofs/FloatsCode.v
theories/Proofs/FloatsCodeTop.v
theories/Proofs/FloatsFMNCode.v
theories/Proofs/FloatsFMNDrift.v
theories/Proofs/FloatsFMNFacts.v
theories/Proofs/FloatsFMNKT.v
theories/Proofs/FloatsFMNTop.v
theories/Proofs/FloatsFacts.v
theories/Proofs/FloatsKTAny.v
theories/Proofs/FloatsNest.v
theories/Proofs/FloatsPTW.v
theories/Proofs/FloatsPTWPredict.v
theories/Proofs/FloatsPTWSteady.v
theories/Proofs/FloatsTracks.v
theories/Proofs/FoldersFacts.v
theories/Proofs/GroupsFacts.v
theories/Proofs/GzipFacts.v
theories/Proofs/HeadersFacts.v
theories/Proofs/HeapEngine.v
theories/Proofs/HeapFacts.v
theories/Proofs/HeapFree.v
theories/Proofs/HeapUpdate.v
theories/Proofs/HeapWorld.v
theories/Proofs/HelpersFacts.v
theories/Proofs/JobLogs.v
theories/Proofs/JobsEx.v
theories/Proofs/JobsFacts.v
theories/Proofs/JobsMore.v
theories/Proofs/KTAny.v
theories/Proofs/KTBinFacts.v
theories/Proofs/KTFacts.v
theories/Proofs/KTRedundancy.v
theories/Proofs/LearnEst.v
theories/Proofs/LearnFloats.v
theories/Proofs/LearnOwn.v
theories/Proofs/LearnOwnTop.v
theories/Proofs/LearnOwnTracks.v
theories/Proofs/LearnTop.v
theories/Proofs/LearnersAvgFacts.v
theories/Proofs/LearnersBaseFacts.v
theories/Proofs/LearnersKTFacts.v
theories/Proofs/LearnersPTWFacts.v
theories/Proofs/LeavesTop.v
theories/Proofs/LnBounds.v
theories/Proofs/LogDataFacts.v
theories/Proofs/LogEx.v
theories/Proofs/LogFilesEx.v
theories/Proofs/LogFilesFacts.v
theories/Proofs/LogHeadersFacts.v
theories/Proofs/LogSave.v
theories/Proofs/LogsumexpFacts.v
theories/Proofs/MembersTop.v
theories/Proofs/NearestFacts.v
theories/Proofs/NestedFacts.v
theories/Proofs/NestedNeg.v
theories/Proofs/NestedRead.v
theories/Proofs/NestedTop.v
theories/Proofs/NumUtilsFacts.v
theories/Proofs/ObjectFacts.v
theories/Proofs/PTWFacts.v
theories/Proofs/PTWMap.v
theories/Proofs/PTWMapTop.v
theories/Proofs/PTWMixture.v
theories/Proofs/PTWNorm.v
theories/Proofs/PTWPredict.v
theories/Proofs/PTWProps.v
theories/Proofs/PTWTextFacts.v
theories/Proofs/PTWTop.v
theories/Proofs/ParamsFacts.v
theories/Proofs/PathFacts.v
theories/Proofs/PomdpCTW.v
theories/Proofs/PomdpFacts.v
theories/Proofs/ProbFacts.v
theories/Proofs/ProtocolFacts.v
theories/Proofs/PyFacts.v
theories/Proofs/RealFacts.v
theories/Proofs/RecordsBuild.v
theories/Proofs/RecordsEx.v
theories/Proofs/RecordsFacts.v
theories/Proofs/RegionsFacts.v
theories/Proofs/SADClosed.v
theories/Proofs/SADFacts.v
theories/Proofs/SADRedundancy.v
theories/Proofs/SeqFacts.v
theories/Proofs/SignalFacts.v
theories/Proofs/SizesCTW.v
theories/Proofs/SizesCTWKT.v
theories/Proofs/SizesEx.v
theories/Proofs/SizesFMN.v
theories/Proofs/SizesFacts.v
theories/Proofs/SmallHelpersFacts.v
theories/Proofs/SourceCTW.v
theories/Proofs/SourceFacts.v
theories/Proofs/SourceProps.v
theories/Proofs/StoreFacts.v
theories/Proofs/StrFacts.v
theories/Proofs/StructLogsExt.v
theories/Proofs/StructLogsFacts.v
theories/Proofs/StructLogsTop.v
theories/Proofs/StructuresFacts.v
theories/Proofs/StructuresMore.v
theories/Proofs/StructuresNeg.v
theories/Proofs/StructuresRead.v
theories/Proofs/StructuresTop.v
theories/Proofs/TilesFacts.v
theories/Proofs/TypesFacts.v
theories/Proofs/UniformFacts.v
theories/Proofs/UtilNamesFacts.v
theories/Proofs/WalkFacts.v
theories/Proofs/ZipFacts.v
theories/Proofs/ZipModels.v
theories/Proofs/ZipRuns.v
theories/Proofs/ZipTop.v
theories/Props/C01.v
theories/Props/C02.v
theories/Props/C03.v
theories/Props/C04.v
theories/Props/C05.v
theories/Props/C06.v
theories/Props/C07.v
theories/Props/C08.v
theories/Props/C09.v
theories/Props/C10.v
theories/Props/C100.v
theories/Props/C101.v
theories/Props/C102.v
theories/Props/C103.v
theories/Props/C104.v
theories/Props/C105.v
theories/Props/C106.v
theories/Props/C107.v
theories/Props/C108.v
theories/Props/C109.v
theories/Props/C11.v
theories/Props/C110.v
theories/Props/C111.v
theories/Props/C112.v
theories/Props/C113.v
theories/Props/C114.v
theories/Props/C115.v
theories/Props/C12.v
theories/Props/C13.v
theories/Props/C14.v
theories/Props/C15.v
theories/Props/C16.v
theories/Props/C17.v
theories/Props/C18.v
theories/Props/C19.v
theories/Props/C20.v
theories/Props/C21.v
theories/Props/C22.v
theories/Props/C23.v
theories/Props/C24.v
theories/Props/C25.v
theories/Props/C26.v
theories/Props/C27.v
theories/Props/C28.v
theories/Props/C29.v
theories/Props/C30.v
theories/Props/C31.v
theories/Props/C32.v
theories/Props/C33.v
theories/Props/C34.v
theories/Props/C35.v
theories/Props/C36.v
theories/Props/C37.v
theories/Props/C38.v
theories/Props/C39.v
theories/Props/C40.v
theories/Props/C41.v
theories/Props/C42.v
theories/Props/C43.v
theories/Props/C44.v
theories/Props/C45.v
theories/Props/C46.v
theories/Props/C47.v
theories/Props/C48.v
theories/Props/C49.v
theories/Props/C50.v
theories/Props/C51.v
theories/Props/C52.v
theories/Props/C53.v
theories/Props/C54.v
theories/Props/C55.v
theories/Props/C56.v
theories/Props/C57.v
theories/Props/C58.v
theories/Props/C59.v
theories/Props/C60.v
theories/Props/C61.v
theories/Props/C62.v
theories/Props/C63.v
theories/Props/C64.v
theories/Props/C65.v
theories/Props/C66.v
theories/Props/C67.v
theories/Props/C68.v
theories/Props/C69.v
theories/Props/C70.v
theories/Props/C71.v
theories/Props/C72.v
theories/Props/C73.v
theories/Props/C74.v
theories/Props/C75.v
theories/Props/C76.v
theories/Props/C77.v
theories/Props/C78.v
theories/Props/C79.v
theories/Props/C80.v
theories/Props/C81.v
theories/Props/C82.v
theories/Props/C83.v
theories/Props/C84.v
theories/Props/C85.v
theories/Props/C86.v
theories/Props/C87.v
theories/Props/C88.v
theories/Props/C89.v
theories/Props/C90.v
theories/Props/C91.v
theories/Props/C92.v
theories/Props/C93.v
theories/Props/C94.v
theories/Props/C95.v
theories/Props/C96.v
theories/Props/C97.v
theories/Props/C98.v
theories/Props/C99.v
theories/Spec/ACSpec.v
theories/Spec/ArgsSpec.v
theories/Spec/BestSpec.v
theories/Spec/CTWSpec.v
theories/Spec/ChecksSpec.v
theories/Spec/CoinFlip.v
theories/Spec/CombinedSpec.v
theories/Spec/CopiesSpec.v
theories/Spec/CtwFMNSpec.v
theories/Spec/CtwFactorizeSpec.v
theories/Spec/CtwSpec.v
theories/Spec/DataSplitter.v
theories/Spec/DirsSpec.v
theories/Spec/Equiv.v
theories/Spec/ExperimentsSpec.v
theories/Spec/FMNObjectsSpec.v
theories/Spec/FMNSpec.v
theories/Spec/FactorsSpec.v
theories/Spec/FileEnvironment.v
theories/Spec/FileFilters.v
theories/Spec/FileNames.v
theories/Spec/FloatsACSpec.v
theories/Spec/FloatsAnySpec.v
theories/Spec/FloatsAvgSpec.v
theories/Spec/FloatsCodeSpec.v
theories/Spec/FloatsFMNSpec.v
theories/Spec/FloatsNestSpec.v
theories/Spec/FloatsSpec.v
theories/Spec/FoldersSpec.v
theories/Spec/GroupsSpec.v
theories/Spec/GzipSpec.v
theories/Spec/HeadersSpec.v
theories/Spec/JobsSpec.v
theories/Spec/KTSpec.v
theories/Spec/LearnSpec.v
theories/Spec/LearnersBaseSpec.v
theories/Spec/LeavesSpec.v
theories/Spec/LogFilesSpec.v
theories/Spec/LogSpec.v
theories/Spec/MemorylessSpec.v
theories/Spec/NestedSpec.v
theories/Spec/NumSpec.v
theories/Spec/Objects.v
theories/Spec/Ops.v
theories/Spec/PTWMapSpec.v
theories/Spec/PTWSpec.v
theories/Spec/PTWTextSpec.v
theories/Spec/PomdpSpec.v
theories/Spec/Prob.v
theories/Spec/RecordsSpec.v
theories/Spec/Regions.v
theories/Spec/SeqSpec.v
theories/Spec/Sizes.v
theories/Spec/SizesKT.v
theories/Spec/SmallHelpers.v
theories/Spec/SourceSpec.v
theories/Spec/StructLogsSpec.v
theories/Spec/StructureSpec.v
theories/Spec/Structures.v
theories/Spec/Tiles.v
theories/Spec/UtilNames.v
theories/Spec/WalkSpec.v
theories/Spec/ZipSpec.v
