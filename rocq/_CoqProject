-Q theories Verif
theories/Py.v
theories/Tensor.v
theories/Parsing.v
theories/Recipe.v
theories/Ops.v
theories/Backends.v
theories/ListFacts.v
theories/TensorFacts.v
theories/SpecSem.v
theories/SpecGrammar.v
theories/SpecPattern.v
theories/Api.v
theories/Compile.v
theories/StepFacts.v
theories/ParseFacts.v
theories/ParseFacts2.v
theories/ParseFacts3.v
theories/RecipeFacts.v
theories/InferFacts.v
theories/ApplyFacts.v
theories/FrontFacts.v
theories/FrontFacts2.v
theories/SpecOps.v
theories/FrontFacts3.v
theories/MainFacts.v
theories/MainFacts2.v
theories/ReduceFacts.v
theories/MainFacts3.v
theories/CallFacts.v
theories/RelabelFacts.v
theories/Laws.v
theories/ApiFacts.v
theories/ApiFacts2.v
theories/ApiFacts3.v
theories/ApiFacts4.v
theories/ApiFacts5.v
theories/ApiFacts6.v
theories/SpecForms.v
theories/ParseLaws.v
theories/RelabelLaws.v
theories/UnitLaws.v
theories/RedFacts.v
theories/SpecPacking.v
theories/Packing.v
theories/PackFacts.v
theories/PackFacts2.v
theories/PackFacts3.v
theories/PackFacts4.v
theories/PackFacts5.v
theories/Symbolic.v
theories/SymFacts.v
theories/SymFacts2.v
theories/SpecEinsum.v
theories/Einsum.v
theories/EinsumFacts.v
theories/EinsumFacts2.v
theories/EinsumFacts3.v
theories/EinsumFacts4.v
theories/SpecOptimize.v
theories/Optimize.v
theories/OptFacts.v
theories/OptFacts2.v
theories/Registry.v
theories/SpecRegistry.v
theories/RegistryFacts.v
theories/Cache.v
theories/CacheFacts.v
theories/Layers.v
theories/SpecLayers.v
theories/LayerFacts.v
theories/EinMix.v
theories/SpecEinMix.v
theories/MixFacts.v
theories/MixFacts2.v
theories/MixFacts3.v
theories/MixFacts4.v
theories/MixFacts5.v
theories/MixFacts6.v
theories/MixFacts7.v
theories/MixFacts8.v
theories/MixFacts9.v
theories/MixFacts10.v
theories/Threads.v
theories/SpecThreads.v
theories/ThreadFacts.v
theories/CacheThreads.v
theories/CacheThreadFacts.v
theories/Instances.v
theories/PropRearrange.v
theories/PropReduce.v
theories/PropCalls.v
theories/PropBackends.v
theories/PropParse.v
theories/PropLabels.v
theories/PropPacking.v
theories/PropSymbolic.v
theories/PropEinsum.v
theories/PropOptimize.v
theories/PropRegistry.v
theories/PropThreads.v
theories/PropCache.v
theories/PropCacheThreads.v
theories/PropLayers.v
theories/PropEinMix.v
theories/Laws2.v
theories/ApiFacts7.v
theories/PropStages.v
theories/SpecShape.v
theories/ShapeLaws.v
theories/PropShape.v
theories/PackLaws.v
theories/PackLaws2.v
theories/PropPackLaws.v
theories/EinsumLaws.v
theories/PropEinsumLaws.v
theories/SpecCalls.v
theories/CallsFacts.v
theories/PropLibCalls.v
theories/SymPacking.v
theories/SymPackFacts.v
theories/SymPackFacts2.v
theories/PropSymPacking.v
theories/Heap.v
theories/HeapFacts.v
theories/PropHeap.v
theories/SpecElements.v
theories/ElementFacts.v
theories/PropElements.v
theories/SpecBatch.v
theories/BatchFacts.v
theories/PropBatch.v
theories/SpecProducts.v
theories/EinsumLaws2.v
theories/EinsumLaws3.v
theories/PropProducts.v
theories/Texts.v
theories/SpecTexts.v
theories/TextFacts.v
theories/PropTexts.v
theories/SymLayers.v
theories/SymLayerFacts.v
theories/PropSymLayers.v
theories/Flax.v
theories/FlaxFacts.v
theories/PropFlax.v
theories/TestBase.v
theories/TestParsing.v
theories/TestOps.v
theories/TestGraphs.v
theories/TestPacking.v
theories/TestEinsum.v
theories/TestLayers.v
theories/TestExamples.v
theories/Warnings.v
theories/SpecWarnings.v
theories/WarnFacts.v
theories/PropWarnings.v
theories/SpecAdjoint.v
theories/AdjointFacts.v
theories/PropAdjoint.v
theories/SpecEquivalents.v
theories/EquivalentFacts.v
theories/PropEquivalents.v
theories/Messages.v
theories/SpecMessages.v
theories/MessageFacts.v
theories/MessageFacts2.v
theories/MessageFacts3.v
theories/MessageFacts4.v
theories/PropMessages.v
theories/Unasserted.v
theories/UnassertedFacts.v
theories/PropAsserts.v
theories/Complaints.v
theories/SpecComplaints.v
theories/ComplaintFacts.v
theories/ComplaintFacts2.v
theories/ComplaintFacts3.v
theories/PropComplaints.v
theories/LayerMessages.v
theories/SpecLayerMessages.v
theories/LayerMessageFacts.v
theories/LayerMessageFacts2.v
theories/LayerMessageFacts3.v
theories/LayerMessageFacts4.v
theories/PropLayerMessages.v
theories/Strides.v
theories/SpecStrides.v
theories/StrideFacts.v
theories/StrideFacts2.v
theories/StrideFacts3.v
theories/StrideFacts4.v
theories/StrideFacts5.v
theories/PropStrides.v
theories/EinsumLaws4.v
theories/PropContraction.v
theories/Dtypes.v
theories/SpecDtypes.v
theories/DtypeFacts.v
theories/PropDtypes.v
theories/SpecLabels.v
theories/LabelFacts.v
theories/MixLaws.v
theories/PropNames.v
theories/SpecLinear.v
theories/MixLaws2.v
theories/PropLinear.v
theories/SpecSpelling.v
theories/SpellingFacts.v
theories/PropSpelling.v
theories/GradFacts.v
theories/GradFacts2.v
theories/GradFacts3.v
theories/PropGradient.v
theories/Session.v
theories/SpecSession.v
theories/SessionFacts.v
theories/PropSession.v
theories/SpecBatches.v
theories/EinsumBatch.v
theories/PackBatch.v
theories/MixBatch.v
theories/PropBatches.v
theories/EinsumAlike.v
theories/PropRings.v
theories/SpecInitial.v
theories/Initial.v
theories/InitialFacts.v
theories/InitialCases.v
theories/PropInitial.v
theories/SpecDistinct.v
theories/DistinctFacts.v
theories/DistinctFacts2.v
theories/DistinctFacts3.v
theories/PropDistinct.v
theories/LayerMemory.v
theories/SpecLayerMemory.v
theories/LayerMemoryFacts.v
theories/LayerMemoryFacts2.v
theories/LayerMemoryFacts3.v
theories/PropLayerMemory.v
theories/NormalFacts.v
theories/NormalFacts2.v
theories/NormalFacts3.v
theories/NormalFacts4.v
theories/NormalFacts5.v
theories/PropNormal.v
theories/LayerWarnings.v
theories/SpecLayerWarnings.v
theories/LayerWarnFacts.v
theories/LayerWarnFacts2.v
theories/LayerWarnFacts3.v
theories/LayerWarnFacts4.v
theories/PropLayerWarnings.v
theories/Crowd.v
theories/SpecCrowd.v
theories/CrowdFacts.v
theories/CrowdFacts2.v
theories/CrowdFacts3.v
theories/CrowdFacts4.v
theories/CrowdFacts5.v
theories/PropCrowd.v
theories/SpecWording.v
theories/WordFacts.v
theories/PropWording.v
theories/MixSession.v
theories/SpecMixSession.v
theories/MixSessionFacts.v
theories/PropMixSession.v
theories/SpecPackStages.v
theories/PackStages.v
theories/UnpackStages.v
theories/PropPackStages.v
theories/Work.v
theories/SpecWork.v
theories/WorkFacts.v
theories/WorkFacts2.v
theories/WorkFacts3.v
theories/WorkFacts4.v
theories/WorkFacts5.v
theories/PropWork.v
theories/Footprint.v
theories/SpecFootprint.v
theories/FootprintFacts.v
theories/FootprintShapes.v
theories/PropFootprint.v
theories/Dynamo.v
theories/SpecDynamo.v
theories/DynamoFacts.v
theories/PropDynamo.v
theories/Team.v
theories/SpecTeam.v
theories/TeamFacts.v
theories/PropTeam.v
theories/MixTeam.v
theories/SpecMixTeam.v
theories/MixTeamFacts.v
theories/PropMixTeam.v
theories/NumpyInts.v
theories/NumpyIntFacts.v
theories/NumpyIntFacts2.v
theories/NumpyIntFacts3.v
theories/NumpyIntLayers.v
theories/NumpyIntLayerFacts.v
theories/NumpyIntMix.v
theories/NumpyIntMixFacts.v
theories/NumpyIntCases.v
theories/PropNumpyInts.v
theories/ReduceOrder.v
theories/SpecMixGrad.v
theories/MixGradFacts.v
theories/PropMixGrad.v
theories/SpecMixFuse.v
theories/MixFuseFacts.v
theories/MixFuseFacts2.v
theories/MixFuseFacts3.v
theories/PropMixFuse.v
theories/GraphProg.v
theories/SpecGraphProg.v
theories/GraphProgFacts.v
theories/PropGraphProg.v
theories/Selection.v
theories/SpecSelection.v
theories/SelectionFacts.v
theories/PropSelection.v
theories/SpecDocumented.v
theories/DocumentedFacts.v
theories/DocumentedFacts2.v
theories/DocumentedFacts3.v
theories/PropDocumented.v
theories/SpecTurned.v
theories/MixMoveFacts.v
theories/TurnedFacts.v
theories/PropMoved.v
theories/SumAfterFacts.v
theories/MixSumFacts.v
theories/PropSums.v
theories/LayerDtypes.v
theories/SpecLayerDtypes.v
theories/LayerDtypeFacts.v
theories/PropLayerDtypes.v
theories/SpecWidened.v
theories/RepeatDropFacts.v
theories/WidenedFacts.v
theories/PropWidened.v
theories/Debugger.v
theories/SpecDebugger.v
theories/DebuggerFacts.v
theories/PropDebugger.v
theories/LayerFootprint.v
theories/SpecLayerFootprint.v
theories/LayerFootprintFacts.v
theories/LayerFootprintFacts2.v
theories/SpecRank.v
theories/MixShapes.v
theories/PropLayerFootprint.v
theories/ChunkFacts.v
theories/MixChunks.v
theories/SpecChunks.v
theories/EinsumChunks.v
theories/PackChunks.v
theories/PropChunks.v
theories/SpecSelect.v
theories/SelectFacts.v
theories/PackSelect.v
theories/PropSelect.v
theories/SpecEmpty.v
theories/BatchEmpty.v
theories/BatchEmptyMix.v
theories/EinsumEmpty.v
theories/ChunkEmpty.v
theories/ChunkEmptyMix.v
theories/EinsumChunksAll.v
theories/PropEmpty.v
theories/RankFacts.v
theories/PropRank.v
theories/PackEmpty.v
theories/PackChunksAll.v
theories/PropPackEmpty.v
theories/Abstract.v
theories/AbstractFacts.v
theories/PropAbstract.v
