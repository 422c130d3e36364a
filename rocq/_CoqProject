-Q theories Verif
theories/Base.v
theories/BaseFacts.v
theories/Components.v
theories/SampleGraph.v
theories/SampleSet.v
theories/SampleSpace.v
theories/RelationGraph.v
theories/Activation.v
theories/Spec.v
theories/GraphFacts.v
theories/BuilderFacts.v
theories/HistoryFacts.v
theories/QueryFacts.v
theories/BfsFacts.v
theories/Examples.v
theories/PropsGraph.v
theories/SpecSets.v
theories/SetFacts.v
theories/MultiFacts.v
theories/MatchFacts.v
theories/GroupFacts.v
theories/ExamplesSets.v
theories/PropsSets.v
theories/SpecSpace.v
theories/SpaceFacts.v
theories/FoldFacts.v
theories/FactorFacts.v
theories/PropsSpace.v
theories/SpecRel.v
theories/BuildFacts.v
theories/OdoFacts.v
theories/GenFacts.v
theories/UniformFacts.v
theories/Experiments.v
theories/CountFacts.v
theories/PowerFacts.v
theories/PropsRel.v
theories/SpecAct.v
theories/ActFacts.v
theories/PropsAct.v
theories/SpecJoin.v
theories/JoinFacts.v
theories/ClusterFacts.v
theories/JoinOnFacts.v
theories/JoinedFacts.v
theories/CondJoinFacts.v
theories/PropsJoin.v
theories/Provider.v
theories/ProviderFacts.v
theories/Hash.v
theories/HashFacts.v
theories/PropsCore.v
theories/Heap.v
theories/HeapFacts.v
theories/PropsHeap.v
theories/Text.v
theories/TextFacts.v
theories/SpecText.v
theories/PropsText.v
theories/Floats.v
theories/SpecFloats.v
theories/FloatFacts.v
theories/FloatSumFacts.v
theories/PropsFloat.v
theories/SpecSep.v
theories/SepFacts.v
theories/PropsSep.v
theories/SpecNet.v
theories/NetFacts.v
theories/Nets.v
theories/SpecScripts.v
theories/NetNames.v
theories/NetBuild.v
theories/NetInfer.v
theories/MarkovFacts.v
theories/StarBuild.v
theories/BayesFacts.v
theories/BayesBuild.v
theories/NetDist.v
theories/BayesJoint.v
theories/SpecStages.v
theories/StageFacts.v
theories/BayesInfer.v
theories/MarkovInfer.v
theories/NetChecks.v
theories/NetFloats.v
theories/PropsNet.v
theories/HashVars.v
theories/HashVarsFacts.v
theories/FoldEq.v
theories/PropsVars.v
theories/SpecProb.v
theories/ProbFacts.v
theories/PropsProb.v
theories/ActFloats.v
theories/MapOrder.v
theories/SpecActFloat.v
theories/ActFloatFacts.v
theories/ActFloatMain.v
theories/ActColor.v
theories/PropsActFloat.v
theories/DemoBase.v
theories/Pacman.v
theories/SpecPacman.v
theories/DemoGridFacts.v
theories/PacmanMove.v
theories/PacmanStep.v
theories/PacmanInv.v
theories/PacmanLayout.v
theories/PacmanGame.v
theories/PacmanScore.v
theories/DemoPack.v
theories/PacmanExamples.v
theories/PacmanMain.v
theories/PropsPacman.v
theories/Draw.v
theories/SpecDraw.v
theories/DrawFacts.v
theories/DrawSample.v
theories/DrawOutcomes.v
theories/DrawVars.v
theories/DrawMain.v
theories/PropsDraw.v
theories/Subgraphs.v
theories/SpecSubgraphs.v
theories/SubgraphFacts.v
theories/Coins.v
theories/SpecCoins.v
theories/CoinFacts.v
theories/PropsToys.v
theories/Agents.v
theories/SpecAgents.v
theories/AgentFacts.v
theories/AgentMain.v
theories/PropsAgents.v
theories/Util.v
theories/SpecUtil.v
theories/UtilFacts.v
theories/CounterFacts.v
theories/MatrixFacts.v
theories/PropsUtil.v
theories/GameHeap.v
theories/SpecGameHeap.v
theories/GameHeapFacts.v
theories/GameHeapWrites.v
theories/GameHeapExamples.v
theories/PropsGameHeap.v
theories/RepoTests.v
theories/RepoTestsSets.v
theories/RepoTestsJoin.v
theories/BuilderMore.v
theories/PropsBuilder.v
theories/Depth.v
theories/DepthFacts.v
theories/Manual.v
theories/SpecManual.v
theories/ManualFacts.v
theories/PropsManual.v
theories/DepthJoin.v
theories/DepthJoinFacts.v
theories/DepthJoinMain.v
theories/DepthJoinLimit.v
theories/DepthChain.v
theories/PropsDepth.v
theories/SpecElim.v
theories/ElimFacts.v
theories/PropsElim.v
theories/Sampling.v
theories/SpecSampling.v
theories/SamplingFacts.v
theories/SamplingShares.v
theories/SamplingMain.v
theories/PropsSampling.v
