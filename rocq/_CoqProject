-Q theories Verif
theories/Model/Tree.v
theories/Model/Unroll.v
theories/Model/Batch.v
theories/Model/Float.v
theories/Model/Modules.v
theories/Model/Ewm.v
theories/Spec/TreeSpec.v
theories/Spec/BatchSpec.v
theories/Proofs/ListFacts.v
theories/Proofs/UnrollProofs.v
theories/Proofs/TreeProofs.v
theories/Proofs/BatchProofs.v
theories/Proofs/UnrollExtra.v
theories/Proofs/FloatFacts.v
theories/Proofs/RunFacts.v
theories/Proofs/BufferProofs.v
theories/Spec/SeriesSpec.v
theories/Spec/EwmSpec.v
theories/Spec/CovSpec.v
theories/Proofs/EwmFacts.v
theories/Proofs/EwmProofs.v
theories/Proofs/EwmExtra.v
theories/Proofs/EwmvarProofs.v
theories/Proofs/EwmcovProofs.v
theories/Proofs/NumbaProofs.v
theories/Proofs/EwmExamples.v
theories/Proofs/SmallProofs.v
theories/Proofs/SmallExtra.v
theories/Props/PUnroll.v
theories/Props/PModules.v
theories/Props/PEwm.v
theories/Model/Masks.v
theories/Model/Dynamics.v
theories/Spec/MaskSpec.v
theories/Spec/DynSpec.v
theories/Proofs/MaskProofs.v
theories/Proofs/DynProofs.v
theories/Proofs/DynProofs2.v
theories/Props/PDyn.v
theories/Model/Newton.v
theories/Spec/NewtonSpec.v
theories/Proofs/NewtonProofs.v
theories/Model/Optim.v
theories/Proofs/OptimProofs.v
theories/Props/POptim.v
theories/Model/Encode.v
theories/Proofs/EncodeProofs.v
theories/Props/PEncode.v
theories/Model/Stream.v
theories/Spec/StreamSpec.v
theories/Proofs/StreamProofs.v
theories/Proofs/StreamTrace.v
theories/Props/PStream.v
theories/Model/Gym.v
theories/Spec/GymSpec.v
theories/Proofs/GymProofs.v
theories/Proofs/GymProofs2.v
theories/Props/PGym.v
theories/Model/Format.v
theories/Spec/FormatSpec.v
theories/Proofs/FormatProofs.v
theories/Props/PFormat.v
theories/Model/FlaxModules.v
theories/Spec/FlaxSpec.v
theories/Proofs/FlaxProofs.v
theories/Props/PFlax.v
theories/Model/FlaxCore.v
theories/Model/Compressed.v
theories/Spec/FlaxCoreSpec.v
theories/Spec/CompressedSpec.v
theories/Proofs/FlaxCoreProofs.v
theories/Proofs/HsmProofs.v
theories/Proofs/HsmProofs2.v
theories/Proofs/FlaxCoreProofs2.v
theories/Proofs/FlaxCoreProofs3.v
theories/Proofs/CompressedProofs.v
theories/Proofs/CompressedProofs2.v
theories/Proofs/CompressedProofs3.v
theories/Props/PFlaxCore.v
theories/Props/PCompressed.v
theories/Proofs/EwmcovExtra.v
theories/Model/FlaxMore.v
theories/Spec/FlaxMoreSpec.v
theories/Proofs/FlaxMoreProofs.v
theories/Proofs/FlaxMaskProofs.v
theories/Props/PFlaxMore.v
theories/Model/FlaxOptim.v
theories/Spec/FlaxOptimSpec.v
theories/Proofs/FlaxOptimProofs.v
theories/Proofs/FlaxOptimProofs2.v
theories/Proofs/FlaxOptimProofs3.v
theories/Props/PFlaxOptim.v
theories/Model/Debug.v
theories/Spec/DebugSpec.v
theories/Proofs/DebugProofs.v
theories/Proofs/DebugProofs2.v
theories/Proofs/DebugProofs3.v
theories/Proofs/DebugProofs4.v
theories/Proofs/DebugProofs5.v
theories/Props/PDebug.v
theories/Spec/OptimSpec.v
theories/Model/Accessors.v
theories/Spec/AccessorSpec.v
theories/Proofs/AccessorProofs.v
theories/Proofs/AccessorProofs2.v
theories/Proofs/AccessorProofs3.v
theories/Proofs/AccessorProofs4.v
theories/Proofs/AccessorProofs5.v
theories/Proofs/AccessorProofs6.v
theories/Proofs/AccessorProofs7.v
theories/Proofs/AccessorProofs8.v
theories/Props/PAccessors.v
theories/Model/Learner.v
theories/Spec/LearnerSpec.v
theories/Proofs/LearnerProofs.v
theories/Props/PLearner.v
theories/Model/UnrollMore.v
theories/Proofs/UnrollMoreProofs.v
theories/Props/PUnrollMore.v
theories/Model/FlaxDecor.v
theories/Proofs/FlaxDecorProofs.v
theories/Proofs/FlaxDecorProofs2.v
theories/Props/PFlaxDecor.v
theories/Proofs/DebugProofs6.v
theories/Proofs/AccessorProofs9.v
theories/Model/Graph.v
theories/Spec/GraphSpec.v
theories/Proofs/GraphProofs.v
theories/Proofs/GraphProofs2.v
theories/Proofs/GraphProofs3.v
theories/Proofs/GraphProofs4.v
theories/Proofs/GraphProofs5.v
theories/Proofs/GraphProofs6.v
theories/Proofs/GraphProofs7.v
theories/Props/PGraph.v
theories/Model/Viz.v
theories/Spec/VizSpec.v
theories/Proofs/VizProofs.v
theories/Proofs/VizProofs2.v
theories/Proofs/VizProofs3.v
theories/Props/PViz.v
theories/Model/Summary.v
theories/Spec/SummarySpec.v
theories/Proofs/SummaryProofs.v
theories/Proofs/SummaryProofs2.v
theories/Proofs/SummaryProofs3.v
theories/Props/PSummary.v
theories/Model/Compositions.v
theories/Spec/CompositionSpec.v
theories/Proofs/CompositionProofs.v
theories/Proofs/CompositionProofs2.v
theories/Proofs/CompositionProofs3.v
theories/Props/PCompositions.v
theories/Model/Rounded.v
theories/Spec/RoundSpec.v
theories/Proofs/RoundProofs.v
theories/Proofs/RoundProofs2.v
theories/Proofs/RoundProofs3.v
theories/Proofs/RoundProofs4.v
theories/Proofs/RoundProofs5.v
theories/Proofs/RoundProofs6.v
theories/Proofs/RoundProofs7.v
theories/Props/PRounded.v
theories/Spec/AnalysisSpec.v
theories/Proofs/AnalysisProofs.v
theories/Proofs/AnalysisProofs2.v
theories/Proofs/AnalysisProofs3.v
theories/Proofs/AnalysisProofs4.v
theories/Proofs/AnalysisProofs5.v
theories/Proofs/AnalysisProofs6.v
theories/Props/PAnalysis.v
theories/Model/Schema.v
theories/Spec/SchemaSpec.v
theories/Proofs/SchemaProofs.v
theories/Proofs/SchemaProofs2.v
theories/Proofs/SchemaProofs3.v
theories/Proofs/SchemaProofs4.v
theories/Props/PSchema.v
theories/Model/Demos.v
theories/Spec/DemoSpec.v
theories/Proofs/DemoProofs.v
theories/Proofs/DemoProofs2.v
theories/Proofs/DemoProofs3.v
theories/Props/PDemos.v
theories/Proofs/AnalysisProofs7.v
theories/Model/Split.v
theories/Spec/SplitSpec.v
theories/Proofs/SplitProofs.v
theories/Proofs/SplitProofs2.v
theories/Props/PSplit.v
theories/Proofs/DebugProofs7.v
theories/Model/Testing.v
theories/Spec/TestingSpec.v
theories/Proofs/TestingProofs.v
theories/Props/PTesting.v
theories/Spec/PortfolioSpec.v
theories/Proofs/PortfolioProofs.v
theories/Proofs/PortfolioProofs2.v
theories/Props/PPortfolio.v
theories/Model/Dot.v
theories/Spec/DotSpec.v
theories/Proofs/DotProofs.v
theories/Proofs/DotProofs2.v
theories/Proofs/DotProofs3.v
theories/Props/PDot.v
theories/Props/PWitness.v
theories/Spec/AlgebraSpec.v
theories/Proofs/AlgebraProofs.v
theories/Proofs/AlgebraProofs2.v
theories/Proofs/AlgebraProofs3.v
theories/Proofs/AlgebraExamples.v
theories/Props/PAlgebra.v
theories/Model/Progress.v
theories/Model/TreeLag.v
theories/Model/Variables.v
theories/Spec/MiscSpec.v
theories/Proofs/GymProofs3.v
theories/Proofs/TreeLagProofs.v
theories/Proofs/VariablesProofs.v
theories/Props/PMisc.v
theories/Model/EventNames.v
theories/Spec/EventNamesSpec.v
theories/Proofs/EventNamesProofs.v
theories/Props/PEventNames.v
theories/Model/Predictors.v
theories/Spec/PredictorSpec.v
theories/Proofs/PredictorProofs.v
theories/Proofs/PredictorProofs2.v
theories/Props/PPredictors.v
theories/Spec/MaskAlgebraSpec.v
theories/Proofs/MaskAlgebraProofs.v
theories/Props/PMaskAlgebra.v
theories/Spec/AnyOrderSpec.v
theories/Proofs/AnyOrderProofs.v
theories/Props/PAnyOrder.v
theories/Proofs/DotProofs4.v
theories/Proofs/RoundProofs8.v
theories/Proofs/RoundProofs9.v
theories/Proofs/RoundProofs10.v
theories/Proofs/RoundProofs11.v
theories/Proofs/RoundProofs12.v
theories/Proofs/RoundProofs13.v
theories/Props/PRounded2.v
theories/Model/RoundedNumba.v
theories/Spec/EwmModesSpec.v
theories/Proofs/RoundProofs14.v
theories/Proofs/RoundProofs15.v
theories/Proofs/RoundProofs16.v
theories/Proofs/RoundProofs17.v
theories/Props/PRounded3.v
theories/Model/GraphDocs.v
theories/Spec/GraphDocsSpec.v
theories/Proofs/GraphDocsProofs.v
theories/Proofs/GraphDocsProofs2.v
theories/Props/PGraphDocs.v
theories/Model/RoundedFlax.v
theories/Spec/RoundFlaxSpec.v
theories/Proofs/RoundFlaxProofs.v
theories/Proofs/RoundFlaxProofs2.v
theories/Props/PRoundedFlax.v
theories/Model/Panels.v
theories/Spec/PanelSpec.v
theories/Proofs/PanelProofs.v
theories/Proofs/PanelProofs2.v
theories/Props/PPanels.v
theories/Model/Reports.v
theories/Spec/ReportSpec.v
theories/Proofs/ReportProofs.v
theories/Proofs/ReportProofs2.v
theories/Proofs/ReportProofs3.v
theories/Props/PReports.v
theories/Model/FlowPlot.v
theories/Spec/FlowPlotSpec.v
theories/Proofs/FlowPlotProofs.v
theories/Props/PFlowPlot.v
theories/Spec/AnalyzerSpec.v
theories/Model/AnalyzerSession.v
theories/Proofs/AnalyzerProofs.v
theories/Props/PAnalyzer.v
theories/Model/FlaxApplyMask.v
theories/Spec/FlaxApplyMaskSpec.v
theories/Proofs/FlaxApplyMaskProofs.v
theories/Proofs/FlaxApplyMaskProofs2.v
theories/Props/PFlaxApplyMask.v
theories/Spec/StateMemSpec.v
theories/Proofs/StateMemProofs.v
theories/Props/PStateMem.v
theories/Model/GraphText.v
theories/Spec/GraphTextSpec.v
theories/Proofs/GraphTextProofs.v
theories/Props/PGraphText.v
theories/Model/GraphHtml.v
theories/Spec/GraphHtmlSpec.v
theories/Proofs/GraphHtmlProofs.v
theories/Props/PGraphHtml.v
theories/Model/GraphDraw.v
theories/Proofs/GraphDrawProofs.v
theories/Props/PGraphDraw.v
