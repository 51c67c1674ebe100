-Q theories Verif
theories/Base/StrMap.v
theories/Base/Num.v
theories/Base/NumQc.v
theories/Base/NumB64.v
theories/Model/Core.v
theories/Model/Ops.v
theories/Model/Graph.v
theories/Model/Composite.v
theories/Model/Make.v
theories/Model/Run.v
theories/Spec/Streams.v
theories/Spec/Operators.v
theories/Spec/Multi.v
theories/Proofs/Lists.v
theories/Proofs/FieldFacts.v
theories/Proofs/Window.v
theories/Proofs/Basic.v
theories/Proofs/Ports.v
theories/Proofs/InputP.v
theories/Proofs/Fire.v
theories/Proofs/AutoReg.v
theories/Proofs/MovAvgB64.v
theories/Spec/Show.v
theories/Properties/Single.v
theories/Properties/SingleB64.v
theories/Spec/Resample.v
theories/Spec/Fit.v
theories/Spec/Interp.v
theories/Proofs/Iter.v
theories/Proofs/Resample.v
theories/Proofs/HermiteP.v
theories/Proofs/HermiteFirst.v
theories/Proofs/FunctionP.v
theories/Properties/Resampling.v
theories/Properties/Hermite.v
theories/Spec/Variable.v
theories/Proofs/VariableP.v
theories/Properties/Variable.v
theories/Spec/Join.v
theories/Proofs/JoinP.v
theories/Proofs/JoinRun.v
theories/Proofs/JoinKinds.v
theories/Proofs/JoinOrder.v
theories/Proofs/Rounds.v
theories/Proofs/Prompt.v
theories/Proofs/Sync.v
theories/Proofs/OutputP.v
theories/Proofs/Settled.v
theories/Proofs/Dataflow.v
theories/Proofs/Credit.v
theories/Properties/Join.v
theories/Properties/JoinB64.v
theories/Spec/Demux.v
theories/Proofs/DemuxP.v
theories/Properties/Demux.v
theories/Spec/RSI.v
theories/Proofs/RSIP.v
theories/Properties/RSI.v
theories/Spec/Shape.v
theories/Spec/Log.v
theories/Spec/Depth.v
theories/Proofs/ShapeP.v
theories/Proofs/Merge.v
theories/Proofs/LogP.v
theories/Proofs/LogRun.v
theories/Proofs/LogBal.v
theories/Proofs/DepthP.v
theories/Proofs/LogProg.v
theories/Proofs/Untouched.v
theories/Proofs/Fuel.v
theories/Spec/Filter.v
theories/Proofs/FilterP.v
theories/Spec/Build.v
theories/Proofs/BatchP.v
theories/Proofs/MakeP.v
theories/Proofs/Loop.v
theories/Proofs/Spin.v
theories/Properties/Graph.v
theories/Spec/Preserving.v
theories/Proofs/Conns.v
theories/Proofs/Monotone.v
theories/Proofs/Monotone2.v
theories/Proofs/Increasing.v
theories/Properties/Order.v
theories/Model/Codec.v
theories/Spec/Snapshot.v
theories/Proofs/CodecP.v
theories/Proofs/HeapRel.v
theories/Proofs/Tidy.v
theories/Proofs/Restored.v
theories/Proofs/Fits.v
theories/Properties/Snapshot.v
theories/Base/NumInt.v
theories/Base/NumTrunc.v
theories/Base/NumCount.v
theories/Model/Json.v
theories/Spec/Definition.v
theories/Proofs/JsonP.v
theories/Properties/Definition.v
theories/Model/Factory.v
theories/Spec/Manager.v
theories/Proofs/FactoryP.v
theories/Properties/Manager.v
theories/Proofs/Junk.v
theories/Spec/Bounds.v
theories/Spec/Pipeline.v
theories/Spec/Composite.v
theories/Spec/Forest.v
theories/Spec/Reliable.v
theories/Model/Schema.v
theories/Spec/Schema.v
theories/Proofs/Deep.v
theories/Proofs/PortNames.v
theories/Proofs/PortNames10.v
theories/Proofs/BoundsP.v
theories/Properties/Created.v
theories/Proofs/PipelineP.v
theories/Proofs/OneByOne.v
theories/Proofs/CompositeP.v
theories/Proofs/CompositeBuild.v
theories/Proofs/ForestP.v
theories/Proofs/ReliableP.v
theories/Proofs/ReliableRun.v
theories/Proofs/ReliableNew.v
theories/Properties/Bounds.v
theories/Properties/Failure.v
theories/Properties/Pipeline.v
theories/Properties/Composite.v
theories/Properties/Forest.v
theories/Properties/Reliable.v
theories/Proofs/SchemaP.v
theories/Proofs/SchemaNew.v
theories/Proofs/SchemaWrite.v
theories/Properties/Schema.v
theories/Spec/Drift.v
theories/Proofs/DriftB64.v
theories/Proofs/SumB64.v
theories/Proofs/RsiB64.v
theories/Properties/Floats.v
theories/Model/Wrapper.v
theories/Model/Javascript.v
theories/Model/Cli.v
theories/Spec/Wrapper.v
theories/Spec/Synchronous.v
theories/Proofs/WrapperP.v
theories/Proofs/Emitted.v
theories/Proofs/WrapperRun.v
theories/Properties/Wrapper.v
theories/Properties/Editing.v
theories/Properties/Synchronous.v
theories/Spec/Javascript.v
theories/Spec/Cli.v
theories/Proofs/Refuse.v
theories/Proofs/JavascriptP.v
theories/Proofs/CliP.v
theories/Proofs/Overlap.v
theories/Proofs/Jammed.v
theories/Properties/Javascript.v
theories/Properties/Cli.v
theories/Model/Classes.v
theories/Spec/Classes.v
theories/Proofs/ClassesP.v
theories/Properties/Classes.v
theories/Spec/Rarest.v
theories/Proofs/Rarest.v
theories/Properties/Rarest.v
theories/Spec/Windows.v
theories/Proofs/Wiring.v
theories/Proofs/WindowsP.v
theories/Proofs/FailP.v
theories/Proofs/CauseP.v
theories/Proofs/Contract.v
theories/Spec/Shipped.v
theories/Spec/Cause.v
theories/Spec/Shipped2.v
theories/Properties/Shipped.v
theories/Properties/Cause.v
theories/Properties/Shipped2.v
theories/Proofs/SwitchP.v
theories/Properties/Switch.v
theories/Spec/Feedback.v
theories/Spec/Gap.v
theories/Proofs/Symbolic.v
theories/Proofs/FeedbackP.v
theories/Proofs/FeedbackRun.v
theories/Proofs/FeedbackAsk.v
theories/Proofs/FeedbackLate.v
theories/Proofs/FeedbackHist.v
theories/Proofs/FeedbackGap.v
theories/Properties/Feedback.v
theories/Properties/FeedbackGap.v
theories/Proofs/Generated.v
theories/Properties/Generated.v
theories/Spec/Fibonacci.v
theories/Proofs/FibP.v
theories/Proofs/FibHist.v
theories/Properties/Fibonacci.v
theories/Spec/Notebook.v
theories/Properties/Notebook.v
theories/Model/Mermaid.v
theories/Spec/Mermaid.v
theories/Proofs/MermaidP.v
theories/Properties/Mermaid.v
theories/Spec/Members.v
theories/Proofs/MembersP.v
theories/Proofs/MembersV.v
theories/Properties/Members.v
theories/Spec/Names.v
theories/Proofs/Retag.v
theories/Proofs/NamesP.v
theories/Proofs/NamesR.v
theories/Properties/Names.v
theories/Properties/Renamed.v
theories/Spec/Dependable.v
theories/Proofs/DependableP.v
theories/Properties/Dependable.v
theories/Properties/Stuck.v
theories/Properties/Ten.v
theories/Properties/Connections.v
theories/Spec/Loops.v
theories/Proofs/LoopsP.v
theories/Properties/Loops.v
