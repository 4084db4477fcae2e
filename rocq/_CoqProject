-Q theories Verif
theories/Model/Common.v
theories/Model/Records.v
theories/Model/Jobs.v
theories/Model/TaskSet.v
theories/Model/Dag.v
theories/Model/Sched.v
theories/Model/Exec.v
theories/Model/Cost.v
theories/Model/ExecSet.v
theories/Model/Text.v
theories/Model/Process.v
theories/Model/JobTypes.v
theories/Model/FileQueries.v
theories/Model/MovingFiles.v
theories/Model/Format.v
theories/Model/Report.v
theories/Model/Visitor.v
theories/Model/Heap.v
theories/Model/Coro.v
theories/Spec/Graph.v
theories/Proofs/Sets.v
theories/Proofs/SchedFacts.v
theories/Proofs/InvalFacts.v
theories/Proofs/CostFacts.v
theories/Proofs/DepthFacts.v
theories/Proofs/LoopFacts.v
theories/Spec/Trace.v
theories/Spec/Tasks.v
theories/Spec/JobUse.v
theories/Model/World.v
theories/Model/Preset.v
theories/Model/RunLoop.v
theories/Model/SharedVisitor.v
theories/Spec/World.v
theories/Spec/Files.v
theories/Spec/Builds.v
theories/Spec/Xml.v
theories/Spec/Report.v
theories/Spec/Lists.v
theories/Spec/Owner.v
theories/Proofs/TraceFacts.v
theories/Proofs/TaskFacts.v
theories/Proofs/BuildFacts.v
theories/Proofs/BuildProps.v
theories/Proofs/ExecInv.v
theories/Proofs/ExecStep.v
theories/Proofs/ExecCtl.v
theories/Proofs/LogFacts.v
theories/Proofs/ExecProps.v
theories/Proofs/ExecProps2.v
theories/Proofs/StepCases.v
theories/Proofs/ExecProps3.v
theories/Proofs/Ticks.v
theories/Proofs/Dispatch.v
theories/Proofs/OneTick.v
theories/Proofs/OnTick.v
theories/Proofs/Asked.v
theories/Proofs/Stamps.v
theories/Proofs/Between.v
theories/Proofs/Threads.v
theories/Proofs/SlotNodes.v
theories/Proofs/RunCall.v
theories/Proofs/Determinism.v
theories/Proofs/Order.v
theories/Properties/Demo.v
theories/Proofs/DemoFacts.v
theories/Proofs/ExecProps4.v
theories/Proofs/RootCause.v
theories/Proofs/SetExec.v
theories/Proofs/JobUse.v
theories/Proofs/WorldFacts.v
theories/Proofs/WorldDemo.v
theories/Proofs/PresetFacts.v
theories/Proofs/PresetSame.v
theories/Proofs/SharedFacts.v
theories/Proofs/TextFacts.v
theories/Proofs/ProcessFacts.v
theories/Proofs/ProcessExact.v
theories/Proofs/QueryFacts.v
theories/Proofs/MovingFacts.v
theories/Proofs/FormatFacts.v
theories/Proofs/ReportFacts.v
theories/Proofs/XmlExact.v
theories/Proofs/VisitorFacts.v
theories/Proofs/PrintFacts.v
theories/Proofs/HeapFacts.v
theories/Proofs/GraphMem.v
theories/Proofs/MemProps.v
theories/Proofs/CoroFacts.v
theories/Proofs/Rebuild.v
theories/Proofs/Builds.v
theories/Proofs/RebuildDemo.v
theories/Proofs/BuildDemo.v
theories/Properties/TaskSets.v
theories/Properties/JobUse.v
theories/Properties/Worlds.v
theories/Properties/Presets.v
theories/Properties/Shared.v
theories/Properties/Timing.v
theories/Properties/Processes.v
theories/Properties/Rebuilds.v
theories/Properties/FileErrors.v
theories/Properties/MovingFiles.v
theories/Properties/Builds.v
theories/Proofs/QueueFacts.v
theories/Properties/Reports.v
theories/Properties/Cost.v
theories/Properties/Memory.v
theories/Properties/Ordering.v
theories/Properties/Status.v
theories/Properties/Startup.v
theories/Properties/Progress.v
theories/Properties/Protocol.v
theories/Validation/UnitTests.v
theories/Spec/Messages.v
theories/Spec/Reasons.v
theories/Proofs/MessageFacts.v
theories/Proofs/ReasonFacts.v
theories/Properties/Messages.v
theories/Properties/Reasons.v
theories/Spec/Parts.v
theories/Proofs/PartFacts.v
theories/Proofs/PartDemo.v
theories/Properties/Parts.v
theories/Spec/Edits.v
theories/Proofs/EditFacts.v
theories/Properties/Edits.v
theories/Spec/Screen.v
theories/Spec/Shared.v
theories/Spec/Timing.v
theories/Proofs/ScreenFacts.v
theories/Properties/Screens.v
theories/Spec/Contents.v
theories/Proofs/ContentFacts.v
theories/Proofs/ContentDemo.v
theories/Properties/Contents.v
theories/Spec/Parallel.v
theories/Proofs/ParallelFacts.v
theories/Properties/Parallel.v
theories/Spec/Races.v
theories/Proofs/RaceFacts.v
theories/Properties/Races.v
theories/Model/Assemble.v
theories/Spec/Assembly.v
theories/Proofs/AssembleFacts.v
theories/Proofs/ExampleFacts.v
theories/Properties/Assembly.v
theories/Spec/WorldRaces.v
theories/Proofs/WorldRaceFacts.v
theories/Properties/Successive.v
theories/Spec/Nested.v
theories/Proofs/NestedFacts.v
theories/Proofs/NestedDemo.v
theories/Properties/Nested.v
theories/Model/Changes.v
theories/Spec/Changes.v
theories/Proofs/ChangeFacts.v
theories/Properties/Changes.v
theories/Spec/Machine.v
theories/Proofs/MachineFacts.v
theories/Proofs/MachineDemo.v
theories/Proofs/BypassDemo.v
theories/Properties/Machine.v
theories/Spec/Failure.v
theories/Proofs/FailureFacts.v
theories/Properties/Failure.v
theories/Spec/Locality.v
theories/Proofs/LocalityFacts.v
theories/Properties/Locality.v
theories/Spec/HashMap.v
theories/Model/HashLoop.v
theories/Proofs/HashLoopFacts.v
theories/Properties/HashLoop.v
theories/Spec/Filters.v
theories/Proofs/FilterFacts.v
theories/Properties/Filters.v
theories/Spec/Redundant.v
theories/Proofs/RedundantFacts.v
theories/Proofs/RedundantDemo.v
theories/Properties/Redundant.v
theories/Proofs/HandBuilt.v
theories/Properties/HandBuilt.v
theories/Spec/Constraints.v
theories/Proofs/ConstraintFacts.v
theories/Proofs/ConstraintDemo.v
theories/Properties/Constraints.v
theories/Spec/Calls.v
theories/Proofs/CallFacts.v
theories/Properties/Calls.v
theories/Model/Alloc.v
theories/Spec/NoMemory.v
theories/Proofs/NoMemoryFacts.v
theories/Properties/NoMemory.v
theories/Spec/Places.v
theories/Proofs/PlaceFacts.v
theories/Properties/Places.v
theories/Spec/Spare.v
theories/Proofs/SpareFacts.v
theories/Proofs/SpareDemo.v
theories/Properties/Spare.v
theories/Proofs/ThrowFacts.v
theories/Properties/Throwing.v
theories/Model/BuildAlloc.v
theories/Proofs/BuildAllocFacts.v
theories/Properties/BuildAlloc.v
theories/Spec/Names.v
theories/Proofs/NameFacts.v
theories/Proofs/NameSets.v
theories/Properties/Names.v
theories/Spec/SameReport.v
theories/Proofs/SameReportFacts.v
theories/Properties/SameReport.v
theories/Spec/Better.v
theories/Proofs/BetterFacts.v
theories/Properties/Better.v
theories/Spec/Listing.v
theories/Proofs/DagListing.v
theories/Spec/Times.v
theories/Proofs/TimesFacts.v
theories/Proofs/TimesSets.v
theories/Properties/Times.v
theories/Model/CallThrow.v
theories/Spec/CallThrow.v
theories/Proofs/CallThrowFacts.v
theories/Properties/CallThrow.v
theories/Proofs/SharpTicks.v
theories/Proofs/EnoughTicks.v
theories/Properties/Enough.v
theories/Proofs/FreeAtEnd.v
theories/Proofs/QuietFacts.v
theories/Properties/Quiet.v
theories/Proofs/VisitFacts.v
theories/Properties/Anomaly.v
theories/Spec/Polls.v
theories/Proofs/PollFacts.v
theories/Proofs/TickCost.v
theories/Properties/Polls.v
theories/Proofs/OneThread.v
theories/Properties/OneThread.v
