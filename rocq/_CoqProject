-Q theories Verif

theories/Base.v
theories/BMap.v
theories/Errors.v
theories/RoundId.v
theories/Message.v
theories/Protocol.v
theories/Transcript.v
theories/Evidence.v
theories/Session.v
theories/Spec.v
theories/MessageFacts.v
theories/SessionFacts.v
theories/RunFacts.v
theories/SpecCrypto.v
theories/SpecEvidence.v
theories/SerMap.v
theories/IntakeFacts.v
theories/Exec.v
theories/RoundFacts.v
theories/FinalizeFacts.v
theories/HistoryFacts.v
theories/SignFacts.v
theories/IdFacts.v
theories/LocalFacts.v
theories/OrderFacts.v
theories/EchoFacts.v
theories/EvidenceFacts.v
theories/GuiltFacts.v
theories/Toy.v
theories/PropIntake.v
theories/PropRound.v
theories/PropFinalize.v
theories/ToyCrypto.v
theories/PropSign.v
theories/PropEcho.v
theories/ToyOwn.v
theories/PropEvidence.v
theories/Typed.v
theories/SpecTyped.v
theories/TypedFacts.v
theories/Simple.v
theories/Dining.v
theories/ToySimple.v
theories/PropTyped.v
theories/Chain.v
theories/SpecChain.v
theories/ChainFacts.v
theories/DoubleSimple.v
theories/ToyChain.v
theories/PropChain.v
theories/Network.v
theories/SpecNet.v
theories/NetFacts.v
theories/HonestFacts.v
theories/ToyNet.v
theories/PropNet.v
theories/RunSync.v
theories/SpecSync.v
theories/QueueFacts.v
theories/RunSyncFacts.v
theories/ToySync.v
theories/PropRunSync.v
theories/Driver.v
theories/SpecDriver.v
theories/DriverFacts.v
theories/DriverNetFacts.v
theories/ToyDriver.v
theories/PropDriver.v
theories/Par.v
theories/SpecPar.v
theories/ParFacts.v
theories/ParDeadFacts.v
theories/ParNetFacts.v
theories/ParBoundFacts.v
theories/ToyPar.v
theories/ToyHub.v
theories/PropPar.v
theories/Extend.v
theories/SpecExtend.v
theories/SimFacts.v
theories/ExtendFacts.v
theories/ToyExtend.v
theories/PropExtend.v
theories/PartialEcho.v
theories/SpecPartial.v
theories/PartialFacts.v
theories/StepFacts.v
theories/ToyPartial.v
theories/PropPartial.v
theories/SpecWorld.v
theories/WorldFacts.v
theories/RedirectFacts.v
theories/ToyWorld.v
theories/PropWorld.v
theories/Misbehave.v
theories/MisbehaveFacts.v
theories/ToyMisbehave.v
theories/PropMisbehave.v
theories/SpecFrame.v
theories/FrameFacts.v
theories/ToyFrame.v
theories/PropFrame.v
theories/Async.v
theories/SpecAsync.v
theories/AsyncFacts.v
theories/AsyncNetFacts.v
theories/ToyAsync.v
theories/PropAsync.v
theories/Offload.v
theories/SpecOffload.v
theories/OffloadFacts.v
theories/OffloadErrFacts.v
theories/OffloadNetFacts.v
theories/ToyOffload.v
theories/PadFacts.v
theories/ToyCrowd.v
theories/PropOffload.v
theories/SpecBlame.v
theories/BlameFacts.v
theories/BlameProgress.v
theories/ToyBlame.v
theories/PropBlame.v
theories/Bench.v
theories/BenchFacts.v
theories/ToyBench.v
theories/PropBench.v
theories/TestParams.v
theories/TestParamsFacts.v
theories/ToyTest.v
theories/PropTestParams.v
theories/PlanTrFacts.v
theories/SpecCaught.v
theories/ChargeFacts.v
theories/SpecFaults.v
theories/FaultFacts.v
theories/CaughtFacts.v
theories/CaughtExt.v
theories/SimpleTest.v
theories/CaughtSimple.v
theories/ToyCaught.v
theories/PropCaught.v
theories/SpecCompose.v
theories/ComposeFacts.v
theories/ChainStepFacts.v
theories/ToyCompose.v
theories/PropCompose.v
theories/SpecStore.v
theories/StoreFacts.v
theories/ToyStore.v
theories/PropStore.v
theories/Codec.v
theories/CodecFacts.v
theories/ToyCodec.v
theories/PropCodec.v
theories/SpecAccess.v
theories/AccessFacts.v
theories/ToyAccess.v
theories/PropAccess.v
theories/DiningFacts.v
theories/ToyDining.v
theories/PropDining.v
theories/Text.v
theories/TextFacts.v
theories/TextKinds.v
theories/ToyText.v
theories/PropText.v
theories/CaughtDriver.v
theories/CaughtPar.v
theories/PropCaughtDriver.v
theories/ToyFaults.v
theories/PropFaults.v
theories/SpecTimeout.v
theories/TimeoutFacts.v
theories/PropTimeout.v
theories/SpecChainFaults.v
theories/LiftFacts.v
theories/ChainFaults.v
theories/ToyChainFaults.v
theories/PropChainFaults.v
theories/SpecAsyncFaults.v
theories/AsyncFaults.v
theories/OffloadFaults.v
theories/ToyAsyncFaults.v
theories/PropAsyncFaults.v
theories/SpecStory.v
theories/StoryFacts.v
theories/ClaimFacts.v
theories/ToyStory.v
theories/PropStory.v
theories/SpecRecord.v
theories/RecordFacts.v
theories/PropRecord.v
theories/SpecCause.v
theories/CauseFacts.v
theories/PropCause.v
theories/SpecCourse.v
theories/CourseFacts.v
theories/PropCourse.v
theories/SpecExact.v
theories/SpecFailure.v
theories/ExactFacts.v
theories/FailureFacts.v
theories/ToyStranger.v
theories/PropExact.v
theories/SpecParFailure.v
theories/SpecAgree.v
theories/ParFailureFacts.v
theories/AgreeFacts.v
theories/ToyRace.v
theories/PropAgree.v
theories/SpecDet.v
theories/DetFacts.v
theories/ToyClone.v
theories/PropDet.v
theories/SpecMissing.v
theories/MissingFacts.v
theories/ToyMissing.v
theories/PropMissing.v
theories/SpecPerform.v
theories/PerformFacts.v
theories/PropPerform.v
theories/Json.v
theories/JsonFacts.v
theories/JsonLocal.v
theories/ToyJson.v
theories/PropJson.v
theories/SpecWrap.v
theories/WrapFacts.v
theories/ToyWrap.v
theories/PropWrap.v
theories/SpecJson.v
theories/JsonText.v
theories/PropJsonText.v
theories/SpecVerify.v
theories/ToyBlob.v
theories/VerifyFacts.v
theories/PropVerify.v
theories/SpecJsonTypes.v
theories/JsonTypes.v
theories/PropJsonTypes.v
theories/SpecLayout.v
theories/LayoutFacts.v
theories/PropLayout.v
theories/SimpleRelease.v
theories/ReleaseFacts.v
theories/PropRelease.v
theories/SpecForge.v
theories/ForgeFacts.v
theories/ToyForge.v
theories/PropForge.v
theories/SpecAgain.v
theories/AgainFacts.v
theories/ToyAgain.v
theories/PropAgain.v
theories/Over.v
theories/SpecOver.v
theories/OverFacts.v
theories/ToyOver.v
theories/PropOver.v
theories/SpecLate.v
theories/LateFacts.v
theories/ToyLate.v
theories/PropLate.v
theories/ReuseFacts.v
theories/ToyReuse.v
theories/PropReuse.v
theories/SameIdFacts.v
theories/ToySameId.v
theories/PropSameId.v
theories/SpecDrvWorld.v
theories/DrvWorldFacts.v
theories/ToyDrvWorld.v
theories/PropDrvWorld.v
theories/EchoIdFacts.v
theories/PropEchoId.v
