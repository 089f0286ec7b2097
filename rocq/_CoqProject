-Q theories Verif
theories/Base.v
theories/Types.v
theories/Floats.v
theories/Meta.v
theories/ReceiveBuffer.v
theories/Transmit.v
theories/Copies.v
theories/Ports.v
theories/Receive.v
theories/Handlers.v
theories/SpecBuffer.v
theories/Spec.v
theories/SpecReceiver.v
theories/SpecSend.v
theories/Lists.v
theories/BufferProofs.v
theories/BufferLemmas.v
theories/ConstructLemmas.v
theories/MetaProofs.v
theories/ScanProofs.v
theories/CheckProofs.v
theories/CodecProofs.v
theories/FloatLemmas.v
theories/ConvertLemmas.v
theories/SendProofs.v
theories/SendLemmas.v
theories/CopyLemmas.v
theories/SpecPort.v
theories/PortLemmas.v
theories/ReceiverProofs.v
theories/HistoryProofs.v
theories/ScanLemmas.v
theories/ReceiverLemmas.v
theories/DeliveryLemmas.v
theories/OperationLemmas.v
theories/HandlerLemmas.v
theories/FeedLemmas.v
theories/AppendLemmas.v
theories/ReentryLemmas.v
theories/AdapterLemmas.v
theories/CorruptionLemmas.v
theories/RelayLemmas.v
theories/LossLemmas.v
theories/InterruptLemmas.v
theories/AccountLemmas.v
theories/NarrowLemmas.v
theories/SpecHandlers.v
theories/SpecLink.v
theories/SpecEnvelope.v
theories/PartialLemmas.v
theories/PollLemmas.v
theories/SpecDuplex.v
theories/DuplexLemmas.v
theories/EvolveLemmas.v
theories/LayoutLemmas.v
theories/DamageLemmas.v
theories/MixLemmas.v
theories/EndianLemmas.v
theories/EnvelopeLemmas.v
theories/WorkLemmas.v
theories/Protocol.v
theories/Runs.v
theories/TestVectors.v
theories/Generate.v
theories/Headers.v
theories/SpecGenerate.v
theories/GenerateLemmas.v
theories/GenerateHeaders.v
theories/GeneratePreprocess.v
theories/HeaderArities.v
theories/OwnEnvelopes.v
theories/SpecErrors.v
theories/ErrorLemmas.v
theories/NoiseLemmas.v
theories/SpecOwn.v
theories/OwnLemmas.v
theories/OwnStreamLemmas.v
theories/OwnMatchLemmas.v
theories/OwnHistoryLemmas.v
theories/OwnPolicyLemmas.v
theories/OwnShippedLemmas.v
theories/OwnShippedCheck.v
theories/OwnCases.v
theories/OwnClaims.v
theories/PropSend.v
theories/PropFloat.v
theories/PropCodec.v
theories/PropBuffer.v
theories/PropStream.v
theories/PropHandlers.v
theories/PropEnvelope.v
theories/PropLink.v
theories/PropDuplex.v
theories/PropOwn.v
theories/PropPolicy.v
theories/PropErrors.v
theories/PropNoise.v
theories/PhantomLemmas.v
theories/PropPhantom.v
theories/IncludeGraph.v
theories/SpecInclude.v
theories/IncludeLemmas.v
theories/PropGenerate.v
theories/PropInclude.v
theories/Counted.v
theories/SpecCost.v
theories/CostLemmas.v
theories/PropCost.v
theories/Moves.v
theories/SpecMoves.v
theories/MoveLemmas.v
theories/MoveRuns.v
theories/PropMoves.v
theories/UserClasses.v
theories/SpecUser.v
theories/UserClassLemmas.v
theories/PropUser.v
theories/Lifetimes.v
theories/SpecLifetimes.v
theories/LifetimeLemmas.v
theories/PropLifetime.v
theories/Interactive.v
theories/SpecInteractive.v
theories/InteractiveLemmas.v
theories/PropAsk.v
theories/Members.v
theories/SpecMembers.v
theories/MembersLemmas.v
theories/PropMembers.v
theories/Arrivals.v
theories/SpecArrivals.v
theories/ArrivalLemmas.v
theories/ArrivalHistory.v
theories/ArrivalWitness.v
theories/PropArrivals.v
theories/Nested.v
theories/SpecNested.v
theories/NestedLemmas.v
theories/PropNested.v
theories/SpecGaps.v
theories/GapLemmas.v
theories/PropGaps.v
theories/Throwing.v
theories/SpecThrowing.v
theories/ThrowLemmas.v
theories/PropThrow.v
theories/SpecPace.v
theories/PaceLemmas.v
theories/PropPace.v
theories/Regenerate.v
theories/SpecRegenerate.v
theories/RegenerateLemmas.v
theories/PropRegenerate.v
theories/SpecAlter.v
theories/AlterLemmas.v
theories/PropAlter.v
theories/Asserts.v
theories/AssertLemmas.v
theories/PropAssert.v
theories/Torn.v
theories/TornLemmas.v
theories/PropTorn.v
theories/TornCheck.v
theories/TornCheckLemmas.v
theories/PolledLemmas.v
theories/PolledAlive.v
theories/PolledInvoke.v
theories/PolledSeparate.v
theories/PropPolled.v
theories/HeaderTests.v
theories/SpecHeaderTests.v
theories/HeaderLemmas.v
theories/PropHeaders.v
theories/TornAppend.v
theories/ArrayLemmas.v
theories/TornAppendLemmas.v
theories/TornAppendFindings.v
theories/PropAppend.v
theories/TornReceive.v
theories/TornReceiveLemmas.v
theories/TornReceiveFindings.v
theories/PropTornReceive.v
theories/TornHandlers.v
theories/TornHandlersLemmas.v
theories/PropTornHandlers.v
theories/TornAsk.v
theories/TornAskLemmas.v
theories/PropTornAsk.v
