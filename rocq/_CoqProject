-Q theories Verif

theories/Bytes.v
theories/Json.v
theories/Utf8.v
theories/SpecUtf8.v
theories/Subslice.v
theories/Engine.v
theories/Regex.v
theories/SocketDe.v
theories/SerModel.v
theories/SocketSer.v
theories/Args.v
theories/DeModel.v
theories/BytesProofs.v
theories/SpecEngine.v
theories/EngineProofs.v
theories/PropEngine.v
theories/SpecJson.v
theories/JsonProofs.v
theories/RegexProofs.v
theories/CharRegex.v
theories/CharRegexProofs.v
theories/SpecSocket.v
theories/HeaderProofs.v
theories/SocketProofs.v
theories/PropSocket.v
theories/SpecSer.v
theories/WriterProofs.v
theories/SerProofs.v
theories/BinProofs.v
theories/ScanProofs.v
theories/SpecBuild.v
theories/BuilderProofs.v
theories/ArriveProofs.v
theories/BuildFacts.v
theories/LostProofs.v
theories/DeepProofs.v
theories/PlainProofs.v
theories/SpecOpen.v
theories/OpenProofs.v
theories/PropOpen.v
theories/WriteDemo.v
theories/PropWrite.v
theories/SpecRead.v
theories/FillProofs.v
theories/StrictProofs.v
theories/TypedProofs.v
theories/InlineProofs.v
theories/ReadProofs.v
theories/PropRead.v
theories/Callbacks.v
theories/Emit.v
theories/Receiver.v
theories/System.v
theories/SpecCallbacks.v
theories/CallbacksProofs.v
theories/SpecClient.v
theories/TraceProofs.v
theories/ReactProofs.v
theories/ClientProofs.v
theories/EmitProofs.v
theories/EndProofs.v
theories/SentProofs.v
theories/CloseProofs.v
theories/AnswerProofs.v
theories/ClientDemo.v
theories/PropClient.v
theories/SpecFlow.v
theories/FlowProofs.v
theories/PanicProofs.v
theories/PropFlow.v
theories/CloseLive.v
theories/PropLive.v
theories/SpecFair.v
theories/FairProofs.v
theories/FairDemo.v
theories/SpecEnding.v
theories/EndingProofs.v
theories/EndingDemo.v
theories/PropFair.v
theories/PropEnding.v
theories/SpecDeliver.v
theories/DeliverProofs.v
theories/PropDeliver.v
theories/SpecTyped.v
theories/CharProofs.v
theories/SliceProofs.v
theories/TreeProofs.v
theories/TripProofs.v
theories/RoundProofs.v
theories/PropTyped.v
theories/SpecValue.v
theories/ValueProofs.v
theories/RangeProofs.v
theories/Utf8Proofs.v
theories/PropValue.v
theories/SpecError.v
theories/ErrorProofs.v
theories/PropError.v
theories/SpecExact.v
theories/ExactProofs.v
theories/AgreeProofs.v
theories/PropExact.v
theories/SpecShape.v
theories/OctetProofs.v
theories/ShapeProofs.v
theories/PropShape.v
theories/SpecShow.v
theories/ShowProofs.v
theories/PropShow.v
theories/SpecQuestion.v
theories/QuestionProofs.v
theories/QuestionDemo.v
theories/PropQuestion.v
theories/SpecRelay.v
theories/RelayProofs.v
theories/RereadProofs.v
theories/PropRelay.v
theories/Shared.v
theories/SpecShared.v
theories/SharedProofs.v
theories/PropShared.v
theories/Mesh.v
theories/SpecMesh.v
theories/MeshProofs.v
theories/MeshOrder.v
theories/PropMesh.v
theories/SpecHeld.v
theories/HeldProofs.v
theories/PropHeld.v
theories/Url.v
theories/SpecUrl.v
theories/UrlProofs.v
theories/PropUrl.v
theories/SpecPeer.v
theories/PeerProofs.v
theories/PeerReadProofs.v
theories/SpecJoin.v
theories/JoinProofs.v
theories/PropPeer.v
theories/SpecTalk.v
theories/TalkProofs.v
theories/TalkDemo.v
theories/PropTalk.v
theories/SpecIsolate.v
theories/IsolateProofs.v
theories/IsolateDemo.v
theories/PropIsolate.v
theories/SpecStore.v
theories/StoreProofs.v
theories/PropStore.v
theories/SpecSilence.v
theories/SilenceProofs.v
theories/ErrorText.v
theories/SpecText.v
theories/TextProofs.v
theories/PropText.v
theories/Buffered.v
theories/SpecBuffer.v
theories/BufferProofs.v
theories/AdjacentProofs.v
theories/BufferDemo.v
theories/PropBuffer.v
theories/RawArg.v
theories/SpecRawArg.v
theories/RawArgProofs.v
theories/RawArgDemo.v
theories/PropRawArg.v
theories/Wide.v
theories/SpecWide.v
theories/WideProofs.v
theories/WideDemo.v
theories/PropWide.v
theories/Flatten.v
theories/SpecFlatten.v
theories/FlattenProofs.v
theories/FlattenDemo.v
theories/PropFlatten.v
theories/SpecFilled.v
theories/FilledProofs.v
theories/FilledDemo.v
theories/PropFilled.v
theories/SpecWire.v
theories/WireProofs.v
theories/WireDemo.v
theories/PropWire.v
theories/SpecMode.v
theories/ModeProofs.v
theories/ModeDemo.v
theories/SpecModeAdj.v
theories/ModeAdjProofs.v
theories/ModeAdjDemo.v
theories/PropMode.v
theories/SpecVariant.v
theories/VariantProofs.v
theories/VariantDemo.v
theories/PropVariant.v
theories/SpecMerge.v
theories/MergeProofs.v
theories/MergeDemo.v
theories/PropMerge.v
theories/Nested.v
theories/SpecNested.v
theories/DepthProofs.v
theories/NestedProofs.v
theories/NestedDemo.v
theories/PropNested.v
theories/Tests.v
theories/SpecParts.v
theories/PartsProofs.v
theories/PartsDemo.v
theories/PropParts.v
theories/Timed.v
theories/SpecTimed.v
theories/TimedProofs.v
theories/ReportProofs.v
theories/TimedDemo.v
theories/TimedSilence.v
theories/PropSilence.v
theories/PropTimed.v
theories/Pipe.v
theories/SpecPipe.v
theories/PipeProofs.v
theories/PipeDemo.v
theories/PipeBytes.v
theories/SpecFrame.v
theories/FrameProofs.v
theories/PipeEnd.v
theories/PropPipe.v
theories/Nest.v
theories/SpecNest.v
theories/NestProofs.v
theories/NestDemo.v
theories/PropNest.v
theories/Programs.v
theories/SpecProgram.v
theories/ProgramProofs.v
theories/ProgramMain.v
theories/ProgramAnswers.v
theories/ProgramMore.v
theories/ProgramDemo.v
theories/PropProgram.v
theories/SpecPace.v
theories/PaceProofs.v
theories/PaceDemo.v
theories/PaceClose.v
theories/PaceCloseDemo.v
theories/PropPace.v
theories/SpecInbox.v
theories/InboxProofs.v
theories/InboxDemo.v
theories/InboxWide.v
theories/InboxCalls.v
theories/InboxCallsDemo.v
theories/PropInbox.v
theories/SpecKeep.v
theories/KeepProofs.v
theories/PropKeep.v
