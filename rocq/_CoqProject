-Q theories Verif
theories/Bytes.v
theories/ByteStream.v
theories/Http1Model.v
theories/Http1Base.v
theories/Http1Wp.v
theories/Http1Term.v
theories/Http1Spec.v
theories/Http1Sem.v
theories/Http1Sim.v
theories/Http1Step.v
theories/Http1Misc.v
theories/Http1Run.v
theories/Http1Client.v
theories/Http1Api.v
theories/Http1Refute.v
theories/PropsHttp1Loop.v
theories/PropsHttp1Seg.v
theories/PropsHttp1Refuted.v
theories/Http1Protocol.v
theories/Http1Data.v
theories/Http1Order.v
theories/PropsHttp1Data.v
theories/Http1Use.v
theories/Http1Fault.v
theories/Http1Url.v
theories/Http1Count.v
theories/Http1Fresh.v
theories/Http1New.v
theories/PropsHttp1Safe.v
theories/Http1Wire.v
theories/Http1Samples.v
theories/Http1Round.v
theories/Http1Round2.v
theories/PropsHttp1Round.v
theories/Http1Accept.v
theories/Http1Parse.v
theories/Http1Parse2.v
theories/Http1Parse3.v
theories/Http1Parse4.v
theories/PropsHttp1Accept.v
theories/Http1Unique.v
theories/PropsHttp1Unique.v
theories/Http1Verdict.v
theories/Http1Viable.v
theories/PropsHttp1Verdict.v
theories/Http2Model.v
theories/Http2Wp.v
theories/Http2Spec.v
theories/Http2Term.v
theories/Http2Sem.v
theories/Http2Sim.v
theories/Http2Run.v
theories/Http2Frame.v
theories/Http2Cut.v
theories/Http2Misc.v
theories/Http2Api.v
theories/Http2Raw.v
theories/Http2Samples.v
theories/Http2Refute.v
theories/PropsHttp2.v
theories/PropsHttp2Refuted.v
theories/Http2Use.v
theories/Http2Fresh.v
theories/PropsHttp2Fresh.v
theories/Http2Over.v
theories/Http2Any.v
theories/Http2AnyFacts.v
theories/Http2AnyApi.v
theories/Http2AnySamples.v
theories/PropsHttp2Any.v
theories/Http2Types.v
theories/Http2TypesSpec.v
theories/Http2TypesFacts.v
theories/PropsHttp2Types.v
theories/UtilModel.v
theories/UtilSpec.v
theories/UtilRef.v
theories/UtilFacts.v
theories/UtilFields.v
theories/UtilIter.v
theories/UtilSamples.v
theories/UtilRefute.v
theories/PropsUtil.v
theories/PropsUtilRefuted.v
theories/UtilAhead.v
theories/UtilLost.v
theories/PropsUtilLost.v
theories/Http1TestKit.v
theories/Http1Tests.v
theories/Http1FileTests.v
theories/Http2TestKit.v
theories/Http2Tests.v
theories/UtilTests.v
theories/Http1Reader.v
theories/Http1Reads.v
theories/Http1Reads2.v
theories/Http1Reads3.v
theories/Http1Understood.v
theories/PropsHttp1Reader.v
theories/Http1Pause.v
theories/Http1PauseFacts.v
theories/PropsHttp1Pause.v
theories/Http2Pause.v
theories/Http2PauseFacts.v
theories/PropsHttp2Pause.v
theories/FormatModel.v
theories/FormatSpec.v
theories/FormatFacts.v
theories/FormatTexts.v
theories/PropsFormat.v
theories/ExampleModel.v
theories/ExampleSpec.v
theories/ExampleFacts.v
theories/ExampleSamples.v
theories/PropsExample.v
theories/DocTests.v
theories/Http2Full.v
theories/Http2FullSem.v
theories/Http2FullSim.v
theories/Http2FullRun.v
theories/Http2FullFacts.v
theories/Http2FullApi.v
theories/Http2Extends.v
theories/Http2FullSamples.v
theories/PropsHttp2Full.v
theories/Http1Cuts.v
theories/Http1CutsFacts.v
theories/Http1CutsMatter.v
theories/PropsHttp1Cuts.v
theories/Http2Pieces.v
theories/Http2PiecesFacts.v
theories/PropsHttp2Pieces.v
theories/Http1Same.v
theories/Http1SameRun.v
theories/Http1SameClient.v
theories/Http1SameFacts.v
theories/PropsHttp1Same.v
theories/Http1Pieces.v
theories/Http1PiecesFacts.v
theories/Http1PiecesRun.v
theories/PropsHttp1Pieces.v
theories/Http1Conn.v
theories/Http1Shift.v
theories/Http1ConnFacts.v
theories/PropsHttp1Conn.v
theories/Http1Place.v
theories/PropsHttp1Place.v
theories/Agree.v
theories/AgreeFacts.v
theories/AgreeSamples.v
theories/PropsAgree.v
theories/Http1Bound.v
theories/Http1BoundFacts.v
theories/Http1BoundRun.v
theories/PropsHttp1Bound.v
theories/Http2Bound.v
theories/Http2BoundFacts.v
theories/PropsHttp2Bound.v
theories/Http1Lost.v
theories/Http1LostStep.v
theories/Http1LostFacts.v
theories/Http1Required.v
theories/Http1CutErrors.v
theories/Http1NewErrors.v
theories/PropsHttp1Lost.v
theories/Http1Program.v
theories/Http1ProgramSamples.v
theories/Http1ProgramFacts.v
theories/PropsHttp1Program.v
theories/Http1Forward.v
theories/Http1ForwardFacts.v
theories/PropsHttp1Forward.v
theories/Http2Forward.v
theories/Http2ForwardFacts.v
theories/PropsHttp2Forward.v
theories/Http1Setting.v
theories/Http1Setup.v
theories/PropsHttp1Setup.v
theories/FormSpec.v
theories/FormFacts.v
theories/FormSamples.v
theories/FormUpload.v
theories/PropsForm.v
theories/WebFormSpec.v
theories/WebFormFacts.v
theories/WebFormSamples.v
theories/PropsWebForm.v
theories/Http2Streams.v
theories/Http2StreamsFacts.v
theories/Http2StreamsSamples.v
theories/PropsHttp2Streams.v
theories/ServerSpec.v
theories/ServerFacts.v
theories/ServerLost.v
theories/ServerSamples.v
theories/PropsServer.v
theories/ClientSpec.v
theories/ClientFacts.v
theories/ClientLost.v
theories/ClientSamples.v
theories/PropsClient.v
theories/Http1Always.v
theories/PropsHttp1Always.v
theories/Http2Always.v
theories/PropsHttp2Always.v
theories/ValueSpec.v
theories/ValueLost.v
theories/ValueWhich.v
theories/ValueFacts.v
theories/ValueSamples.v
theories/PropsValue.v
theories/MethodSpec.v
theories/MethodFacts.v
theories/MethodSamples.v
theories/PropsMethod.v
theories/SizeSpec.v
theories/SizeFacts.v
theories/SizeSamples.v
theories/PropsSize.v
theories/PreambleSpec.v
theories/PreambleFacts.v
theories/PreambleMore.v
theories/PreambleSamples.v
theories/PropsPreamble.v
theories/ExtSpec.v
theories/ExtFacts.v
theories/ExtSpace.v
theories/ExtSamples.v
theories/PropsExt.v
theories/FieldNameFacts.v
theories/FieldNameless.v
theories/FieldNameBodies.v
theories/FieldNameSamples.v
theories/PropsFieldName.v
theories/LineFacts.v
theories/LineChunk.v
theories/LineFirst.v
theories/LineLast.v
theories/PropsLine.v
