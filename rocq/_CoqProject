-Q theories Verif
theories/Base.v
theories/WriteBuf.v
theories/Leb.v
theories/ReadBuf.v
theories/BitFacts.v
theories/BufSpec.v
theories/WriteBufFacts.v
theories/ReadBufFacts.v
theories/LebSpec.v
theories/LebFacts.v
theories/ParseFacts.v
theories/StreamSpec.v
theories/StreamFacts.v
theories/EndToEnd.v
theories/PropsBuffers.v
theories/PropsLeb.v
theories/ObuHeader.v
theories/ObuHeaderFacts.v
theories/FrameFacts.v
theories/SeqFacts.v
theories/SimpleObus.v
theories/PropsObu.v
theories/BndFacts.v
theories/CodecConfig.v
theories/PropsCodec.v
theories/Params.v
theories/PropsParams.v
theories/AudioElement.v
theories/PropsAE.v
theories/MixPresentation.v
theories/PropsMix.v
theories/PropsAccept.v
theories/Timing.v
theories/PropsTiming.v
theories/MixGain.v
theories/PropsGain.v
theories/MixGainReal.v
theories/PropsGainReal.v
theories/ParamManager.v
theories/PropsPM.v
theories/TempUnit.v
theories/PropsTU.v
theories/Processor.v
theories/PureFacts.v
theories/ProcFacts.v
theories/Session.v
theories/SessionFacts.v
theories/PropsProc.v
theories/PropsSession.v
theories/PropsLoss.v
theories/Pcm.v
theories/FloatFacts.v
theories/PropsPcm.v
theories/PropsFixed.v
theories/AeData.v
theories/PropsLabels.v
theories/Reorder.v
theories/PropsReorder.v
theories/DecoderApi.v
theories/DecoderFacts.v
theories/Descriptors.v
theories/PropsDecoder.v
theories/PropsDecoderStream.v
theories/PropsApiSafe.v
theories/Profile.v
theories/MixSelect.v
theories/PropsProfile.v
theories/PropsMixSelect.v
theories/DescFacts.v
theories/PropsDesc.v
theories/PropsInit.v
theories/PropsCreate.v
theories/MixStable.v
theories/PropsDescStream.v
theories/PropsDescModes.v
theories/Sequencer.v
theories/PropsSeq.v
theories/SeqRound.v
theories/PropsSeqDesc.v
theories/PropsReport.v
theories/UnitRound.v
theories/PropsSeqUnits.v
theories/PropsFile.v
theories/Demix.v
theories/DemixFacts.v
theories/PropsDemix.v
theories/Render.v
theories/RenderFacts.v
theories/PropsRender.v
theories/PropsHistory.v
theories/PropsUnit.v
theories/PropsConfigure.v
theories/RenderSafe.v
theories/RenderUnitSafe.v
theories/ConfigSafe.v
theories/ReadUnits.v
theories/DoubleEnv.v
theories/PropsLossless.v
theories/PropsWhole.v
theories/PropsPlays.v
theories/PropsPlaysPcm.v
theories/PropsChoose.v
theories/Probe.v
theories/ProbeFacts.v
theories/PropsProbe.v
theories/ProbeUnits.v
theories/PropsProbeUnits.v
theories/PropsProbeObus.v
theories/PropsProbeEx.v
theories/SubFrames.v
theories/SubFramesFacts.v
theories/FrameGen.v
theories/FrameGenFacts.v
theories/FrameGenHist.v
theories/FrameGenOut.v
theories/FrameGenSpec.v
theories/FrameGenRun.v
theories/FrameGenInit.v
theories/FrameGenEnds.v
theories/PropsFrameGen.v
theories/Encoder.v
theories/EncoderSpec.v
theories/EncoderFacts.v
theories/PropsEncoder.v
theories/FrameGenReturns.v
theories/FrameGenParams.v
theories/PropsMixParams.v
theories/PropsReturns.v
theories/PartitionRamp.v
theories/Partition.v
theories/PartitionFacts.v
theories/PropsPartition.v
theories/PropsGainFloat.v
theories/PropsProject.v
theories/WavWriter.v
theories/PropsWav.v
theories/Json.v
theories/PropsJson.v
