# Formal model of iamf-tools in Rocq (Coq 8.16.1)

## 1. Approach

The model is written in Gallina and mirrors the C++ function by function; every model definition carries a comment
`(* MODELS file:lines *)` and says where it simplifies.  Files in rocq/theories, in build order (see `_CoqProject`):

| files | what |
|---|---|
| Base, BitFacts | status codes, outcomes (Ok / Err code / Abort / UB / Diverge), machine integers, bits |
| WriteBuf, ReadBuf, Leb | models of WriteBitBuffer, ReadBitBuffer (memory, stream), LebGenerator |
| BufSpec, LebSpec, StreamSpec, EndToEnd | specifications: bits appended, cursor, legal LEB128, growing stream, "reads back" |
| WriteBufFacts, ReadBufFacts, StreamFacts, LebFacts, ParseFacts, SeqFacts, BndFacts, PureFacts | refinement proofs and the algebra of reader programs |
| ObuHeader, SimpleObus, CodecConfig, Params, AudioElement, MixPresentation | models of the OBU readers and writers |
| Timing, MixGain, MixGainReal, ParamManager, TempUnit | models of decoder and encoder bookkeeping |
| Processor, Session | models of ObuProcessor's temporal unit processing and the loop that drives it |
| Pcm, FloatFacts | models of PCM output, LPCM coding, fixed point, over IEEE 754 (Flocq) |
| AeData, Reorder | models of channel labelling of substreams, channel reordering |
| DecoderApi, DecoderFacts | model of IamfDecoder (the public decoder API) as a state machine, its relation to Session |
| Profile | model of profile_filter.cc and GetSupportedMixPresentations |
| MixSelect | model of obu_processor_utils.cc (mix and layout selection) |
| Descriptors | model of descriptor_obu_parser.cc, ObuProcessor::CreateForRendering and InitializeInternal |
| DescFacts, MixStable | the descriptor loop as a function on bytes, stability of the readers under more data |
| Sequencer | obu_sequencer_base.cc, obu_sequencer_iamf.cc, obu_sequencer_streaming_iamf.cc (C54); file system operations succeed or answer with an error |
| SeqRound, PropsSeqDesc, PropsReport | no further code; the composition of the sequencer's descriptors with the descriptor parser (C55) and with CreateForRendering (C56) |
| UnitRound, PropsSeqUnits | no further code; the composition of the sequencer's temporal units with the temporal unit parser (C57) |
| PropsFile | no further code; the composition of C54, C55, C57, C51 and the decoder API (C58) |
| Demix, DemixFacts, PropsDemix | downmixer.cc, downmixer_factory.cc, downmixer_manager.cc, demixer.cc, demixing_manager.cc, labeled_frame.cc, over an abstract arithmetic (C59) |
| Render, RenderFacts, PropsRender, PropsHistory | obu_processor.cc:649-800, audio_frame_decoder.cc, rendering_mix_presentation_finalizer.cc, renderer_factory.cc, renderer/*.cc, sample_processing_utils.cc over an abstract arithmetic, codec and binaural library (C60, C61) |
| RenderSafe, RenderUnitSafe, ConfigSafe, ReadUnits, PropsWhole | composition of the processor, the decoder API and rendering (C63) |
| PropsUnit, PropsLossless | a whole temporal unit; LPCM through the whole pipeline (C60, C64) |
| PropsPlays, PropsPlaysPcm | regular units are rendered (C65) |
| PropsChoose | no further code; which renderer, channels and coefficients an element gets (C62) |
| PropsConfigure | no further code; what is set up for the selected mix (C60) |
| Probe, ProbeFacts | cli/probe.cc ScanTemporalUnits: the scan of the temporal units; what one iteration sees |
| PropsProbe, PropsProbeObus, ProbeUnits, PropsProbeUnits, PropsProbeEx | no further code; the report of the probe (C66) |
| SubFrames, SubFramesFacts | cli/substream_frames.h |
| FrameGen | cli/proto_conversion/proto_to_obu/audio_frame_generator.cc, downmixer_manager.cc DownMixSamplesToSubstreams, cli/codec/encoder_base.{h,cc} |
| FrameGenFacts, FrameGenHist, FrameGenOut, FrameGenRun, FrameGenInit, FrameGenSpec, FrameGenEnds, PropsFrameGen | no further code; what the frames hold (C67) |
| Encoder | cli/iamf_encoder.cc (Encode, OutputTemporalUnit, FinalizeEncode, GeneratingTemporalUnits, arbitrary OBUs); parameter_block_generator.cc AddMetadata, GenerateParameterBlocks (timing) |
| EncoderFacts, EncoderSpec, PropsEncoder | no further code; what the encoder's temporal units hold (C68) |
| FrameGenParams, PropsMixParams | no further code; the demixing parameters of the frames (C67_parameters) |
| FrameGenReturns, PropsReturns | no further code; that every call of the frame generator and the encoder returns (C69) |
| Partition, PartitionRamp, PartitionFacts, PropsPartition | cli/parameter_block_partitioner.cc, cli/encoder_main_lib.cc:57-84, proto_utils.cc:188-221 (C70) |
| PropsGainFloat, PropsProject | nothing new: the float gains of DoubleEnv.v (obu_util.h:82-115) as coded (C71); the projection of Render.v (C62) |
| WavWriter, PropsWav | cli/wav_writer.cc, cli/sample_processor_base.cc (C72) |
| Json, PropsJson | iamf/cli/probe_json.cc: strings, integers and the branch of the Mix Presentations, with the text of floats a parameter; the other branches are not modelled (C73) |
| DoubleEnv | the arithmetic of samples and gains as compiled (Flocq binary64/binary32), obu_util.h:90-115, audio_frame_decoder.cc:53-92, lpcm_decoder.cc:38-58 |
| Props*.v | the property theorems `Cxx_...`, their specifications and witnesses (`Cxx_ex`) |

An OBU *writer* is modelled as the list of write calls it performs (`wprog`, with explicit failure instructions for
RETURN_IF_NOT_OK validations); an OBU *reader* is a program tree `rprog` whose nodes are ReadBitBuffer calls.  Both are
interpreted by the concrete buffer models and by the abstract ones (bits appended / cursor over bits); the refinement theorems
(C01, C02, C05) are proved once for every program, so round trips proved on the abstract side hold for the buffers as coded.

UB (undefined behaviour: uninitialised flag, out of bounds access), Abort (ABSL_CHECK), Diverge (non-terminating loop, fuel
exhausted) are distinct outcomes, never identified with an error status.

A property which is false of the code as written keeps its full statement in properties.jsonl and has status `partial`: the
faithful model gives a witness, proved as `..._refuted`, and the strongest true variant is proved as `..._partial`.

## 2. Per-property plan

* **C01** Bit writer is an exact big-endian append log. WriteBuf.v models every Write* call with both code paths (aligned bytes, bit by bit, little endian words). Proved by refinement: the concrete byte vector + bit offset always represents the list of bits appended (WriteBufFacts.v), by induction over the sequence of calls.
* **C02** Bit reader behaves as a cursor over the source, whatever its internal capacity. ReadBuf.v models the window, the refill loop and every read. Reader programs are trees of calls (adaptive: later calls may depend on earlier results). Refinement to a cursor over the source bits for every program and every capacity >= 1 (ReadBufFacts.crun_refines).
* **C03** Running out of data is reported exactly and consumes nothing. Same model: exact condition for ResourceExhausted and the exact position afterwards.
* **C04** Reads on a buffer created with capacity 0 terminate. Same model with fuel: for capacity 0 every amount of fuel is exhausted (refuted); for capacity >= 1 every read terminates (_partial).
* **C05** Streaming pushes and flushes are transparent. Push/Flush histories of the stream buffer refine one growing bit string (StreamSpec.v), by induction over histories.
* **C06** Seek is defined on a freshly created buffer and is disabled after Flush until Tell. Validity flag modelled as uninitialised at creation: UB (refuted, F2); refusal after Flush (_partial); F8 refuted.
* **C07** ULEB128 write/read round trip and size. Arithmetic on 7-bit groups; end to end through both buffers at any alignment.
* **C08** ULEB128 reader accepts exactly the legal encodings. LebSpec.v says what a legal encoding is, independently of the code; exact acceptance set and error kinds.
* **C09** SLEB128 encoding is correct. LebSpec.v; value of the two's complement groups.
* **C10** ISO 14496-1 expandable size round trip. As C07 for ISO 14496-1 sizes.
* **C11** String round trip and rejection. Exact acceptance and round trip of null-terminated strings.
* **C12** Signed literal round trip. Two's complement round trip.
* **C13** OBU header round trip. ObuHeader.v; end-to-end round trip through the buffers.
* **C14** No written OBU exceeds 2 MiB and obu_size is exact. ObuHeader.v write path; for every payload writer.
* **C15** Peeking a header consumes nothing and reports the true OBU extent. Peek = run, then seek back; all outcomes on arbitrary data; the uint32 wrap is refuted (F4).
* **C16** Implausible extension headers are refused before allocation. uint32 arithmetic of the plausibility check; refuted (F3) and _partial.
* **C17** OBU framing: a reader always ends exactly at the end of the OBU, keeping unknown trailing bytes. read_obu for every payload parser (universally quantified program).
* **C18** IA Sequence Header round trip and fourcc check. SimpleObus.v.
* **C19** Audio Frame OBU round trip with implicit and explicit IDs. SimpleObus.v.
* **C20** Temporal delimiter and metadata OBUs round trip. SimpleObus.v.
* **C21** Codec Config OBU round trip for all codecs. CodecConfig.v, all four decoder configs and the FLAC metadata blocks.
* **C22** Subblock schedules partition their duration. Params.v: subblock schedules as lists of durations; sums.
* **C23** Parameter definitions: round trip, and the reader only accepts valid definitions. Params.v: all parameter definition classes.
* **C24** Parameter Block OBU round trip in both modes. Params.v: parameter data and blocks in both modes.
* **C25** Each tick's mix gain comes from the subblock that covers it. MixGain.v: control structure with the interpolation function abstract.
* **C26** Per-stream timestamps are contiguous. Timing.v: state machine; histories of calls; specification by sums of durations.
* **C27** Demixing weight index follows the specification recursion. ParamManager.v: state machine; the specification is the recursion over the list of added blocks.
* **C28** Temporal unit validation: accepted units are consistent and canonical. TempUnit.v; permutation and sortedness.
* **C29** Streaming temporal-unit processing does not depend on chunk boundaries. Session.v drives Processor.v over the concrete stream buffer; two chunkings of the same bytes give the same outputs: every chunking refines one abstract run over the whole string (SessionFacts.v).
* **C30** Unknown or broken OBUs are skipped exactly. Processor.v: the effect of one OBU on state and position.
* **C31** Decoded output is delivered once, in order, without loss. DecoderApi: state machine of IamfDecoder over an abstract unit processor and renderer.
* **C32** Decoder life cycle. As C31.
* **C33** PCM output frames are written completely and in interleaved order. Pcm.v over Flocq's IEEE 754 doubles.
* **C34** Audio Element OBU round trip. AudioElement.v.
* **C35** Mix Presentation OBU round trip. MixPresentation.v.
* **C36** PCM sample bytes round trip. Pcm.v; byte arithmetic.
* **C37** Header flags are accepted exactly for the OBU types that may carry them. ObuHeader.v; exact acceptance.
* **C38** Mix gains lie on the specification's curve. MixGainReal.v over Coq's reals.
* **C39** Recon gains come from the block of the current frame. ParamManager.v.
* **C40** Temporal units partition the stream. Over C29's driver: concatenating the units gives the frames and blocks of the stream in order.
* **C41** No byte stream crashes or hangs temporal unit processing. Over C29's driver: the outcome is never Abort/UB/Diverge.
* **C42** Decoded frames use the demixing and recon gain parameters signalled for them. Processor.v; refuted with a witness stream (F23); what holds instead is proved for every stream.
* **C43** A lost parameter block affects only its own time span. Processor.v; the stream with parameter blocks removed.
* **C44** LPCM coding is lossless. Pcm.v; composition of C36, exact int32->double conversion and C33.
* **C45** Fixed point conversions are exact and range checked. Pcm.v over Flocq's IEEE floats.
* **C46** Every substream carries the channels its layers declare. AeData.v models GenerateAudioElementWithData; the specification says which channels a layer adds, as a relation over the list of layers; induction over layers, with the finitely many layout pairs checked by computation in the kernel.
* **C47** Channel reordering yields the documented order and loses nothing. Model the assignments and swaps on vectors with bounds-checked access (Reorder.v); the specification is a table of channel names and the mask rank; proof by taking the list apart.
* **C48** The decoder API never crashes. DecoderApi over a processor whose units come from C41's model; the crash-freedom of each call up to the first failing call, given rendered frames of the layout's width; a witness for the crash.
* **C49** Profile filtering keeps exactly the profiles whose limits a mix respects. Model profile_filter.cc filter by filter on a set of profile numbers; the specification `supports` says what a profile allows. Each filter keeps the profiles of a predicate; sequencing is conjunction; an invariant describes the table of codec configs gathered over the sub-mixes.
* **C50** Mix and layout selection follows the documented preference order. Model obu_processor_utils.cc with indices for pointers and undefined behaviour for back()/front() of an empty vector; the specification is a list of preferences and an inductive relation for the first best candidate.
* **C51** How a stream is cut into Decode calls does not matter, descriptors included. dscan describes the descriptor loop on a list of bytes; it is stable under more data (dscan_ext), once the readers of the single OBUs are shown to depend on the bytes of their OBU only (MixStable.v for the exception). The decoder in its waiting phase holds exactly what was pushed, so the processor is created from the same bytes; then C31.
* **C52** Descriptors are the same whether given on their own or at the start of a stream. dscan with both values of the flag; induction over the OBUs. At the end of the data the complete mode stops where the stream mode stops at the temporal unit.
* **C53** Initialisation accepts exactly the unambiguous descriptors, in any order. Invariant for the table of definitions while it is filled (PropsInit.holds); labels and substreams correspond (AeData); GlobalTimingModule via C26.
* **C54** An OBU sequencer writes descriptors first, every temporal unit once and in order, and nothing after the end. Sequencer.v models the base class as a state machine over an arbitrary concrete class (a function from the history to a status) and the two concrete classes as folds over what they were asked; PropsSeq proves the protocol as an automaton by an invariant over calls, the exact log of successful sessions by induction over units, and the converse (C54_accepts).
* **C55** Descriptors written by an OBU sequencer are read back as the descriptors that were pushed. SeqRound proves, per OBU, the effect of what write_* emits on one turn of the descriptor loop and chains the turns; PropsSeqDesc folds the chain over serialize_descriptors, relating the key-ordered maps to what the parser accumulates.
* **C56** A decoder reports what its descriptors say. PropsReport: from C52_parser_sound (what the parser returns is consistent), C53 (initial state exactly if acceptable) and C50 (selection).
* **C57** Temporal units written by an OBU sequencer are read back, whole and in order, however the bytes are cut. UnitRound proves what one turn of the temporal unit loop makes of one written OBU; PropsSeqUnits follows the timing state through blocks and frames of a unit, then through all units, and shows that grouping by time gives the units back; C29 lifts it to any chunks.
* **C58** A file written by the encoder's file writer is parsed back and played, whole. C54 gives the bytes of the file, C55 the descriptors, C57 the units; PropsFile shows that the first unit's first OBU ends the descriptors and that cutting the descriptors anywhere does not change what is found (C51), and composes them with the decoder's history theorem (C29/C31).
* **C59** Down-mixing a channel-based element to its layers and demixing the decoded layers gives back the original channels. Demix.v models the down-mixers, demixers, their factories and the demixing manager over an abstract arithmetic. The sets of channel labels an element can have (C46) are summarised by finitely many cases, for which the lists of demixers are computed and checked to produce each channel from available ones; that each step gives the value of the specification's mix-down is algebra over the reals; frames, orders and lengths are by induction.
* **C60** Rendering a temporal unit to a layout mixes the audio elements with their matrices and gains. Render.v models the pipeline of the decoder over an abstract arithmetic; element by element specification lemmas (RenderFacts.v) give the value of each sample by induction over channels, matrices and elements.
* **C61** What is rendered for a temporal unit does not depend on the units rendered before. Two states which differ only in stored samples are related; rendering is shown to give the same answers and to keep the relation, by induction over elements, layouts, sub-mixes and then units.
* **C63** The whole decoder, with its own rendering, never crashes on any input. RenderSafe (one layout), RenderUnitSafe (a unit; which parameter blocks can meet a mix gain), ConfigSafe (what configuring the renderers of validated descriptors establishes), ReadUnits (what is true of the units the processor hands over: blocks match their definitions and frame sizes), combined with C48 in PropsWhole; DoubleEnv instantiates the arithmetic.
* **C64** LPCM played on its own loudspeakers comes out with the bytes which were coded. What configuring the renderers gives for such a presentation (pass-through, no demixers, LPCM decoders) is computed for every layout and is invariant under rendering (C61); C60_unit gives the value of each sample, which is simplified with IEEE facts (x * 1 = x, 0 + x = x for x from an integer), and C33/C36 give the bytes.
* **C65** A regular temporal unit is rendered, not refused. Each step of rendering is total under the conditions; the conditions hold for the renderers configured for a plain presentation, which is invariant under rendering any unit.
* **C62** Each element is rendered from its own channels with the coefficients for its layout. A table of the loudspeakers of the sound systems and of the layouts as specification; case analysis over it, induction over layers, mappings and matrix rows; the down-mix by ring.
* **C66** The probe's temporal unit scan reports what the bytes hold. Probe.v models ScanTemporalUnits (loop, header checks, bookkeeping, conclusion). One iteration is shown to be a function of the bytes ahead (ProbeFacts), so the walk is a fold of events; invariants over events give the counts, index and details; PropsProbeObus ties the events to a cut of the bytes by an independent definition of OBU framing; PropsProbeUnits proves the exact report for the muxer's bytes by the round trips of C54-C57.
* **C67** The encoder cuts every added sample into exactly one frame, once, in order. SubFrames.v and FrameGen.v model the queues and the generator as a state machine over an abstract arithmetic, quantisation and coder. An invariant relates the state to the blocks which were mixed so far (FrameGenHist); it is kept by every call of any element (FrameGenOut, FrameGenRun) through three phases (before the last samples, before Finalize, after); PropsFrameGen reads the account off the last state and computes what trimming leaves. C67_ends: in the last phase a rank (frames still to be made, coders not finished, frames in coders) falls with every output call (FrameGenEnds). C67_parameters: the state is tied to a ghost list of makings (element, end, parameters) and to the last manager given, whose blocks are either still there or used up by a making (FrameGenParams).
* **C68** The encoder turns what it is given into temporal units that fit together, and loses nothing before it says it is done. Encoder.v models the calls on top of the frame generator, the timing module and the parameters manager; each OutputTemporalUnit is shown to be a list of calls of the frame generator (EncoderFacts.output_step) with a balance of blocks and arbitrary OBUs; induction over the history (PropsEncoder). (5) splits the calls of the documented loop at the last samples and applies C67. (6) C67_ends, and then every output takes one time of the arbitrary OBUs.
* **C69** Every call of the encoder returns. Invariant of a queue: the first channel fills its frames from the front (FrameGenReturns.steady); PadZeros then makes progress in each round, and an element for which nothing more was added is padded to a full first frame, so that the second round of the loop encodes or nothing is left. Every call keeps the invariant for every substream.
* **C70** Parameter blocks are cut into frames without loss. The cursor over the schedule is replaced by the list of durations (C22 gives the list from a constant or from explicit durations); induction over the sub-blocks gives what the pieces of one block are (PartitionFacts), a second one over the blocks gives the sequence. Float error analysis with Flocq's relative error for the interpolation (PartitionRamp), rounding to Q7.8 from C45.
* **C71** Mix gains as computed with floats. Flocq: every float operation is the rounding of the exact one (no overflow by magnitude bounds); monotonicity of rounding gives the limits (control time, discriminant, root in [0, 1]); the square root of a rounded square of a float is that float, which makes curves start exactly; relative errors are bounded for curves of 2048 ticks through the real formula of PropsGainReal. Through C25_tick_gains_partial for whole blocks.
* **C72** A WAV file holds the samples of the successful calls, once and in order. An invariant of the state with the data accepted so far, preserved by every call (PropsPcm for the bytes of a frame); induction over the calls.
* **C73** The probe's JSON of a Mix Presentation reads back as the report. A tree for every report, whose text the tool prints (by computation), and a reader of JSON on bytes which reads the text of any tree back, by induction on trees.


## 3. Trusted base

* Coq's kernel (8.16.1) and `coqc`.  No kernel check is switched off; no axiom, parameter, functor or module type is defined.
* Libraries: the standard library and Flocq (for IEEE 754 binary32/binary64).  Flocq adds no axiom.
* `Print Assumptions` (rerun with `python3 tools/assumptions.py` after a build): every theorem of MANIFEST.json is *closed under the
  global context* except those about real or floating point numbers, i.e. all theorems of C33, C38, C44, C45 (and those of
  later properties which say so in the manifest), which use only these axioms of the standard library:
  `ClassicalDedekindReals.sig_forall_dec`, `ClassicalDedekindReals.sig_not_dec`,
  `FunctionalExtensionality.functional_extensionality_dep`, `Classical_Prop.classic`.
  `coqchk`-style listings also show constants of standard library modules that are sealed by a module type and therefore look like
  axioms: `Coq.Reals.Rdefinitions.RbaseSymbolsImpl.*`, `Coq.Reals.Rdefinitions.RinvImpl.*`, `Coq.ssr.ssrunder.Under_rel.*`.
  They come with loading Reals and ssreflect from the standard library; the second kind is used by no theorem.
* That the Gallina definitions say what the C++ does.  The `MODELS` comments and section 4 are the map to check this.
* What the C++ is assumed to do: two's complement integers with the widths of the declarations (LP64); `std::vector`, `absl` containers
  and `std::variant` as lists, association lists and sums; IEEE 754 arithmetic rounding to nearest even, without excess precision or
  fused operations; allocation never fails.

## 4. What is modelled and what is not

Modelled (in /repo/iamf): common/{write,read}_bit_buffer, common/leb_generator; obu/{obu_header,obu_base,ia_sequence_header,
audio_frame,temporal_delimiter,metadata_obu,codec_config,audio_element,ambisonics_config,mix_presentation,rendering_config,
element_gain_offset_config,parameter_block,parameter_data and the parameter data classes}, obu/decoder_config/*,
obu/param_definitions/*; common/utils/numeric_utils (conversions), obu_util.h InterpolateMixGainValue;
cli/{global_timing_module,parameters_manager,temporal_unit_view}.cc; cli/obu_processor.cc temporal unit processing with the parts of
cli/obu_with_data_generator.cc (global timing, demixing, recon gain, channel labels) and cli/cli_util.cc it calls; cli/codec/lpcm_*.cc; sample_processing_utils.cc WritePcmSample;
cli/{downmixer,downmixer_factory,downmixer_manager,demixer,demixing_manager,labeled_frame}.cc; rendering of a temporal unit (obu_processor.cc:649-800, cli/{audio_frame_decoder,rendering_mix_presentation_finalizer,renderer_factory,sample_processing_utils}.cc, cli/renderer/*.cc except the computation inside the OBR library and the values of the precomputed matrices); api/conversion/channel_reorderer.cc; api/decoder/iamf_decoder.cc (all calls as a state machine; creation of the processor and rendering are functions given by an environment); cli/probe.cc ScanTemporalUnits; cli/substream_frames.h and
cli/proto_conversion/proto_to_obu/audio_frame_generator.cc (with synchronous coders).

Simplifications, also stated at the definitions:

* Error statuses keep their code but not their message.  IamfStatus has no code: its errors are `Unknown`.
* `MAYBE_RETURN_IF_NOT_OK` is modelled as `RETURN_IF_NOT_OK` (the strict build).  Logging is left out.
* QFormatOrFloatingPoint is the Q7.8 integer in the OBU models (C45 justifies this).
* `std::get` on the wrong alternative and ABSL_CHECK inside *writers* on ill-formed structures are `Err Internal` where noted.
* C59's reconstruction is about exact real arithmetic: rounding in the down-mixers and demixers is not modelled, the conversion to 32 bit
  integers and the codec are parameters, recon gains are not applied (neither does the code).
* C38 is about exact real arithmetic, float rounding is not modelled there; in C25 the interpolation is abstract.
* The session driver (C29, C40, C41) is the loop suggested by obu_processor.h:146-161: push a chunk, call ProcessTemporalUnit until
  `continue_processing` is false, Flush.
* In the frame generator the arithmetic, the gains and the coders are parameters; only states after successful calls are described.
* In the encoder the subblocks of parameter blocks and the coders are parameters; decoding, demixing, loudness and the sequencers are left out
  (they can make a call fail, but do not change what is output); only histories of successful calls are described.
* In the rendering model the arithmetic, the codecs, OBR, the table of precomputed gain matrices and the interpolation formulas are
  parameters; DEADLINE_EXCEEDED (a flush which stays empty) is `Err Unknown`.
* Loudness, resampling, Opus/AAC/FLAC codec libraries, protobuf parsing, the encoder's other generators and
  the file based readers are not modelled.

## 5. Findings (all by reading the code; the ones marked with a property are proved as theorems about the model)

* F1 read_bit_buffer.cc:387-400 loops forever when capacity is 0 (C04).
* F2 read_bit_buffer.h:302 `is_position_valid_` has no initialiser; Seek before any Tell reads an indeterminate bool (C06).
* F3 obu_header.cc:190-198 the subtrahend is computed in uint32_t and can wrap; a 4 GiB extension header passes the check (C16).
* F4 obu_header.cc:214 total_obu_size is computed in uint32_t and can wrap (C15).
* F5 param_definition_base.cc:125-128 mode 1 returns before Validate(): parameter_rate 0 etc. are accepted (C23).
* F6 temporal_unit_view.cc:72-78 cumulative trim wraps in uint32_t (C28).
* F7 iamf_decoder.cc:440-466 when the output buffer is too small the pending temporal unit is overwritten by the next one (C31).
* F8 a Seek to a position from before a Flush is accepted after a literal read (C06).
* F9 metadata: country-code extension byte is not written unless the code is 0xFF (C20).
* F10 more than 128 FLAC metadata blocks are written but cannot be read (C21).
* F11 parameter block writer does not check the number of subblocks against the definition (C24).
* F12 audio_element.cc:588-599 extension audio element config bytes are lost (C34).
* F13 unknown ambisonics_mode is accepted and treated as mono.  F14/F15 256 or more channels / layers are truncated to uint8 (C34).
* F16/F17 the mix presentation writer accepts more labels / sub-mixes than the reader.  F18 a footer without tags is parsed as tags (C35).
* F19 a demixing or recon gain parameter ID shared by two audio elements mixes up their state (C27, C39).
* F20 InterpolateMixGainValue narrows int64 times to int (C25).
* F21 TemporalUnitView depends on the first frame's samples per frame, so on the order of its input (C28).
* F22 a failed Reset/ResetWithNewMix leaves the old ObuProcessor with a pointer to the destroyed read buffer.
* F23 the decoder never hands demixing / recon gain parameter blocks to the ParametersManager (C42).
* F24 an empty temporal unit (two temporal delimiters in a row, or a unit which renders to nothing) stops the decoder API from
  delivering what was already pushed.
* F25 a lost parameter block desynchronises that parameter for the rest of the stream (C43).
* F26 the requested channel ordering is ignored for units decoded before the reorderer is set.
* F27 FloatToQ7_8 truncates towards zero although it is documented as flooring (C45).
* F28 encoder_base.cc:35-52 only checks the first channel's length; WritePcmFrameToBuffer then reads out of bounds.
* F29 obu_with_data_generator.cc:193 only checks that an expanded layout is not in a later layer; an expanded first layer followed by
  further layers is accepted, and two substreams may then carry the same channels (C46). Object-based elements get no labels at all
  (FinalizeObjectsConfig is never called), so their audio frames are dropped as stray.
* F30 channel_reorderer.cc leaves 7.1.5.4 (sound system 14) out, so it is not put into Android's order (C47).
* F31 a temporal unit with parameter blocks but no audio frame renders to a frame without channels; with Android channel ordering and a
  layout which is reordered, ABSL_CHECK_OK in DecodeOneTemporalUnit then aborts the process (C48).
* F32 GetOutputTemporalUnit hands out the pending unit, decodes the next one, and returns the *next* one's error: a caller who ignores
  the output of failed calls loses the unit (C31).
* F33 bytes after the descriptors given to CreateFromDescriptors are kept and decoded, but a Reset drops them (C32).
* F34 layouts are compared with their reserved bits: a mix whose stereo layout has reserved bits set does not offer the requested stereo layout, a second one is appended (C50_reserved_bits).
* F35 object-based audio elements carry no channel labels, so they do not count against a profile's channel limit (C49_objects_are_free).
* F36 rendering_config.cc:274-300 tries to parse a rendering config extension as parameter definitions, and may read beyond the
  extension and beyond the OBU; when the data end there it falls back to opaque bytes. So whether a mix presentation is accepted depends on how much
  of the following stream has already been pushed (C51_extension_refuted).
* F37 expanded loudspeaker layouts 20 and 255 are accepted with no channels while 21-254 are refused (C46, C49).
* F38 CreateFromDescriptors returns a non-null decoder together with a failure status.
* F39 an ObuSequencerBase which delays descriptors drops the delayed temporal units when Close comes before the first untrimmed sample
  (C54_session_delayed_false); UpdateDescriptorObusAndClose then pushes final descriptors without initial ones (C54_update_first_ex).
* F40 Close does not abort when the concrete class refuses the delayed descriptors, and a later temporal unit is pushed without
  descriptors (C54_protocol_refused_false).
* F41 a misused (already closed) streaming sequencer throws its descriptors away (C54_misuse_ex); the key frame flag given to the concrete
  class only looks at arbitrary OBUs.
* F42 a redundant repetition of the descriptors duplicates every mix presentation in the decoder's list (C55_repeated): the list of mix
  presentations is appended to, while codec configs and audio elements are keyed by ID
* F43 an arbitrary OBU hooked kInsertionHookBeforeDescriptors is written before the IA Sequence Header, and no decoder can read
  the result (C55_before_descriptors_refused)
* F44 a default demixing weight index of 11 to 15 (four bits in the bitstream) is written and read without complaint; then every audio
  frame of that element which is not covered by a demixing parameter block is dropped and nothing fails (C57_reserved_weight_refuted)
* F45 downmixer_manager.cc:97-120 divides a channel by the output gain of its layer before it is coded; demixing_manager.cc:69 stores the
  gains but nothing ever multiplies by them, so a stream with output gains is decoded at the wrong level (C59_output_gain_refuted)
* F46 recon gains are parsed and passed along with the labeled frame (demixing_manager.cc:200-229) but never applied to demixed channels
* F47 a stream with layout 7.1.5.4 (sound system 14) is played with 17 channels, but GetOutputMix fails since the API has no name for the
  layout (C56_layout_named_refuted)
* F48 default_layout_renderer.cc:91-157 applies the mix gains from the start of the parameter block to the samples which remain after
  trimming: with samples trimmed at the start every gain is late by that many samples (C60_gains_follow_trimming_refuted)
* F49 default_layout_renderer.cc:258-277: an audio element without a frame in the unit plays its samples of the previous unit again, with
  the mix gain applied once more (C60_missing_element_refuted)
* F50 binaural rendering of projection-mode ambisonics fails on every frame with trimmed samples, renderer_utils.cc:246 wants full frames
  (C60_binaural_projection_trim_refuted)
* F51 audio_element_renderer_binaural.cc:316-326 copies a trimmed frame into the OBR input buffer but leaves the tail of the previous
  frame behind it
* F52 obu_util.h:97-108 (Bezier interpolation) computes 2 * n_1 in int: a library caller of GetLinearMixGains with a curve longer than
  2^30 ticks gets an int overflow (C25_long_curve_refuted); C63 shows that the decoder cannot be made to do it
* F53 obu_header.cc:200-216 adds the size field, its length and 1 in uint32_t and wraps around; in probe.cc:1052-1061 an unreadable header is
  skipped by that many bytes without the check of 1258-1263, so 6 bytes (xx FA FF FF FF 0F) keep the probe at the same place for all its
  10,000,000 iterations; the comments say that every iteration consumes bytes (C66_spins)
* F54 temporal_units.size() and temporal_unit_count differ on unusual orders of OBUs, both ways, in spite of probe.cc:990-993
  (C66_index_size_differs)
* F55 without temporal delimiters the index points at the first audio frame of a unit, after its parameter blocks, except for the first unit
  (C66_offset_ex)
* F56 probe.cc:1146-1176: the ID of a parameter block without payload is peeked from the next OBU; a quick scan counts it as a good block
  (C66_quick_ex)
* F57 audio_frame_generator.cc:493-531, 838-856: if Finalize is called after the frame with the last samples was taken, no frame is left
  to carry the user's end trim: it is dropped without an error (C67_late_finalize_refuted).
* F58 audio_frame_generator.cc: with a coder delay and no samples at all, GeneratingFrames stays true for ever after Finalize
  (C67_nothing_added_refuted).
* F59 with `num_samples_to_trim_at_end_includes_padding` false, a block shorter than a frame in mid-stream is padded, and the padding is
  trimmed at the *end* of the stream, where real samples are cut for it (C67_short_block_refuted).
* F60 trim plus padding above one frame is refused, but only when the last frame is made, after everything else was output
  (C67_trim_over_frame).
* F61 AddSamples for a label which already has samples of the same round replaces them without an error.
* F62 an audio element without audio frame metadata makes OutputFrames abort once it flushes; elements of different length: the one which
  ends first is erased and the next flush fails with InvalidArgument; two metadata of one element pad the delay twice.
* F63 with a coder delay the k-th frame carries the parameters of the k-th round although its first samples are those of round k-1
  (C67_frames says which).

* F64 iamf_encoder.cc:644-658: parameter blocks which start after the last audio frame stay in the encoder and are dropped without an error
  (C68_blocks_after_the_end_refuted).
* F65 recon gains given to Encode ahead of their frames are computed from the frames of the unit which is output next, not from those they
  apply to (iamf_encoder.cc:640, C68_early_recon_gain_refuted).
* F66 metadata for position parameters (polar, cart8, cart16, ...) are accepted by AddMetadata and never made into blocks
  (C68_positions_refuted).
* F67 OutputTemporalUnit leaves the caller's vector as it is when there is nothing to output; the documented streaming loop would send
  the previous unit again (C68_stale_unit_refuted).
* F68 an arbitrary OBU whose timestamp is that of no frame, and which is not marked as out of place, makes OutputTemporalUnit fail, but only
  after all frames were output, so the sequence is never closed (C68_stray_refuted).
* F69 the check that the channels of an element have the same number of samples (audio_frame_generator.cc:253-274) only looks at the labels
  in the audio frame metadata.  If these leave out a channel of a coupled pair, samples given for it may be fewer than those of the other: the
  frame is encoded with channels of different lengths, ValidateInputSamples (encoder_base.cc:33-52) only checks the first, and
  WritePcmFrameToBuffer reads behind the end of the other (C69_undeclared_read_refuted); later its iterator is left in a frame which was
  popped (C69_undeclared_place_refuted).  iamf_encoder.cc:500 has a TODO for the labels.
* F70 cutting a linear animation into frames: InterpolateMixGainParameterData computes with float32 and FloatToQ7_8 rounds towards zero, so a
  constant gain of -2046/256 dB over three frames of 1024 becomes one from -2046 to -2045 and back (C70_flat_refuted), and a constant gain of
  32767/256 dB over nine frames is above the range and the whole encoding is refused (C70_greatest_refuted).  A block which does not end with a
  frame is refused (C70_uneven_refuted).

* F71 the float32 Bezier computation (obu_util.h:82-115) loses its accuracy for long curves: at tick 2000000 of a curve of 2097153 ticks from 0 to
  100 dB with control point 0 dB the result is 100 dB, the curve is below 92 dB there (C71_long_curve_refuted): the discriminant cancels.  The
  control time is rounded twice above 2^24/256 ticks (C71_long_control_refuted).
* F72 WavWriter::Abort of a writer whose file is closed (after Flush or Abort) calls std::fclose(nullptr) (C72_abort_closed_refuted); a writer for
  no channels divides by zero in WritePcmSamples (C72_no_channels_refuted).
* F73 The probe tool prints the bytes of strings from the
  bitstream (C73_utf8_refuted) without a check that they are UTF-8, which RFC 8259 (8.1) wants: a label
  with the byte 255 gives a text which a strict reader of JSON refuses.

Other behaviours worth knowing: descriptors given as complete may be followed by anything once a second sequence header has been seen; after a descriptor header error the read
position is not rewound; a refused GetNextParameterBlockTimestamps still advances time (C26); fields which are not coded read
back as defaults (C24, C34); footers of Audio Frame and T.35 metadata OBUs become part of the payload (C19, C20); the FLAC STREAMINFO
length is ignored on read; in CreateFromDescriptors mode a chunk boundary splits a temporal unit; the streaming decoder waits for an
oversize OBU until the 4 MiB push limit.

## 6. Testing the theorems

seeded/LOG.jsonl records edits of the model in a scratch copy (realistic bugs), which theorems failed, and which were tightened.
