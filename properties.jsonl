{"id": "C01", "title": "Bit writer is an exact big-endian append log", "statement": "For a WriteBitBuffer, any sequence of WriteUnsignedLiteral / WriteUnsignedLiteral64 / WriteUint8Span calls leaves in bit_buffer() exactly the concatenation, most significant bit first, of the bits of the calls that succeeded, zero padded to a byte; bit_offset() is the number of bits, bit_buffer().size() is ceil(bit_offset/8), earlier bits are never changed, and IsByteAligned-dependent fast paths give the same result as the bit-by-bit path. A call fails with InvalidArgument exactly when num_bits is negative, larger than the type allows, or the value does not fit (a zero-width write always succeeds and writes nothing), and a failed literal write changes nothing.", "quantifier": "every sequence of write calls with every value, width and alignment", "why_tests_cant": "the fast/slow path split depends on the alignment left by the whole history of writes; tests sample a few offsets", "anchors": ["iamf/common/write_bit_buffer.cc:InternalWriteUnsigned", "iamf/common/write_bit_buffer.cc:WriteBit", "iamf/common/write_bit_buffer.cc:WriteBitBuffer::WriteUint8Span", "iamf/common/write_bit_buffer.cc:MaybeResizeBufferToFitNumBits"]}
{"id": "C02", "title": "Bit reader behaves as a cursor over the source, whatever its internal capacity", "statement": "For a ReadBitBuffer with internal capacity of at least one byte, every sequence of ReadUnsignedLiteral / Tell / Seek / IgnoreBytes / NumBytesAvailable calls returns what a plain cursor over the whole source would return: literals are the next bits MSB first, Tell is the number of bits consumed, Seek to p in [0,size] succeeds and moves the cursor to p; results never depend on the capacity or on how the window was loaded, and no internal check aborts.", "quantifier": "every source, every capacity > 0, every sequence of operations, every width 0..64 and alignment", "why_tests_cant": "window reloads, partially read bytes and seeks backwards interact; the state space is the product of window position, alignment and history", "anchors": ["iamf/common/read_bit_buffer.cc:ReadBitBuffer::ReadUnsignedLiteralInternal", "iamf/common/read_bit_buffer.cc:ReadBitBuffer::Seek", "iamf/common/read_bit_buffer.cc:MemoryBasedReadBitBuffer::LoadBytesToBuffer"]}
{"id": "C03", "title": "Running out of data is reported exactly and consumes nothing", "statement": "ReadUnsignedLiteral(n) returns ResourceExhausted if and only if n is a legal width and fewer than n bits remain; in that case, and when the width is illegal, the reading position is unchanged; on success the position advances by exactly n.", "quantifier": "every source, position and width", "why_tests_cant": "the streaming decoder relies on the iff for every truncation point of every stream", "anchors": ["iamf/common/read_bit_buffer.cc:ReadBitBuffer::ReadUnsignedLiteralInternal"]}
{"id": "C04", "title": "Reads on a buffer created with capacity 0 terminate", "statement": "CreateFromFilePath(0, f) and StreamBasedReadBitBuffer::Create(0) are accepted by their contracts (capacity_bytes >= 0); reading from such a buffer must terminate with a status.", "quantifier": "every non-empty source and every read width on a zero-capacity buffer", "why_tests_cant": "non-termination cannot be observed by a test that passes; the claim is about every execution being finite", "anchors": ["iamf/common/read_bit_buffer.cc:FileBasedReadBitBuffer::CreateFromFilePath", "iamf/common/read_bit_buffer.cc:StreamBasedReadBitBuffer::Create", "iamf/common/read_bit_buffer.cc:ReadBitBuffer::ReadUnsignedLiteralInternal"]}
{"id": "C05", "title": "Streaming pushes and flushes are transparent", "statement": "For a StreamBasedReadBitBuffer, if the same bytes are pushed in any chunking and Flush is called at any points, the sequence of successful reads returns the same data as a single in-memory buffer holding all the bytes; Flush never discards unread bits, never aborts, keeps the number of available bytes, and a push is refused exactly when the retained bytes would exceed 4 MiB.", "quantifier": "every byte stream, every chunking, every interleaving of pushes, reads, seeks and flushes", "why_tests_cant": "exponentially many chunkings and flush points", "anchors": ["iamf/common/read_bit_buffer.cc:StreamBasedReadBitBuffer::PushBytes", "iamf/common/read_bit_buffer.cc:StreamBasedReadBitBuffer::Flush"]}
{"id": "C06", "title": "Seek is defined on a freshly created buffer and is disabled after Flush until Tell", "statement": "Seek(p) on a freshly created buffer is well defined for 0<=p<=size; after Flush, Seek is refused with FailedPrecondition until a new position has been obtained.", "quantifier": "every buffer and history", "why_tests_cant": "the first half depends on an uninitialised member: a test may pass or fail depending on memory contents", "anchors": ["iamf/common/read_bit_buffer.h:ReadBitBuffer::is_position_valid_", "iamf/common/read_bit_buffer.cc:ReadBitBuffer::Seek", "iamf/common/read_bit_buffer.cc:ReadBitBuffer::Tell"]}
{"id": "C07", "title": "ULEB128 write/read round trip and size", "statement": "For every 32-bit value, WriteUleb128 in minimum mode writes the shortest ULEB128 (ceil(bits/7) bytes, at least 1, at most 5), in fixed-size-k mode it writes exactly k bytes or fails with InvalidArgument exactly when k bytes are too few; ReadULeb128 on the result returns the value, the encoded size, and leaves the cursor just after it, at any bit alignment.", "quantifier": "all 2^32 values x 9 generation modes x all alignments and trailing data", "why_tests_cant": "2^32 x 9 values", "anchors": ["iamf/common/leb_generator.cc:Leb128ToUint8Vector", "iamf/common/write_bit_buffer.cc:WriteBitBuffer::WriteUleb128", "iamf/common/read_bit_buffer.cc:ReadBitBuffer::ReadULeb128"]}
{"id": "C08", "title": "ULEB128 reader accepts exactly the legal encodings", "statement": "ReadULeb128 succeeds if and only if the data starts with a byte sequence of length at most 8 whose only byte without continuation bit is the last and whose value is below 2^32; the result is then sum of 7-bit groups; otherwise the error is ResourceExhausted only if the data ended, InvalidArgument otherwise.", "quantifier": "every byte sequence", "why_tests_cant": "2^64 possible 8-byte prefixes", "anchors": ["iamf/common/read_bit_buffer.cc:AccumulateUleb128OrIso14496_1Internal", "iamf/common/read_bit_buffer.cc:AccumulateUleb128Byte"]}
{"id": "C09", "title": "SLEB128 encoding is correct", "statement": "For every 32-bit signed value the bytes produced by Sleb128ToUint8Vector, interpreted as a standard SLEB128 (sign extended from bit 6 of the last byte), give the value back; fixed-size mode pads to exactly the requested size.", "quantifier": "all 2^32 signed values x 9 modes", "why_tests_cant": "2^32 x 9 values", "anchors": ["iamf/common/leb_generator.cc:Leb128ToUint8Vector", "iamf/common/leb_generator.cc:LebGenerator::Sleb128ToUint8Vector"]}
{"id": "C10", "title": "ISO 14496-1 expandable size round trip", "statement": "For every 32-bit size, ReadIso14496_1Expanded(max) after WriteIso14496_1Expanded returns the size if size<=max and InvalidArgument otherwise.", "quantifier": "all 2^32 sizes and maxima, any alignment", "why_tests_cant": "2^64 combinations", "anchors": ["iamf/common/write_bit_buffer.cc:WriteBitBuffer::WriteIso14496_1Expanded", "iamf/common/read_bit_buffer.cc:ReadBitBuffer::ReadIso14496_1Expanded"]}
{"id": "C11", "title": "String round trip and rejection", "statement": "WriteString accepts exactly strings of at most 127 bytes without embedded NUL; a written string is read back by ReadString unchanged and the cursor is after the terminator; a string without terminator in 128 bytes is rejected with InvalidArgument.", "quantifier": "every string", "why_tests_cant": "256^127 strings", "anchors": ["iamf/common/write_bit_buffer.cc:WriteBitBuffer::WriteString", "iamf/common/read_bit_buffer.cc:ReadBitBuffer::ReadString"]}
{"id": "C12", "title": "Signed literal round trip", "statement": "WriteSigned8/9/16 followed by ReadSigned8/9/16 returns the same number for every value in range, at any alignment; WriteSigned9 refuses exactly the values outside [-256,255].", "quantifier": "all values, alignments", "why_tests_cant": "all values at all alignments and contexts", "anchors": ["iamf/common/write_bit_buffer.cc:WriteBitBuffer::WriteSigned9", "iamf/common/read_bit_buffer.cc:ReadBitBuffer::ReadSigned9", "iamf/common/read_bit_buffer.cc:ReadBitBuffer::ReadSigned16"]}
{"id": "C13", "title": "OBU header round trip", "statement": "If ObuHeader::ValidateAndWrite succeeds for a header and payload size, ReadAndValidate on the bytes written returns the same type, flags, extension bytes, trims (when the trimming flag applies) and the same payload size, and consumes exactly the header bytes, for every LEB generator.", "quantifier": "every header, payload size and LEB mode", "why_tests_cant": "unbounded extension bytes and 2^64 trims x sizes", "anchors": ["iamf/obu/obu_header.cc:ObuHeader::ValidateAndWrite", "iamf/obu/obu_header.cc:ObuHeader::ReadAndValidate", "iamf/obu/obu_header.cc:GetObuSizeAndValidate"]}
{"id": "C14", "title": "No written OBU exceeds 2 MiB and obu_size is exact", "statement": "Whenever ValidateAndWriteObu succeeds, the number of bytes appended is exactly 1 + (bytes of obu_size) + obu_size, obu_size counts every byte after itself, and the total is at most 2^21.", "quantifier": "every OBU of every type and LEB mode", "why_tests_cant": "size boundary depends on every field", "anchors": ["iamf/obu/obu_header.cc:ValidateObuIsUnderTwoMegabytes", "iamf/obu/obu_base.cc:ObuBase::ValidateAndWriteObu"]}
{"id": "C15", "title": "Peeking a header consumes nothing and reports the true OBU extent", "statement": "PeekObuTypeAndTotalObuSize leaves the read position unchanged on success and on failure, reports ResourceExhausted only if the type/size fields are truncated, and on any OBU produced by ValidateAndWriteObu returns its type and exact total size. For arbitrary data total_obu_size equals 1 + size(obu_size) + obu_size.", "quantifier": "every byte stream and position", "why_tests_cant": "the last clause is about 2^32 obu_size values incl. those near the 32-bit limit", "anchors": ["iamf/obu/obu_header.cc:ObuHeader::PeekObuTypeAndTotalObuSize", "iamf/obu/obu_header.cc:FillHeaderMetadata"]}
{"id": "C16", "title": "Implausible extension headers are refused before allocation", "statement": "ReadAndValidate never accepts (or starts reading) an extension header larger than obu_size allows: if the trims and extension do not fit in obu_size it returns InvalidArgument.", "quantifier": "every header encoding", "why_tests_cant": "requires 32-bit values near wrap-around", "anchors": ["iamf/obu/obu_header.cc:GetObuPayloadSize", "iamf/obu/obu_header.cc:ObuHeader::ReadAndValidate"]}
{"id": "C17", "title": "OBU framing: a reader always ends exactly at the end of the OBU, keeping unknown trailing bytes", "statement": "If reading an OBU payload of n bytes succeeds, exactly n bytes were consumed, and the bytes not understood are kept in footer_ in order; a payload parser that would read past the payload makes the read fail; writing an OBU with a footer and reading it back returns the same OBU and footer.", "quantifier": "every payload parser, OBU and footer", "why_tests_cant": "forward compatibility claim over all future payload contents", "anchors": ["iamf/obu/obu_base.cc:ObuBase::ReadAndValidatePayload", "iamf/obu/obu_base.cc:ObuBase::ValidateAndWriteObu"]}
{"id": "C18", "title": "IA Sequence Header round trip and fourcc check", "statement": "A written IA Sequence Header OBU is read back equal; the reader accepts exactly ia_code 'iamf' with primary profile 0..5.", "quantifier": "every profile pair, header, LEB mode, footer", "why_tests_cant": "all combinations with headers/footers", "anchors": ["iamf/obu/ia_sequence_header.cc:IASequenceHeaderObu"]}
{"id": "C19", "title": "Audio Frame OBU round trip with implicit and explicit IDs", "statement": "An Audio Frame OBU built for any substream ID and frame bytes is written with OBU type 6+id for id<=17 and type 5 with an explicit ID otherwise, and is read back with the same ID and bytes.", "quantifier": "every ID, frame, header, LEB mode", "why_tests_cant": "unbounded frames", "anchors": ["iamf/obu/audio_frame.cc:AudioFrameObu"]}
{"id": "C20", "title": "Temporal delimiter and metadata OBUs round trip", "statement": "Temporal delimiter OBUs and Metadata OBUs (ITU-T T.35 and IAMF tags) accepted by the writer are read back equal.", "quantifier": "every metadata content", "why_tests_cant": "unbounded contents", "anchors": ["iamf/obu/temporal_delimiter.h:TemporalDelimiterObu", "iamf/obu/metadata_obu.cc:MetadataObu"]}
{"id": "C21", "title": "Codec Config OBU round trip for all codecs", "statement": "A Codec Config OBU accepted by the writer (LPCM, Opus, FLAC, AAC-LC) is read back with the same fields, including roll distance and decoder config.", "quantifier": "every codec config", "why_tests_cant": "large product of fields with cross-field validation", "anchors": ["iamf/obu/codec_config.cc:CodecConfigObu", "iamf/obu/decoder_config/lpcm_decoder_config.cc", "iamf/obu/decoder_config/opus_decoder_config.cc", "iamf/obu/decoder_config/flac_decoder_config.cc", "iamf/obu/decoder_config/aac_decoder_config.cc"]}
{"id": "C22", "title": "Subblock schedules partition their duration", "statement": "For every schedule created by CreateWithConstantSubblockDuration / CreateWithVariableSubblockDuration or read from a buffer, the subblock durations are all positive, there are between 1 and the maximum number of them, and they sum exactly to GetDuration(); with constant duration all but the last equal it and the last is at most it.", "quantifier": "every duration and subblock duration vector", "why_tests_cant": "2^64 pairs and unbounded vectors; overflow cases", "anchors": ["iamf/obu/param_definitions/subblock_schedule.cc:SubblockSchedule"]}
{"id": "C23", "title": "Parameter definitions: round trip, and the reader only accepts valid definitions", "statement": "A parameter definition (mix gain, demixing, recon gain, polar, extension) accepted by ValidateAndWrite is read back equal. Every definition accepted by ReadAndValidate satisfies Validate() (so it can be written again).", "quantifier": "every definition and every byte stream", "why_tests_cant": "all byte streams", "anchors": ["iamf/obu/param_definitions/param_definition_base.cc:ParamDefinition::ReadAndValidate", "iamf/obu/param_definitions/param_definition_base.cc:ParamDefinition::Validate"]}
{"id": "C24", "title": "Parameter Block OBU round trip in both modes", "statement": "A Parameter Block OBU with mix gain, demixing or recon gain subblocks, schedule in the definition or in the block, accepted by the writer is read back (against the same definition) with the same schedule and subblocks.", "quantifier": "every schedule and subblock contents", "why_tests_cant": "unbounded number of subblocks", "anchors": ["iamf/obu/parameter_block.cc:ParameterBlockObu", "iamf/obu/param_definitions/subblock_schedule.cc:SubblockSchedule::Write", "iamf/obu/mix_gain_parameter_data.cc", "iamf/obu/recon_gain_info_parameter_data.cc", "iamf/obu/demixing_info_parameter_data.cc"]}
{"id": "C25", "title": "Each tick's mix gain comes from the subblock that covers it", "statement": "GetLinearMixGains computes the gain of tick t from the subblock i with sum(d_0..d_{i-1}) <= t < sum(d_0..d_i), relative to that subblock's start and end, and leaves ticks after the end of the block untouched.", "quantifier": "every schedule and tick", "why_tests_cant": "unbounded schedules", "anchors": ["iamf/obu/parameter_block.cc:ParameterBlockObu::GetLinearMixGains", "iamf/common/utils/obu_util.h:InterpolateMixGainValue"]}
{"id": "C26", "title": "Per-stream timestamps are contiguous", "statement": "For every sequence of GetNextAudioFrameTimestamps / GetNextParameterBlockTimestamps calls, the intervals returned for one ID are contiguous: the first starts at 0, each starts where the previous ended and has the requested duration; IDs do not influence each other; the global timestamp is reported exactly when all substreams have advanced equally, and equals that common time.", "quantifier": "every history of calls over any set of IDs", "why_tests_cant": "all histories", "anchors": ["iamf/cli/global_timing_module.cc:GlobalTimingModule"]}
{"id": "C27", "title": "Demixing weight index follows the specification recursion", "statement": "For every history of added parameter blocks and queries, the down-mixing weight index used for frame k is 0 for the first frame, and clip(0,10, w(k-1)+offset(mode k)) afterwards; it always lies in 0..10; with no parameter block the definition's default is used; a gap in timestamps is refused.", "quantifier": "every history of modes", "why_tests_cant": "all histories", "anchors": ["iamf/cli/parameters_manager.cc:ParametersManager", "iamf/obu/demixing_info_parameter_data.cc:DemixingInfoParameterData::DMixPModeToDownMixingParams"]}
{"id": "C28", "title": "Temporal unit validation: accepted units are consistent and canonical", "statement": "If TemporalUnitView creation succeeds, all audio frames and parameter blocks share start/end timestamps and trims, substream and parameter IDs are unique, the views are sorted by ID and contain the same items as the input, and the result does not depend on the input order. Trims never exceed the frame: trim_at_start + trim_at_end + untrimmed = samples per frame.", "quantifier": "every list of OBUs in every order", "why_tests_cant": "all permutations; 32-bit wrap-around of the trims", "anchors": ["iamf/cli/temporal_unit_view.cc:TemporalUnitView::CreateFromPointers"]}
{"id": "C29", "title": "Streaming temporal-unit processing does not depend on chunk boundaries", "statement": "Feeding the same IA Sequence bytes to the decoder in any chunking yields the same sequence of OBUs and temporal units as feeding it at once: an incomplete OBU is never partially processed, and processing resumes exactly at its first byte.", "quantifier": "every stream and every chunking", "why_tests_cant": "exponentially many chunkings", "anchors": ["iamf/cli/obu_processor.cc:ProcessTemporalUnitObu", "iamf/cli/obu_processor.cc:ObuProcessor::ProcessTemporalUnit", "iamf/api/decoder/iamf_decoder.cc:IamfDecoder::Decode"]}
{"id": "C30", "title": "Unknown or broken OBUs are skipped exactly", "statement": "Reserved OBUs, redundant descriptor copies and OBUs whose payload fails to parse in a temporal unit are skipped as a whole: the next OBU processed starts exactly after them and decoder state derived from other OBUs is unaffected.", "quantifier": "every stream", "why_tests_cant": "all contents of the skipped OBU", "anchors": ["iamf/cli/obu_processor.cc:ProcessTemporalUnitObu"]}
{"id": "C31", "title": "Decoded output is delivered once, in order, without loss", "statement": "Every temporal unit that the decoder renders is returned by exactly one successful GetOutputTemporalUnit call, in order; a call that fails because the output buffer is too small loses nothing.", "quantifier": "every sequence of API calls", "why_tests_cant": "all interleavings of Decode / GetOutputTemporalUnit / SignalEndOfDecoding", "anchors": ["iamf/api/decoder/iamf_decoder.cc:IamfDecoder::GetOutputTemporalUnit", "iamf/api/decoder/iamf_decoder.cc:DecodeOneTemporalUnit"]}
{"id": "C32", "title": "Decoder life cycle", "statement": "Decode is refused after SignalEndOfDecoding until Reset; Reset is refused unless created from descriptors, and otherwise restores the state of a freshly created decoder; getters fail before descriptors are processed and are stable afterwards.", "quantifier": "every sequence of API calls", "why_tests_cant": "all call histories", "anchors": ["iamf/api/decoder/iamf_decoder.cc:IamfDecoder"]}
{"id": "C33", "title": "PCM output frames are written completely and in interleaved order", "statement": "GetOutputTemporalUnit writes, for ticks t then channels c, the little-endian 16- or 32-bit sample, exactly channels*ticks*bytes bytes, and never writes past the output span; samples are saturated, never wrapped.", "quantifier": "every frame, sample value and buffer size", "why_tests_cant": "all sample values and shapes", "anchors": ["iamf/api/decoder/iamf_decoder.cc:WriteFrameToSpan", "iamf/cli/sample_processing_utils.cc:WritePcmSample", "iamf/common/utils/numeric_utils.h:NormalizedFloatingPointToInt32"]}
{"id": "C34", "title": "Audio Element OBU round trip", "statement": "An Audio Element OBU (channel-based with 1..6 layers, ambisonics mono/projection, extension) accepted by the writer is read back equal.", "quantifier": "every audio element", "why_tests_cant": "large cross-field validation", "anchors": ["iamf/obu/audio_element.cc:AudioElementObu", "iamf/obu/ambisonics_config.cc"]}
{"id": "C35", "title": "Mix Presentation OBU round trip", "statement": "A Mix Presentation OBU accepted by the writer is read back equal.", "quantifier": "every mix presentation", "why_tests_cant": "unbounded nesting of sub-mixes, layouts, labels", "anchors": ["iamf/obu/mix_presentation.cc:MixPresentationObu"]}
{"id": "C36", "title": "PCM sample bytes round trip", "statement": "Writing a 32-bit left-justified sample as 8/16/24/32-bit PCM bytes and reading it back keeps exactly its upper bits, in both endiannesses.", "quantifier": "every sample and width", "why_tests_cant": "2^32 samples x widths", "anchors": ["iamf/cli/sample_processing_utils.cc:WritePcmSample", "iamf/common/utils/numeric_utils.cc:LittleEndianBytesToInt32", "iamf/common/utils/numeric_utils.cc:BigEndianBytesToInt32"]}
{"id": "C37", "title": "Header flags are accepted exactly for the OBU types that may carry them", "statement": "obu_redundant_copy is refused by writer and reader for parameter blocks, temporal delimiters and audio frames and accepted elsewhere; the type-specific flag is refused except for audio frames, temporal delimiters and mix presentations; no other header is refused because of its flags.", "quantifier": "every header, every preceding write, every byte string read at every position with every buffer capacity", "why_tests_cant": "product of 32 types, flags and all surrounding data", "anchors": ["iamf/obu/obu_header.cc:Validate", "iamf/obu/obu_header.cc:ValidateAndWrite", "iamf/obu/obu_header.cc:ReadAndValidate"]}
{"id": "C38", "title": "Mix gains lie on the specification's curve", "statement": "For every mix gain parameter block, the linear gain written for a tick is 10^(g/20) where g is the step value, the straight line between both points, or the value of the quadratic Bezier curve at the parameter in [0,1] whose time is the tick (control time rounded to nearest); no square root of a negative number and no division by zero occurs; g stays between the smallest and largest control point; the curve starts at the start point.", "quantifier": "every block, tick, animation and control point (exact real arithmetic)", "why_tests_cant": "continuum of control points, all durations", "anchors": ["iamf/common/utils/obu_util.h:InterpolateMixGainValue", "iamf/obu/parameter_block.cc:ParameterBlockObu::GetLinearMixGains"]}
{"id": "C39", "title": "Recon gains come from the block of the current frame", "statement": "For every history of added blocks, queries and completed frames, a recon gain query returns the elements of the last block added for this frame if it starts where the previous block ended, refuses a gap or a wrong number of layers, and otherwise (no block, or no definition) returns gain 255 with flag 0 for all 12 channels of every layer; completing a frame succeeds exactly if it ends where the block ends.", "quantifier": "every history over any set of audio elements", "why_tests_cant": "all interleavings", "anchors": ["iamf/cli/parameters_manager.cc:ParametersManager::GetReconGainInfoParameterData", "iamf/cli/parameters_manager.cc:ParametersManager::UpdateReconGainState"]}
{"id": "C40", "title": "Temporal units partition the stream", "statement": "Whatever the chunking, every audio frame and parameter block that the processor accepts is in exactly one returned temporal unit, in stream order; a returned unit is never empty, everything in it starts at the unit's timestamp, and two neighbouring units have different timestamps unless a temporal delimiter separates them.", "quantifier": "every sequence of OBUs and every chunking", "why_tests_cant": "all streams, timestamps and delimiter placements", "anchors": ["iamf/cli/obu_processor.cc:ObuProcessor::ProcessTemporalUnit", "iamf/cli/obu_processor.h:TemporalUnitData::AddDataToCorrectTemporalUnit"]}
{"id": "C41", "title": "No byte stream crashes or hangs temporal unit processing", "statement": "After valid descriptors, whatever bytes are pushed in whatever chunks, processing the buffered data ends with success or an error status: no abort, no undefined behaviour, no endless loop.", "quantifier": "every byte stream and chunking", "why_tests_cant": "all byte streams", "anchors": ["iamf/cli/obu_processor.cc:ProcessTemporalUnitObu", "iamf/cli/obu_processor.cc:ObuProcessor::ProcessTemporalUnit", "iamf/cli/obu_with_data_generator.cc:GenerateAudioFrameWithData"]}
{"id": "C42", "title": "Decoded frames use the demixing and recon gain parameters signalled for them", "statement": "When a stream contains a demixing or recon gain parameter block for the audio element and the time of an audio frame, the decoded frame carries the parameters of that block; otherwise those of the parameter definition.", "quantifier": "every stream", "why_tests_cant": "all parameter block contents and positions", "anchors": ["iamf/cli/obu_processor.cc:GetAndStoreParameterBlockWithData", "iamf/cli/obu_with_data_generator.cc:GenerateAudioFrameWithData", "iamf/cli/parameters_manager.cc:ParametersManager"]}
{"id": "C43", "title": "A lost parameter block affects only its own time span", "statement": "When parameter block OBUs are missing from a stream, every audio frame and every other parameter block is decoded as before.", "quantifier": "every stream and every set of lost parameter blocks", "why_tests_cant": "all streams and loss patterns", "anchors": ["iamf/cli/global_timing_module.cc:GlobalTimingModule::GetNextParameterBlockTimestamps", "iamf/cli/obu_processor.cc:ProcessTemporalUnitObu"]}
{"id": "C44", "title": "LPCM coding is lossless", "statement": "Encoding a frame of left-justified 32-bit samples as LPCM of 8, 16, 24 or 32 bits in either endianness and decoding it gives back, sample by sample, exactly the value of the upper bytes divided by 2^31; little-endian 16- and 32-bit LPCM data decoded and written with the same output sample type comes out byte for byte; data which is not a whole number of ticks, or is longer than the frame, is refused.", "quantifier": "every frame, channel count, width and endianness", "why_tests_cant": "all samples and shapes; floating point exactness in between", "anchors": ["iamf/cli/codec/lpcm_encoder.cc:LpcmEncoder::EncodeAudioFrame", "iamf/cli/codec/lpcm_decoder.cc:LpcmDecoder::DecodeAudioFrame", "iamf/cli/cli_util.cc:WritePcmFrameToBuffer", "iamf/api/decoder/iamf_decoder.cc:WriteFrameToSpan"]}
{"id": "C45", "title": "Fixed point conversions are exact and range checked", "statement": "Every Q7.8 and Q0.8 value converts to a float exactly and back to itself; a float is accepted exactly when it lies in the range of the fixed point format (NaN and infinity are refused) and is then floored to the nearest fixed point value.", "quantifier": "every fixed point value and every float", "why_tests_cant": "2^32 floats; floating point rounding", "anchors": ["iamf/common/utils/numeric_utils.cc:FloatToQ7_8", "iamf/common/utils/numeric_utils.cc:Q7_8ToFloat", "iamf/common/utils/numeric_utils.cc:FloatToQ0_8", "iamf/common/q_format_or_floating_point.cc:QFormatOrFloatingPoint"]}
{"id": "C46", "title": "Every substream carries the channels its layers declare", "statement": "For every audio element read from a bitstream, assigning channel labels either succeeds or reports an error, never crashes. A channel-based element is accepted exactly when every layer's layout is defined, no layer has fewer channels than the one before and the substream counts match; then the first coupled substreams of each layer carry the layer's new stereo pairs and the rest its new single channels in the specification's order, all channels of the element are distinct, after each layer there are exactly as many channels as its layout has, and exactly the channels selected by a layer's output_gain_flag get that layer's gain. Ambisonics substreams carry the channel numbers of the mapping, or consecutive numbers in projection mode.", "quantifier": "every audio element the reader accepts, every set of codec configs", "why_tests_cant": "six layers with ten layouts, every gain flag, every channel mapping and number of substreams", "anchors": ["iamf/cli/obu_with_data_generator.cc:GenerateAudioElementWithData", "iamf/cli/obu_with_data_generator.cc:FinalizeScalableChannelLayoutConfig", "iamf/cli/obu_with_data_generator.cc:AddSubstreamLabels", "iamf/cli/obu_with_data_generator.cc:FinalizeAmbisonicsMonoConfig", "iamf/cli/obu_with_data_generator.cc:FinalizeAmbisonicsProjectionConfig"]}
{"id": "C47", "title": "Channel reordering yields the documented order and loses nothing", "statement": "With the Android rearrangement scheme, a frame of sound system A to J, 10, 11, 12 or 13 that has the layout's number of channels comes out with the same channels, each keeping its samples, in the order of Android's channel mask; with the default scheme frames pass through unchanged. For every sound system value and every number of channels the result is either a permutation of the input's channels or InvalidArgument for a frame with fewer channels than the layout has; no element is read out of bounds. Only 7.1.5.4 is left unordered (finding F30).", "quantifier": "every scheme, sound system and frame (any number of channels, any sample values)", "why_tests_cant": "tests check chosen layouts with distinct sample values; that nothing is lost or read out of bounds must hold for every channel count", "anchors": ["iamf/api/conversion/channel_reorderer.cc: ChannelReorderer::Create, ChannelReorderer::Reorder, MakeFunction, SwapBackAndSides, ReorderSoundSystemFForAndroid, ReorderSoundSystemGForAndroid, ReorderSoundSystemHForAndroid"]}
{"id": "C48", "title": "The decoder API never crashes", "statement": "No sequence of Decode, GetOutputTemporalUnit, SignalEndOfDecoding, Reset and ResetWithNewMix calls, with any bytes, crashes the decoder: every call returns a status.", "quantifier": "every history of API calls, all bytes passed to Decode, all output buffers", "why_tests_cant": "all histories and all byte strings; the crash found needs a particular combination of layout, channel ordering and stream", "anchors": ["iamf/api/decoder/iamf_decoder.cc:DecodeOneTemporalUnit", "iamf/cli/channel_reorderer.cc:ChannelReorderer::Reorder", "iamf/cli/obu_processor.cc:ObuProcessor::ProcessTemporalUnit"]}
{"id": "C49", "title": "Profile filtering keeps exactly the profiles whose limits a mix respects", "statement": "For every mix presentation, every set of audio elements and every set of candidate profiles (simple to advanced 2), filtering leaves exactly those candidates which the mix respects: at most 1 (advanced: 2) sub-mixes, no reserved headphones rendering mode, binaural head-tracked rendering only in base-advanced and above, only known audio elements of a kind and layout which the profile has, one codec config in the first sub-mix, at most one (two) in all, an LPCM one among several, equal frame size and sample rate, and the profile's limits on audio elements and channels. It reports success exactly when one is left, and the decoder considers exactly the mix presentations for which that is the case, in stream order.", "quantifier": "every mix presentation, every map of audio elements that refer to coherent codec configs, every set of the six profiles, every list of mix presentations", "why_tests_cant": "the tests check single rules on single mixes; that the rules compose to the intended set for every combination of sub-mixes, codec configs, elements and counts is a statement about infinitely many mixes", "anchors": ["iamf/cli/profile_filter.cc: ProfileFilter::FilterProfilesForMixPresentation, FilterProfilesForAudioElement, FilterProfilesForCodecConfigRules", "iamf/cli/obu_processor.cc: GetSupportedMixPresentations"]}
{"id": "C50", "title": "Mix and layout selection follows the documented preference order", "statement": "For every list of supported mix presentations, every requested layout (or none) and every requested mix presentation ID (or none): the selected mix is the first supported one with the requested ID if there is one; otherwise the first which best suits the requested layout (for binaural: a sole binaural element, then any binaural layout; for stereo: a sole stereo layout and element with stereo headphones mode, then without that condition; else one that offers the layout); otherwise the first. The layout returned is the requested one, or the first layout of the first sub-mix. The place returned holds that layout; the mix is changed only when it does not offer the layout, by one additional layout; no other mix is changed; reducing the mix to that place succeeds; nothing crashes for mixes that the readers accept and a profile supports.", "quantifier": "every list of mix presentations and audio elements, every requested layout and ID", "why_tests_cant": "unit tests check a handful of lists; priority among several candidates, the absence of undefined behaviour on every parsed mix and the unchanged rest are universal statements", "anchors": ["iamf/cli/obu_processor_utils.cc: FindMixPresentationAndLayout, CreateSimplifiedMixPresentationForRendering", "iamf/cli/obu_processor.cc: ObuProcessor::InitializeForRendering"]}
{"id": "C51", "title": "How a stream is cut into Decode calls does not matter, descriptors included", "statement": "For every stream of bytes and every way of cutting it into Decode calls (also in the middle of an OBU header, a size field or a descriptor payload): the decoder accepts or refuses the descriptors alike, and when it accepts them it ends up with the same descriptors, the same output mix, layout, rate and frame size, and the PCM which it then delivers is the same.", "quantifier": "every byte string, every cutting into calls, every interleaving with GetOutputTemporalUnit and getters, every requested mix and layout", "why_tests_cant": "a stream of n bytes has 2^(n-1) cuttings; tests try a few chunk sizes on a few streams. The witness against the unrestricted claim needs a particular one byte extension", "anchors": ["iamf/api/decoder/iamf_decoder.cc: IamfDecoder::Decode, DecoderState::CreateObuProcessor", "iamf/cli/descriptor_obu_parser.cc: DescriptorObuParser::ProcessDescriptorObus", "iamf/obu/rendering_config.cc: RenderingConfig::CreateFromBuffer"]}
{"id": "C52", "title": "Descriptors are the same whether given on their own or at the start of a stream", "statement": "Descriptor parsing ends on every byte string, does not crash, gives only consistent descriptors (every audio element refers to a known codec config, every mix to known audio elements), and consumes nothing when it asks for more data. A byte string accepted as a complete set of descriptors is what is found when it is followed by a temporal unit, and the other way round: the descriptors which a decoder found in a stream can be given to CreateFromDescriptors, and the decoders answer all questions alike and start alike.", "quantifier": "every byte string, every requested mix, layout and channel ordering", "why_tests_cant": "the two modes are separate code paths for the end of the descriptors; that they agree on all inputs is not a statement about examples", "anchors": ["iamf/cli/descriptor_obu_parser.cc: DescriptorObuParser::ProcessDescriptorObus", "iamf/api/decoder/iamf_decoder.cc: IamfDecoder::CreateFromDescriptors, Create, Decode", "iamf/cli/obu_processor.cc: ObuProcessor::CreateForRendering"]}
{"id": "C53", "title": "Initialisation accepts exactly the unambiguous descriptors, in any order", "statement": "For every parsed set of descriptors: the processor is initialised exactly when every parameter ID has one definition with a non-zero rate, recon gain is used with channel-based elements only, and no substream belongs to two audio elements; then the definition looked up for an ID, the audio elements and the timing state are those of the descriptors; none of this depends on the order of audio elements and mix presentations.", "quantifier": "every set of descriptor OBUs which the parser can return", "why_tests_cant": "all sets of descriptors and all their orders; the maps are unordered hash maps, so that one run shows one order only", "anchors": ["iamf/cli/obu_processor.cc: ObuProcessor::InitializeInternal", "iamf/cli/cli_util.cc: CollectAndValidateParamDefinitions, GetCommonSamplesPerFrame", "iamf/cli/global_timing_module.cc: GlobalTimingModule::Create"]}
{"id": "C54", "title": "An OBU sequencer writes descriptors first, every temporal unit once and in order, and nothing after the end", "statement": "Whatever calls are made on an OBU sequencer and whatever its concrete class answers, no call crashes, and the concrete class is asked for descriptors first and once, then temporal units, then optionally final descriptors of the same size, then the end; a refusal or any failing push aborts; after that every call but Abort fails with FailedPrecondition. If all calls succeed the calls were in order, the concrete class received the serialised descriptors with the common frame size, sample rate and bit depth, and exactly the pushed temporal units in order; a file so written holds the (updated) descriptors followed by the units, and the streaming sequencer returns the bytes of the last unit. Conversely, nothing fails without a stated reason. A file is only left behind by a successful close.", "quantifier": "all sequences of calls PushDescriptorObus, PushTemporalUnit, UpdateDescriptorObusAndClose, Close and Abort with all arguments, and all answers of the concrete class depending on the whole history", "why_tests_cant": "the state machine is driven by unboundedly long call histories and by arbitrary failures of the concrete class", "anchors": ["iamf/cli/obu_sequencer_base.cc: ObuSequencerBase::PushDescriptorObus, PushTemporalUnit, UpdateDescriptorObusAndClose, Close, Abort, HandleInitialTemporalUnits, WriteDescriptorObus, WriteTemporalUnit", "iamf/cli/obu_sequencer_iamf.cc: ObuSequencerIamf", "iamf/cli/obu_sequencer_streaming_iamf.cc: ObuSequencerStreamingIamf"]}
{"id": "C55", "title": "Descriptors written by an OBU sequencer are read back as the descriptors that were pushed", "statement": "If a sequencer serialises encodable descriptors (well-formed OBUs which refer to each other consistently, harmless arbitrary OBUs in between), then the decoder's descriptor parser, given these bytes alone as complete descriptors, or followed by a temporal unit, or followed by a further non-redundant sequence, succeeds with exactly the sequence header, codec configs, audio elements (keyed by ID) and mix presentations (in order) pushed, and stops exactly at the end of the descriptors. Followed by the redundant repetition it returns the same, but with the mix presentations twice.", "quantifier": "all encodable sets of descriptor OBUs with any headers, footers, LEB generators, hooks and interleaved arbitrary OBUs; all following bytes of the three kinds; all buffer capacities and fuels large enough", "why_tests_cant": "round trip through two independent pieces of code over an unbounded space of descriptors and of what follows", "anchors": ["iamf/cli/obu_sequencer_base.cc: ObuSequencerBase::WriteDescriptorObus", "iamf/cli/obu_processor.cc: ObuProcessor::ProcessDescriptorObus", "iamf/obu/arbitrary_obu.cc: ArbitraryObu::WriteObusWithHook"]}
{"id": "C56", "title": "A decoder reports what its descriptors say", "statement": "Once descriptors have been read, the processor made for a request answers: the output sample rate and the frame size of the only codec config (FailedPrecondition if there is none or several); the ID of the mix presentation selected among those supported by the requested profiles, which is the requested one if it is supported; the layout asked for, or the first layout of the first sub-mix; its renderer has been configured for exactly that sub-mix and layout. If there is none, the descriptors are unusable for a stated reason. It does not depend on whether the descriptors were given as complete or found at the beginning of a stream.", "quantifier": "all byte strings, all requests (mix, layout, profiles), all renderer configurations that answer, all buffer capacities", "why_tests_cant": "any descriptors and any request; a getter answering from the wrong codec config or mix is only visible in rare combinations", "anchors": ["iamf/cli/obu_processor.cc: ObuProcessor::CreateForRendering, InitializeInternal, InitializeForRendering, GetOutputSampleRate, GetOutputFrameSize, GetOutputLayout, GetOutputMixPresentationId"]}
{"id": "C57", "title": "Temporal units written by an OBU sequencer are read back, whole and in order, however the bytes are cut", "statement": "Let a sequencer serialise temporal units as an encoder makes them: units of n ticks following one another from time 0, one audio frame for each substream (in any order), at most one parameter block per parameter, each of the definition in the descriptors and beginning where that parameter's previous block ended, plus arbitrary metadata, reserved, redundant-descriptor or delimiter OBUs in the places allowed for them. Then a temporal unit parser set up by the corresponding descriptors, given these bytes in any chunks of less than 2 MiB, outputs exactly one unit for each one written, in order, with the start time written, the same frames (element, header, ID, bytes, start and end time) in the order written and the same parameter blocks in the order written.", "quantifier": "all descriptors whose audio can be decoded, all numbers and contents of temporal units, all placements of arbitrary OBUs, all LEB generators, with and without temporal delimiters, all ways of cutting the bytes into chunks", "why_tests_cant": "a round trip through two independent pieces of code over an unbounded history and every segmentation", "anchors": ["iamf/cli/obu_sequencer_base.cc: ObuSequencerBase::WriteTemporalUnit, PushTemporalUnit", "iamf/cli/obu_processor.cc: ObuProcessor::ProcessTemporalUnit, ProcessTemporalUnitObu, GetAndStoreAudioFrameWithData, GetAndStoreParameterBlockWithData", "iamf/cli/global_timing_module.cc"]}
{"id": "C58", "title": "A file written by the encoder's file writer is parsed back and played, whole", "statement": "Let a client write a file through the OBU file sequencer: descriptors, any number of temporal units as an encoder makes them, and then close, or close with updated descriptors, every call succeeding. Then the descriptor parser given the file's bytes finds exactly the descriptors given last and stops exactly at their end; and the temporal unit parser set up from them, given the rest in any chunks of less than 2 MiB, gives back exactly the units pushed, in order. Further, whoever gives all the bytes of the file to a decoder (standalone API, descriptors in the stream), cut in any way, interleaved with fetching output and ended with SignalEndOfDecoding, all calls succeeding and output buffers large enough, is delivered PCM for every unit, in order: exactly what the renderer made for the selected mix presentation and layout makes of each unit, in the channel order and sample format asked for.", "quantifier": "all descriptor sets and temporal units an encoder can make, closing with or without update, all LEB generators, with and without temporal delimiters, all segmentations and call histories of the decoder, all renderers", "why_tests_cant": "composition of the writing and the reading side over unbounded histories of both and every segmentation", "anchors": ["iamf/cli/obu_sequencer_base.cc: ObuSequencerBase", "iamf/cli/obu_sequencer_iamf.cc: ObuSequencerIamf", "iamf/cli/obu_processor.cc: ObuProcessor", "iamf/api/decoder/iamf_decoder.cc: IamfDecoder::Decode, GetOutputTemporalUnit, SignalEndOfDecoding", "iamf/cli/obu_with_data_generator.cc"]}
{"id": "C59", "title": "Down-mixing a channel-based element to its layers and demixing the decoded layers gives back the original channels", "statement": "Take any valid channel-based audio element without expanded layouts, of any number of layers, with the channel labels the generator gives its substreams, and any demixing parameters whose beta, gamma and delta are not near zero (all demixing modes and weights are such). Given samples for every channel of the highest layer, the encoder's down-mixing succeeds, and gives each substream, for each of its channels, the mix-down the IAMF specification prescribes for that channel, and to the codec the same divided by the layer's output gain. If then the audio frames of one temporal unit carry these samples (in any order, with frames of other elements between them), demixing succeeds and finds for every channel of the highest layer exactly the original samples, with the trimming of one of the element's frames. This holds in exact arithmetic and whatever the iteration order of the hash maps. A demixer which would divide by a number near zero refuses, and demixing arbitrary frames never crashes.", "quantifier": "all valid channel-based elements and layer structures, all sample values and frame lengths, all usable demixing parameters, all hash map orders, all interleavings of frames", "why_tests_cant": "infinitely many sample values and parameters, every layer structure, and the order of demixers depends on hash map iteration", "anchors": ["iamf/cli/downmixer.cc", "iamf/cli/downmixer_factory.cc: DownmixerFactory::CreateScalableChannelDownmixers", "iamf/cli/downmixer_manager.cc: DownmixerManager::DownMixSamplesToSubstreams", "iamf/cli/demixer.cc", "iamf/cli/demixing_manager.cc: DemixingManager", "iamf/cli/labeled_frame.cc: FindSamplesOrDemixedSamples"]}
{"id": "C60", "title": "Rendering a temporal unit to a layout mixes the audio elements with their matrices and gains", "statement": "Whenever rendering a temporal unit to a loudspeaker layout succeeds, for any number of audio elements, any samples and any mix gain parameter blocks, the result has exactly one channel of n samples for each channel of the layout, where n is the length of every audio element after trimming. The sample of channel c at tick t is the output mix gain at t times the sum over the audio elements of the sub-mix of the element's mix gain at t times its contribution, which is the sample of its c-th channel (pass-through) or the sum of the samples of its channels at this tick after trimming, each times the coefficient of column c of the rendering matrix (the one computed from the demixing parameters, if there is one). Mix gains are the default ones or those of the parameter block with the ID of the gain. Whatever the answer, no samples are left in the renderers.", "quantifier": "all renderers between two units, frames, samples, trimming, matrices, parameter blocks and ticks; all arithmetics on samples", "why_tests_cant": "infinitely many sample values, matrices and gain schedules; tests use a few frames", "anchors": ["iamf/cli/renderer/default_layout_renderer.cc: DefaultLayoutRenderer::Render", "iamf/cli/renderer/loudspeakers_renderer.cc: RenderSamplesUsingGains", "iamf/cli/renderer/audio_element_renderer_base.cc", "iamf/cli/sample_processing_utils.cc: ArrangeSamples"]}
{"id": "C61", "title": "What is rendered for a temporal unit does not depend on the units rendered before", "statement": "After any history of temporal units - rendered, refused, of any length - the answer to a temporal unit which contains a frame of every audio element of the mix is the one it would have got as the first unit, for codecs without memory (LPCM); for other codecs the answer is a function of the unit, of what was configured and of the state of the codecs only. After every unit, whatever the answer, the renderers are ready and unchanged in what they render.", "quantifier": "all histories of temporal units, all units with frames of every element, all configurations without binaural (OBR) rendering", "why_tests_cant": "unbounded histories including failures part-way through the rendering of a unit", "anchors": ["iamf/cli/obu_processor.cc: ObuProcessor::RenderTemporalUnitAndMeasureLoudness", "iamf/cli/rendering_mix_presentation_finalizer.cc: RenderingMixPresentationFinalizer::PushTemporalUnit", "iamf/cli/renderer/default_layout_renderer.cc", "iamf/cli/renderer/audio_element_renderer_base.cc: AudioElementRendererBase::Flush"]}
{"id": "C63", "title": "The whole decoder, with its own rendering, never crashes on any input", "statement": "For every sequence of API calls on any bytes - valid or hostile, in any chunks, with any requested mix, layout, sample type and channel ordering - no call of the decoder crashes: each one ends with a status, including decoding of the audio frames, demixing, computation of mix gains, rendering and mixing of every unit of every mix presentation the descriptors may define. Nothing is assumed about rendering itself; of the parts which are not in the repository's own arithmetic (precomputed gain tables, the binaural library, the Opus/AAC/FLAC decoders) only that each of their own calls returns, that gain matrices are rectangular and that the binaural library fills its channels.", "quantifier": "all byte strings, chunkings, histories of calls, requests; all arithmetics, and the arithmetic as compiled (IEEE doubles and floats) with the LPCM decoder of the repository", "why_tests_cant": "hostile inputs and histories are unbounded, and crashes hide in combinations of descriptors, parameter blocks and partial failures", "anchors": ["iamf/api/decoder/iamf_decoder.cc: IamfDecoder", "iamf/cli/obu_processor.cc: ObuProcessor", "iamf/cli/audio_frame_decoder.cc: AudioFrameDecoder", "iamf/cli/demixing_manager.cc", "iamf/cli/rendering_mix_presentation_finalizer.cc", "iamf/cli/renderer/default_layout_renderer.cc", "iamf/cli/parameter_block_with_data.h", "iamf/cli/codec/lpcm_decoder.cc: LpcmDecoder"]}
{"id": "C64", "title": "LPCM played on its own loudspeakers comes out with the bytes which were coded", "statement": "A mix presentation of one LPCM channel-based audio element with one layer, played on the loudspeaker layout of that layer with 0 dB element and output gains, is decoded without loss: if a temporal unit is rendered, then after any history of earlier units - including units which failed - the PCM written for it (with the sample size of the stream) has, for each tick after trimming and each loudspeaker in the order of the output layout, exactly the bytes which that sample had in the frame of the substream that carries the loudspeaker, least significant byte first (reversed for big endian streams). The number of ticks is that of the frames without the trimmed ones. All the conversions to double, the multiplications by gains and the sums over elements in between change nothing.", "quantifier": "all LPCM streams of 16, 24 or 32 bits, both byte orders, layouts mono, stereo, 5.1, 5.1.2, 5.1.4, 7.1, 7.1.2, 7.1.4, 3.1.2 and binaural, all histories of temporal units, all samples and trims", "why_tests_cant": "tests compare a few frames; rounding, a swapped channel or leftover state would show only for some sample values, layouts or histories", "anchors": ["iamf/cli/codec/lpcm_decoder.cc: LpcmDecoder", "iamf/cli/obu_processor.cc: RenderTemporalUnitAndMeasureLoudness", "iamf/cli/demixing_manager.cc: DemixDecodedAudioSamples", "iamf/cli/renderer/audio_element_renderer_passthrough.cc", "iamf/cli/renderer/default_layout_renderer.cc", "iamf/api/decoder/iamf_decoder.cc: WriteFrameToSpan"]}
{"id": "C65", "title": "A regular temporal unit is rendered, not refused", "statement": "Rendering a temporal unit to a layout succeeds when each audio element of the mix has a frame with all the channels its renderer takes, all of one length not above the frame size and not below the trimmed samples, the gain matrices have the shape of the layout, and the gains have the sample rate of the mix with parameter blocks that fit to the unit: it answers the layout's number of channels with exactly the untrimmed ticks. In particular, for a mix of one LPCM element played on its own loudspeakers, every unit which has a frame for each substream - all with the times of the unit, the same trims and the bytes of the same number of ticks - is rendered after any history of units, failed ones included; together with the lossless playback its samples are then the coded ones.", "quantifier": "all renderer states between two units, frames, trims, parameter blocks and matrices of these shapes; all LPCM streams, layouts, histories and units as described", "why_tests_cant": "tests render some good frames; a decoder which refuses good units only after a certain history or at a boundary (a frame of exactly the frame size, trimming all samples) would pass them", "anchors": ["iamf/cli/obu_processor.cc: RenderTemporalUnitAndMeasureLoudness", "iamf/cli/rendering_mix_presentation_finalizer.cc: PushTemporalUnit", "iamf/cli/renderer/default_layout_renderer.cc: Render", "iamf/cli/renderer/audio_element_renderer_base.cc: RenderLabeledFrame", "iamf/common/utils/sample_processing_utils.cc: ArrangeSamplesToRender", "iamf/cli/demixing_manager.cc: DemixDecodedAudioSamples"]}
{"id": "C62", "title": "Each element is rendered from its own channels with the coefficients for its layout", "statement": "For a loudspeaker layout, a channel-based audio element with a layer that has the channels of the playback layout is passed through: the first such layer is used, every output loudspeaker carries exactly the channel of its name, and the loudspeakers an expanded layer has no channel for are silent. Otherwise the last layer is rendered, its channels in the order of the gain table's rows, with the table of that layer's sound system for the playback layout, and no renderer exists if there is no such table. Headphones without the binaural mode are rendered as two loudspeakers. Mono-mapped ambisonics channels meet the row of the ambisonics table with their own channel number, with 255 entries silent; projected ambisonics channels are multiplied with the Q15 demixing matrix first, with the matrix stored column by column. Down-mixing parameters in the bitstream replace the table only from 7.1.4 to 7.1.2 and 3.1.2, and there give the down-mix of IAMF 7.2.", "quantifier": "all audio elements and layers, loudspeaker layouts, gain tables, channel mappings, demixing matrices, down-mixing parameters and channel values", "why_tests_cant": "there are dozens of pairs of layouts and unboundedly many mappings, matrices and samples; a swapped pair of channels in one of them, or a matrix read by rows instead of columns, is silent in tests of the other ones", "anchors": ["iamf/cli/renderer_factory.cc: CreateRendererForLayout", "iamf/cli/renderer/audio_element_renderer_passthrough.cc: CreateFromScalableChannelLayoutConfig, FindEquivalentLayer", "iamf/cli/renderer/audio_element_renderer_channel_to_channel.cc: CreateFromScalableChannelLayoutConfig", "iamf/cli/renderer/audio_element_renderer_ambisonics_to_channel.cc: CreateFromAmbisonicsConfig, GetCombinedGains", "iamf/cli/renderer/loudspeakers_renderer.cc: MaybeComputeDynamicGains, ComputeGains", "iamf/cli/renderer/renderer_utils.cc: GetChannelLabelsForAmbisonics, LookupOutputKeyFromPlaybackLayout", "iamf/cli/channel_label.cc: LookupEarChannelOrderFromScalableLoudspeakerLayout"]}
{"id": "C66", "title": "The probe's temporal unit scan reports what the bytes hold", "statement": "The probe's scan of the bytes after the descriptors always answers, for every input, table of descriptors, budget and cancellation callback: no crash and no error. It cuts what it consumes into OBUs by their size fields, and all its numbers are those of the OBUs: audio frames per substream with frame size times count as samples, temporal delimiters, parameter blocks good and bad, frames without ID. It stays within the bytes, stands where it says, and stops for the reason it gives. In a full scan every audio frame belongs to exactly one entry of the index, entries follow one another in time and in the bytes, and the parameter block details are timed one after the other per parameter. A quick scan gives the same counts. For temporal units that the muxer wrote, with or without delimiters, followed by nothing, another sequence or half an OBU, the report is exact: number of units, frames, blocks, samples, index with timestamps, offsets and trims, block contents.", "quantifier": "all byte strings (shorter than 2^32-64), descriptor tables, iteration budgets, callbacks, scan modes; all sequences of temporal units an encoder makes", "why_tests_cant": "tests probe a few good files and a few broken ones; damage can be anywhere and of any kind, and the report is used as evidence that a file is healthy", "anchors": ["iamf/cli/probe.cc: ScanTemporalUnits", "iamf/cli/probe.cc: BuildParameterBlockReport", "iamf/cli/probe.h: TemporalUnitScanReport, TemporalUnitEntry, ScanMode", "iamf/obu/obu_header.cc: PeekObuTypeAndTotalObuSize"]}
{"id": "C67", "title": "The encoder cuts every added sample into exactly one frame, once, in order", "statement": "Samples of an audio element are added label by label, in any order, mixed with samples of other elements and with calls for output frames, in rounds of at least a frame except the last; Finalize is called before the frame of the last samples is taken; then frames are taken until the generator says there are no more. If this succeeds, then for every substream of the element the audio frames which came out, one after the other, hold: as many zeros as the greatest delay of the coders of all elements, then the down-mixed samples of all rounds in order, then the zeros which the last frame lacks; nothing is lost, duplicated or swapped. The coder gets the same integer samples, preceded by the delay which it lacks to the greatest and followed by its own. Start trims are a full frame each until the requested number (plus the delay, unless it is included) is reached; end trims are zero except on the last frame, where they are the requested number (plus the padding, unless it is included). Frames have consecutive timestamps, from the start of the substream's clock; the k-th frame carries the demixing parameters of the k-th round. After trimming as the frames say, what is left is what was added without as many samples at the start and the end as the user asked to trim. The loop ends: if every element is fed in this way, there is a number of output calls after which the generator says there are no more frames, whatever else is called between them. In every history of calls, whether or not rounds are fed as above, the demixing parameters of a frame are those of the parameter block which was given for its element, and the block ends where the frame ends; they are the default ones only if no block was given, or the block was used up by frames made before, and fixed ones if the element has no demixing parameters.", "quantifier": "all elements (any substreams, labels, down-mixers, output gains), other elements and metadata, coders that are synchronous with any delay, trims, frame sizes, parameter definitions, sequences and sizes of rounds, interleavings with other elements and with output calls, and whatever is called after Finalize", "why_tests_cant": "tests feed one or two frames of one element with one delay; the bookkeeping (two queues per substream with their own padding, trims counted down over frames, a map of labels per element, the order of output calls) is a function of the whole history", "anchors": ["iamf/cli/proto_conversion/proto_to_obu/audio_frame_generator.cc: Create, AddSamples, Finalize, OutputFrames, GeneratingFrames", "iamf/cli/substream_frames.h: SubstreamFrames", "iamf/cli/downmixer_manager.cc: DownMixSamplesToSubstreams", "iamf/cli/codec/encoder_base.cc", "iamf/cli/parameters_manager.cc: GetDownMixingParameters, UpdateDemixingState"]}
{"id": "C68", "title": "The encoder turns what it is given into temporal units that fit together, and loses nothing before it says it is done", "statement": "For every successful history of Encode, FinalizeEncode and OutputTemporalUnit calls on a new encoder: (1) every temporal unit which is output has audio frames which all have the same times and trims, no two of one substream, parameter blocks with exactly those times, no two of one parameter, and arbitrary OBUs of that time; or it has only arbitrary OBUs of one time, one of which is meant to be out of place. (2) The mix gain, demixing and recon gain parameter blocks which were asked for are each made once, with the times and the ID asked for, and come out in the order in which they were asked for; what has not come out is still held back. (3) Each arbitrary OBU with a timestamp comes out once, or is still held back. (4) The outputs are closed exactly when FinalizeEncode was called and GeneratingTemporalUnits is false, and after that no call outputs anything or changes that. (5) With the documented loop, in which an element gets samples in full rounds, FinalizeEncode follows the last of them, and OutputTemporalUnit is called until GeneratingTemporalUnits is false, the frames of the units hold the down-mixed samples of the element, all of them, in order, once, with the trims, times and parameters of C67; after trimming, what is left is what was added without as many samples as the user asked to trim. (6) The documented loop ends: if every element is fed in this way, there is a number of calls of OutputTemporalUnit after which GeneratingTemporalUnits is false, whatever else is called between them, unless one of them fails.", "quantifier": "all sequences of calls and their arguments, all configurations, arbitrary OBUs, iteration orders of the sample maps, contents of parameter blocks, synchronous coders; for (5) and (6) all elements and rounds as in C67", "why_tests_cant": "what one call outputs depends on the whole history (cached samples, blocks held back, frames in the coders, the clock); tests run a few fixed sequences", "anchors": ["iamf/cli/iamf_encoder.cc: Encode, OutputTemporalUnit, FinalizeEncode, GeneratingTemporalUnits", "iamf/include/iamf_tools/iamf_encoder_interface.h", "iamf/cli/proto_conversion/proto_to_obu/parameter_block_generator.cc: AddMetadata, GenerateParameterBlocks", "iamf/cli/temporal_unit_view.cc"]}
{"id": "C69", "title": "Every call of the encoder returns", "statement": "Creating an audio frame generator returns, and after that every call of AddSamples, Finalize and OutputFrames returns, with a result or an error, whatever was called before, in whatever order and with whatever arguments (any element, label, number of samples). The same holds for Encode, FinalizeEncode and OutputTemporalUnit of the encoder. In particular the loop which encodes frames until an element has a complete one, and the padding of a frame with zeros, always end.", "quantifier": "all audio elements, metadata, clocks, parameter states, delays, sequences of calls and arguments, arithmetic; encoders and conversions which return; frames of at least one sample, the same size for elements which share a substream", "why_tests_cant": "the loops depend on how the queues of samples stand after an arbitrary history of calls; an endless loop shows as a hang, in a history no test has", "anchors": ["iamf/cli/proto_conversion/proto_to_obu/audio_frame_generator.cc: MaybeEncodeFramesForAudioElement, GetNextFrameSubstreamData, OutputFrames", "iamf/cli/substream_frames.h: PadZeros, GetChannelInNonFullFrame", "iamf/cli/iamf_encoder.cc: Encode, OutputTemporalUnit, FinalizeEncode"]}
{"id": "C70", "title": "Parameter blocks are cut into frames without loss", "statement": "Before encoding, each parameter block of the user's metadata is cut into blocks of the length of a frame. If that succeeds then the pieces have that length, follow on each other from the start of the block to its end and have its id and header; each piece is well formed (its sub-blocks last exactly as long as it does, and its constant duration, if not 0, is what they last); and at every time of the block the piece which has that time has a sub-block which has the data of the sub-block of the block at that time and which extends to the limits of that sub-block or of the piece. A step keeps its value; a Bezier curve is never cut; demixing and recon gain data only begin with a piece; a linear animation is cut at values which are functions of the time only (so pieces join), in proportion to the time within a step of Q7.8 and 1/16384 dB, and exact at the ends of the animation. It succeeds when the length is a multiple of a frame, steps and linear animations within the range of values, curves within a frame, demixing and recon gain data where a frame begins. Whatever the block says, it returns a result or an error.", "quantifier": "all blocks, with a constant duration or durations of their own, any sub-blocks and any data (float32 interpolation as coded); all frame lengths; all lists of blocks", "why_tests_cant": "the cuts depend on how arbitrary durations of sub-blocks fall on frames; the values are float32 results for every gain, time and length", "anchors": ["iamf/cli/parameter_block_partitioner.cc: PartitionFrameAligned, PartitionParameterBlock, GetPartitionedSubblocks, PartitionMixGain, FindConstantSubblockDuration, FindPartitionDuration", "iamf/cli/proto_conversion/proto_utils.cc: CreateSubblockScheduleFromMetadata", "iamf/cli/encoder_main_lib.cc: PartitionParameterMetadata"]}
{"id": "C71", "title": "Mix gains as computed with floats", "statement": "With the float32 and double arithmetic of the code, the gains in dB of every tick of a mix gain parameter block are finite numbers, for sub-blocks of up to 2^23 ticks and any 16-bit gains: no NaN, infinity or overflow. The control time of a Bezier curve lies within the curve and is rounded to the nearest tick, the later of two. A step has its value exactly. A linear animation is within 1/16384 dB of the straight line and exact at both ends. A curve starts exactly at its first gain and, up to 2048 ticks, is within 1/15 dB of the quadratic curve the specification defines through start, control point and end. Ticks after the block keep the gains they had.", "quantifier": "all mix gain parameter blocks, with constant or explicit sub-block durations of at most 2^23 ticks in total, all 16-bit gains, all 8-bit control times, all ticks", "why_tests_cant": "float32 rounding and cancellation depend on every combination of length, tick, control time and three gains; a NaN at one tick would not show on others", "anchors": ["iamf/common/utils/obu_util.h: InterpolateMixGainValue", "iamf/obu/parameter_block.cc: ParameterBlockObu::GetLinearMixGain, InterpolateMixGainParameterData", "iamf/common/utils/numeric_utils.cc: Q7_8ToFloat, Q0_8ToFloat"]}
{"id": "C72", "title": "A WAV file holds the samples of the successful calls, once and in order", "statement": "Whatever sequence of PushFrame, WritePcmSamples and Flush calls is made on a WavWriter for at least one channel, every call returns a status, and after Flush or destruction the file is the header for the number of samples which were written (or nothing, if no header was asked for) followed by the bytes of exactly the successful calls, in order: frames interleaved, each sample rounded towards zero, saturated and little-endian in 16, 24 or 32 bits. A refused call leaves no byte in the file. Samples are accepted exactly until Flush, and if there is a channel for each of the writer's, all of them as long, of at most the declared number of samples per frame and of finite numbers (bytes: a whole number of samples for all channels). Abort of an open writer removes the file; it does not come back, and later samples are refused without a crash.", "quantifier": "all numbers of channels from 1, bit depths of 16, 24, 32, frame sizes, with or without header; all histories of calls with any frames, doubles and bytes", "why_tests_cant": "the content depends on the whole history of accepted, refused and partially converted frames", "anchors": ["iamf/cli/wav_writer.cc: WavWriter::Create, PushFrameDerived, FlushDerived, WritePcmSamples, Abort, ~WavWriter, WriteSamplesInternal, MaybeFinalizeFile", "iamf/cli/sample_processor_base.cc: SampleProcessorBase::PushFrame, Flush"]}
{"id": "C73", "title": "The probe's JSON of a Mix Presentation reads back as the report", "statement": "Whatever the labels, annotations, tags and other values of a Mix Presentation are, the JSON which the probe tool prints for it is accepted by a reader of JSON (RFC 8259), which finds exactly the values of the report under their names: strings byte for byte (quotes, backslashes and control bytes included), integers with their value, optional members exactly when the report has them, lists in order. No string can end its quotes early or forge another member, and the text of a string has no control byte.", "quantifier": "all reports of a Mix Presentation: all byte strings, integers, numbers of sub-mixes, elements, layouts, annotations and tags; floats whose text is a JSON number", "why_tests_cant": "the strings come from the bitstream and may hold any bytes in any place", "anchors": ["iamf/cli/probe_json.cc: EscapeJson, J, StrVec, JsonParamDef, JsonMixGain, JsonLoudness, JsonLayout, JsonSubMix, JsonMixPresentation", "iamf/cli/probe.h: MixPresentationReport"]}
