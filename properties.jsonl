{"id": "C01", "title": "Bit fields written to a file are read back unchanged", "statement": "Write any sequence of unsigned fields, each of any width n>=1 and any value below 2^n, into a bit buffer, flush it to a file with byte padding, and read the file back field by field with the same widths: every value read equals the value written, and after the last field only padding zero bits (fewer than 8) are left.", "quantifier": "all field sequences, all widths, all values, all alignments of fields relative to byte boundaries, and any bytes following in the file", "why_tests_cant": "the reader carries up to 7 leftover bits between fields, so behaviour depends on the whole history of widths; the space of width sequences is infinite", "anchors": ["source/IOHaptics/include/IOBinaryPrimitives.h: readNBits, writeNBits, fillBitset, writeBitset"]}
{"id": "C02", "title": "Truncated files are detected by the bit reader", "statement": "If the file ends before the bytes a field needs, reading that field reports an error rather than returning a value.", "quantifier": "all files and all field widths reaching past the end of the file", "why_tests_cant": "a test shows one truncation; the claim is about every cut point. (False of the code: missing bytes are read as zero bits and no error is raised; the model shows exactly what is returned.)", "anchors": ["source/IOHaptics/include/IOBinaryPrimitives.h: readNBits", "source/IOHaptics/src/IOBinary.cpp: IOBinary::loadFile, loadMemory"]}
{"id": "C03", "title": "Strings survive the binary format", "statement": "A string written to the binary file format and read back is identical and the reader is left exactly at the next field, for every string of at most 255 bytes. For longer strings the claim is false: the length byte saturates while all bytes are written, so the next field is read from the middle of the string.", "quantifier": "all byte strings (any length) at any bit alignment", "why_tests_cant": "depends on arbitrary length and content and on bit alignment", "anchors": ["source/IOHaptics/src/IOBinaryPrimitives.cpp: writeString, readString"]}
{"id": "C04", "title": "Bounded real-valued fields are quantised within one step and never leave their range", "statement": "Writing a real value x with n bits over [min,max] and reading it back gives a value in [min,max] that differs from x clamped to [min,max] by at most one quantisation step plus 2^-20 of the width of the range (binary32 rounding); the written code is monotone in x; infinities are clamped. Writing a NaN is undefined behaviour.", "quantifier": "all finite binary32 inputs and the ranges/widths used by the format (amplitude, frequency, phase, gain...)", "why_tests_cant": "2^32 inputs per range and rounding in every operation; floating-point corner cases are not sampled by tests", "anchors": ["source/IOHaptics/include/IOBinaryPrimitives.h: writeFloatNBits, readFloatNBits"]}
{"id": "C05", "title": "Re-encoding a decoded value does not drift", "statement": "Decoding an n-bit code k to a real value and encoding that value again yields k again, so a file can be read and rewritten any number of times without change. False of the code: amplitude codes 1 to 63 lose one step at every rewrite, phases and gains drift too; for fields of at most 20 bits one rewrite moves a code by at most one step, downwards.", "quantifier": "all codes of the widths and ranges used by the format", "why_tests_cant": "encoding truncates instead of rounding, so a single code whose decoded value rounds down would drift at every rewrite; needs every code of every range", "anchors": ["source/IOHaptics/include/IOBinaryPrimitives.h: writeFloatNBits, readFloatNBits"]}
{"id": "C06", "title": "Signed integers survive the bit-vector reader", "statement": "For every width n>=1 and every value v with -2^(n-1) <= v < 2^(n-1), the two's complement n-bit encoding of v read at any offset of any bit vector gives v and advances the offset by n; unsigned reads likewise for 0<=v<2^n.", "quantifier": "all widths, values, offsets, surrounding bits", "why_tests_cant": "unbounded offsets and surrounding contents", "anchors": ["source/IOHaptics/include/IOBinaryPrimitives.h: readInt, readUInt, writeNBits"]}
{"id": "C07", "title": "Every corruption burst up to the checksum length is detected", "statement": "If the bits covered by a 16-bit (resp. 32-bit) checksum are changed by a nonzero error burst spanning at most 16 (resp. 32) positions, anywhere in the protected data, the checksum computed over the corrupted data differs from the original one.", "quantifier": "all protected data of any length, all nonzero error bursts of length at most 16 (32), all positions", "why_tests_cant": "the number of messages and bursts is infinite; the guarantee is algebraic", "anchors": ["source/IOHaptics/src/IOStream.cpp: IOStream::computeCRC", "source/IOHaptics/include/IOStream.h: CRC16_POLYNOMIAL, CRC32_POLYNOMIAL"]}
{"id": "C08", "title": "A checksum packet written for intact data is accepted", "statement": "For every packet, the checksum packet the writer produces for it is accepted by the reader when the data is intact. False of the code for every packet: asked for one packet the writer produces nothing; and the reader rejects any checksum equal to 0.", "quantifier": "all packets and both checksum widths", "why_tests_cant": "the failing messages are a 2^-16 / 2^-32 fraction of all messages", "anchors": ["source/IOHaptics/src/IOStream.cpp: writeCRC, readCRC, checkCRC, computeCRC"]}
{"id": "C09", "title": "A checksum over several packets is accepted when the data is intact", "statement": "A global checksum written for k packets is accepted by the reader for the same k packets in the same order. (False of the code: the reader concatenates them in the opposite order.)", "quantifier": "all k >= 1 and all packet contents", "why_tests_cant": "needs all packet lists; symmetric test data (equal packets) hides it", "anchors": ["source/IOHaptics/src/IOStream.cpp: writeCRC, checkCRC"]}
{"id": "C10", "title": "Entropy coding is lossless", "statement": "For every finite sequence of binary symbols with per-symbol contexts, decoding the entropy-coded bit string with the same context sequence gives the original symbols, provided the encoder returns.", "quantifier": "all symbol sequences and all context sequences of any length (including adaptive counter rescaling)", "why_tests_cant": "adaptive state depends on the full history; infinitely many histories", "anchors": ["source/Spiht/src/ArithEnc.cpp: encode, remainder, rescaleCounter", "source/Spiht/src/ArithDec.cpp: initDecoding, decode"]}
{"id": "C11", "title": "The entropy coder always terminates with its interval inside the 10-bit range", "statement": "During encoding and decoding (of any bit string) the interval stays within the 10-bit range and wider than a quarter of it, every symbol has a nonempty sub-interval, and every renormalisation loop terminates; consequently encoding returns for every symbol sequence that contains a 1, and throws exactly when there is none.", "quantifier": "all histories of symbols and contexts", "why_tests_cant": "an interval collapse or infinite renormalisation loop may need a very long specific history", "anchors": ["source/Spiht/src/ArithEnc.cpp: encode, remainder", "source/Spiht/src/ArithDec.cpp: decode"]}
{"id": "C12", "title": "Wavelet coefficient coding is lossless for quantised blocks", "statement": "For every block of at least 8 quantised coefficients that fit its allocated bit count, decoding the set-partitioning code of the block gives back the same coefficients, and a block of zeros is decoded from an empty code. False of the code for shorter blocks: the encoder reads outside every block of fewer than 8 coefficients that is not zero.", "quantifier": "all block sizes 2^k and all coefficient values", "why_tests_cant": "block contents and the list-processing state space are unbounded", "anchors": ["source/Spiht/src/Spiht_Enc.cpp: encode, refinementPass, initMaxDescendants", "source/Spiht/src/Spiht_Dec.cpp: decode"]}
{"id": "C13", "title": "The descendant maxima used by the significance test are exact", "statement": "For every block, the value used to decide whether a tree of coefficients is significant equals the largest magnitude among the descendants of the node, so no significant coefficient is ever skipped.", "quantifier": "all blocks of all power-of-two sizes, all nodes, both tree types", "why_tests_cant": "needs every position/size; one wrong index only loses data for special blocks", "anchors": ["source/Spiht/src/Spiht_Enc.cpp: initMaxDescendants, maxDescendant"]}
{"id": "C14", "title": "Wavelet block headers survive", "statement": "The bit count (0..15) and the scale factor of a wavelet block written in the block header are read back: the count exactly, the scale rounded down to the fixed-point format of the header and exactly when it is representable. False of the code for scale factors of 17 and more, which the header does not reject but wraps to a factor below 17.", "quantifier": "all counts and all representable scale factors", "why_tests_cant": "covers the complete code space and both modes", "anchors": ["source/Spiht/src/Spiht_Enc.cpp: setBitwavmax", "source/Spiht/src/Spiht_Dec.cpp: getWavmax"]}
{"id": "C15", "title": "Packing bits into bytes and back is the identity up to zero padding", "statement": "Unpacking the bytes obtained by packing any bit string gives the bit string followed by fewer than 8 zero bits; packing unpacked bytes gives the bytes.", "quantifier": "all bit strings and all byte strings of any length", "why_tests_cant": "unbounded lengths", "anchors": ["source/Spiht/src/Spiht_Enc.cpp: convert2bytes", "source/Spiht/src/Spiht_Dec.cpp: convert2bits"]}
{"id": "C16", "title": "A haptic experience survives a write/read cycle of the binary file format", "statement": "For every well-formed experience without composite timelines (fields within the ranges of their bit fields, strings of at most 255 bytes, at most 255 avatars, perceptions, devices and bands...), writing it to a binary file and loading the file gives an experience with the same metadata, the same perceptions, channels, bands, effects and keyframes (real-valued fields replaced by their quantised value).", "quantifier": "all experiences: any number of perceptions, channels, bands, effects, keyframes and any optional-field combination", "why_tests_cant": "the combinations of optional fields, counts and nesting are unbounded; a single misordered optional field desynchronises everything after it", "anchors": ["source/IOHaptics/src/IOBinary.cpp: IOBinary::writeFile, loadFile and helpers", "source/IOHaptics/src/IOBinaryBands.cpp: writeBandHeader, readBandHeader, writeBandBody, readBandBody"]}
{"id": "C17", "title": "Writing a binary file terminates for composite effects", "statement": "Writing an experience whose library or bands contain a composite effect with a timeline terminates and stores the timeline. False of the code: the writer calls itself on the parent effect instead of its parts, without end.", "quantifier": "all experiences with a non-empty timeline", "why_tests_cant": "non-termination for all depths is not a finite observation", "anchors": ["source/IOHaptics/src/IOBinary.cpp: writeLibraryEffect", "source/IOHaptics/src/IOBinaryBands.cpp: writeTimelineEffect"]}
{"id": "C18", "title": "Large collections survive the binary file format", "statement": "An experience with more than 255 perceptions, avatars, reference devices or bands is read back completely. False of the code: the count is written modulo 256, and only that many elements are read.", "quantifier": "all counts above 255", "why_tests_cant": "needs every count, tests use tiny experiences", "anchors": ["source/IOHaptics/src/IOBinary.cpp: writePerceptionsHeader, writeAvatars, writeReferenceDevices, writeChannelsHeader"]}
{"id": "C19", "title": "Every packet of a stream unit is processed", "statement": "The unit reader hands each packet the writer put in a unit to the packet decoder, once and in order. False if the last packet (header and payload) is at most 9 bytes long: it is skipped silently.", "quantifier": "all units: any number of packets with any payload lengths", "why_tests_cant": "depends on payload sizes; ordinary data packets are long enough to hide it", "anchors": ["source/IOHaptics/src/IOStream.cpp: readMIHSUnit, writeMIHSUnit, writeMIHSPacketHeader, readMIHSPacket"]}
{"id": "C20", "title": "Stream read failures are reported", "statement": "If any packet of a unit fails to decode, or the file cannot be opened, loading the stream reports failure. False of the code: loading a stream reports success for every file that does not crash it.", "quantifier": "all streams with a failing packet", "why_tests_cant": "needs all failure positions", "anchors": ["source/IOHaptics/src/IOStream.cpp: readMIHSUnit, readFile, loadFile"]}
{"id": "C21", "title": "Writer and reader clocks agree", "statement": "When data packets are grouped into temporal and silent units, the reader's clock at each temporal unit equals the writer's timestamp for that unit, so each effect position reconstructed from the relative position in the packet equals the original position. False for wavelet bands whose blocks are shorter than the packet duration.", "quantifier": "all increasing sequences of packet timestamps that are multiples of the packet duration, with any gaps and any synchronisation points", "why_tests_cant": "clock drift accumulates over the whole stream; every gap pattern matters", "anchors": ["source/IOHaptics/src/IOStream.cpp: writeUnits, writeMIHSUnitTemporal, writeMIHSUnitSilent, readMIHSUnit, readInitializationTiming"]}
{"id": "C22", "title": "Packetisation loses no keyframe and duplicates none", "statement": "Cutting a band's effects into packets of fixed duration puts each keyframe of each basis effect into exactly one packet, the one whose time window contains the keyframe, when effects do not overlap in time. False in general: an effect that starts while an earlier one still has keyframes in a later window is dropped, and a reference at the end of the band is lost when it lies on a window boundary.", "quantifier": "all bands: any number of effects and keyframes, all packet durations", "why_tests_cant": "depends on relative timing of all effects and the window grid", "anchors": ["source/IOHaptics/src/IOStream.cpp: packetizeBand, createPayloadPacket, writeEffectBasis"]}
{"id": "C23", "title": "Reassembling the packets of a band restores its effects", "statement": "Feeding the per-packet fragments of the effects of a band to the reader in packet order yields a band with the same effects (id, position, keyframes in order). Effects sharing one id are merged.", "quantifier": "all bands of non-overlapping effects with distinct ids", "why_tests_cant": "fragments arrive over arbitrarily many packets", "anchors": ["source/IOHaptics/src/IOStream.cpp: addEffectToHaptic, readEffect, readEffectBasis"]}
{"id": "C24", "title": "Packets are emitted in time order, stably", "statement": "Packets are emitted sorted by timestamp, no packet is lost or duplicated, and packets with equal timestamps keep the order in which they were produced.", "quantifier": "all packet lists", "why_tests_cant": "all permutations and timestamp patterns", "anchors": ["source/IOHaptics/src/IOStream.cpp: sortPacket"]}
{"id": "C25", "title": "Automatically assigned effect ids are fresh", "statement": "Whenever effects without id are streamed, the ids assigned to them are pairwise distinct and distinct from all ids already present, and existing ids are unchanged. Holds for the effects a band lists directly; false of the code for effects nested in composite effects, whose ids are not considered, and for wavelet bands, whose effects always get a new id.", "quantifier": "all experiences and all mixtures of effects with and without ids", "why_tests_cant": "freshness must hold against every existing id set", "anchors": ["source/IOHaptics/src/IOStream.cpp: getEffectsId, getNextEffectId, createPayloadPacket"]}
{"id": "C26", "title": "Flattening composite effects keeps every leaf effect", "statement": "Before streaming, a band containing composite effects (nested to any depth) is flattened: afterwards it has no composite effect, and the multiset of basis and reference effects equals the leaves of the original, sorted by position. False of the code: that nested effects keep their place in time (their position is not shifted by that of the composite effect).", "quantifier": "all bands and all nesting depths", "why_tests_cant": "unbounded nesting", "anchors": ["source/IOHaptics/src/IOStream.cpp: linearizeTimeline"]}
{"id": "C27", "title": "Library effects with nested timelines survive streaming", "statement": "An effect library whose effects contain timelines nested to any depth is read back from its stream packet with the same structure and values (reals quantised).", "quantifier": "all libraries with all nestings and optional-field combinations", "why_tests_cant": "recursive structure of unbounded depth", "anchors": ["source/IOHaptics/src/IOStream.cpp: writeLibrary, readLibrary, writeLibraryEffect, readLibraryEffect"]}
{"id": "C28", "title": "Experience, perception, channel and band metadata survive streaming", "statement": "The metadata packets for an experience, perception, channel and band decode to the metadata they were written from (reals quantised, fields within range), with any combination of optional fields. (False of the code for a priority of 0 and a reference device 255, which are read back as absent.)", "quantifier": "all metadata values and all optional-field combinations", "why_tests_cant": "2^12 optional combinations for devices alone, times unbounded strings and lists", "anchors": ["source/IOHaptics/src/IOStream.cpp: writeMetadataHaptics, readMetadataHaptics, writeMetadataPerception, writeMetadataChannel, writeMetadataBand and readers"]}
{"id": "C29", "title": "Removing empty effects before streaming", "statement": "Cleaning an experience before streaming removes every basis effect without keyframes and nothing else. False for consecutive empty effects: every second one is kept. It is true that nothing non-empty is removed, and that empty effects that are not adjacent are all removed.", "quantifier": "all bands", "why_tests_cant": "depends on adjacency patterns in the list", "anchors": ["source/IOHaptics/src/IOStream.cpp: checkHapticComponent"]}
{"id": "C30", "title": "Receiving the same initialization unit twice changes nothing", "statement": "Processing a re-sent initialization unit leaves the reader's experience unchanged. False of the code: avatars and synchronisation points are appended again, and the avatar reference of the perception is overwritten with its own id.", "quantifier": "all experiences", "why_tests_cant": "requires stating what all readers must preserve", "anchors": ["source/IOHaptics/src/IOStream.cpp: readMetadataHaptics, readLibrary", "source/Types/src/Haptics.cpp: replacePerceptionMetadataAt"]}
{"id": "C31", "title": "A band always keeps its effects sorted by position", "statement": "After any sequence of insertions the effects of a band are ordered by position, effects with equal positions are in insertion order, and they are exactly the inserted effects.", "quantifier": "all insertion sequences", "why_tests_cant": "all sequences of all lengths", "anchors": ["source/Types/src/Band.cpp: addEffect"]}
{"id": "C32", "title": "Replacing or removing by index touches exactly that element", "statement": "Replacing or removing an element (effect, band, channel, perception, library effect, device, avatar) at an index succeeds exactly when the index is valid; then only that element changes, otherwise nothing changes and failure is returned.", "quantifier": "all collections, all signed indices", "why_tests_cant": "all sizes and indices including negatives", "anchors": ["source/Types/src/Band.cpp: replaceEffectAt, removeEffectAt", "source/Types/src/Channel.cpp: replaceBandAt, removeBandAt", "source/Types/src/Perception.cpp: replaceChannelAt, removeChannelAt"]}
{"id": "C33", "title": "Adding amplitudes and frequencies keeps keyframes sorted, one per position", "statement": "Any interleaving of setting an amplitude or a frequency at a position on a fresh effect yields keyframes in strictly increasing position order, one per distinct position, each holding the last amplitude and last frequency set at that position.", "quantifier": "all interleavings and all positions and values", "why_tests_cant": "map-like behaviour over all histories", "anchors": ["source/Types/src/Effect.cpp: addAmplitudeAt, addFrequencyAt"]}
{"id": "C34", "title": "Channel output never exceeds full scale", "statement": "Evaluating a channel, at one time or sampled, gives numbers in [-1,1], as many as asked for, whatever its bands and effects are. True unless the result is not a number, which can happen although every field is a number: two amplitudes at the same time in a vectorial effect.", "quantifier": "all channels and times", "why_tests_cant": "all combinations of bands", "anchors": ["source/Types/src/Channel.cpp: Evaluate, EvaluateChannel"]}
{"id": "C35", "title": "Evaluating a transient effect terminates", "statement": "Evaluating a transient effect at any position terminates. False of the code when a keyframe at that time has no amplitude (the iterator is not advanced); true otherwise.", "quantifier": "all effects and positions", "why_tests_cant": "non-termination cannot be observed by a finite test", "anchors": ["source/Types/src/Effect.cpp: EvaluateTransient"]}
{"id": "C36", "title": "Factoring repeated effects into a library and expanding it again is lossless", "statement": "Moving repeated effects into the library and then expanding all references gives bands with the same effects at the same positions (up to effect ids), and no library is left. True when effects the equivalence test identifies have equal content and the ids in use are below the library size; false in general (wavelet data, semantic keywords and colliding ids are lost).", "quantifier": "all perceptions with any channels, bands and effects", "why_tests_cant": "global search across all bands; unbounded", "anchors": ["source/Types/src/Perception.cpp: refactorEffects, linearizeLibrary, searchForEquivalentEffects, getEffectById", "source/Types/src/Effect.cpp: isEquivalent"]}
{"id": "C37", "title": "Updating perception metadata keeps the avatar reference", "statement": "Updating the metadata of a stored perception, channel or band takes the new metadata, keeps what is stored below it and leaves its siblings unchanged; a perception then refers to the avatar the new metadata names. (False of the code for the avatar reference: the perception's own id is stored.)", "quantifier": "all perceptions", "why_tests_cant": "for all ids; equal ids hide it", "anchors": ["source/Types/src/Haptics.cpp: replacePerceptionMetadataAt"]}
{"id": "C38", "title": "OHM metadata files survive a write/read cycle", "statement": "An OHM metadata object written to a file and loaded into an empty object is equal, when strings fit their fixed-size fields and do not end with NUL, counts agree with the lists, and body-part masks lack the parts 7 (waist), 15 (left wrist) and 23 (left thigh). Other strings are cut; a mask with one of those parts comes back with every part above it; a count that disagrees makes the rest of the file misread.", "quantifier": "all OHM objects: any number of elements and channels", "why_tests_cant": "all masks/strings/counts", "anchors": ["source/Tools/src/OHMData.cpp: loadFile, writeFile, fillString"]}
{"id": "C39", "title": "Command-line options are found exactly when present", "statement": "Looking up an option returns the argument following its first occurrence, or empty if the option is absent or last; presence tests agree with membership.", "quantifier": "all argument lists and options", "why_tests_cant": "all argument orders", "anchors": ["source/Tools/src/InputParser.cpp: getCmdOption, cmdOptionExists, getFileExt"]}
{"id": "C40", "title": "Audio samples saved as 16-bit PCM are within range and within one step", "statement": "Each finite sample is stored as a nearest 16-bit value (saturating at the ends), and saving channels and loading restores each channel's samples in order. Strictly, negative samples and NaN are converted by a conversion the language leaves undefined.", "quantifier": "all sample buffers and channel counts", "why_tests_cant": "all sample values and shapes", "anchors": ["source/Tools/src/WavParser.cpp: saveFile, loadFile"]}
{"id": "C41", "title": "Power-of-two test is exact", "statement": "The power-of-two test accepts exactly the powers of two, for every int but the smallest, where it overflows.", "quantifier": "all positive integers in range", "why_tests_cant": "2^31 inputs, algebraic", "anchors": ["source/Tools/src/Tools.cpp: isPowerOfTwo"]}
{"id": "C42", "title": "The conformance checker accepts exactly the conformant experiences", "statement": "The conformance checker always answers, and accepts an experience exactly when its version, profile, level, date and timescale are in range; the ids of avatars, perceptions, devices, channels and library effects are unique at their level; every avatar, device and library effect referred to by a perception, channel or band effect exists; frequency limits are in order; directions are nearly unit vectors; actuator targets are inside the resolution; wavelet bands have a power of two as block length and no keyframes; and the number of channels and bands respects the level.", "quantifier": "all experiences", "why_tests_cant": "soundness and completeness over all experiences", "anchors": ["source/IOHaptics/src/IOJson.cpp: semanticConformanceCheck*"]}
{"id": "C43", "title": "Gaps are filled by silence of the right length", "statement": "The silent units inserted between data packets have a duration that is a non-negative multiple of the packet duration and never extends past the next packet's timestamp. False for wavelet bands whose blocks are shorter than the packet duration: the gap is negative and is written as a huge duration.", "quantifier": "all gaps, packet durations and sync positions", "why_tests_cant": "every gap pattern", "anchors": ["source/IOHaptics/src/IOStream.cpp: writeMIHSUnitSilent, writeUnits, silentUnitSyncFlag"]}
{"id": "C44", "title": "Wavelet bands are packetised completely and in finite time", "statement": "Streaming a wavelet band writes each block in some packet and terminates. True when a block lasts more than half a packet and at most a packet. False otherwise: several blocks per packet duration lose all but one; a block longer than the packet duration never terminates; a block length of 0 is a division by zero.", "quantifier": "all wavelet bands, block lengths and packet durations", "why_tests_cant": "non-termination and ratio dependence", "anchors": ["source/IOHaptics/src/IOStream.cpp: createWaveletPayload, packetizeBand"]}
{"id": "C45", "title": "Channels of different perceptions with the same id stay separate in a stream", "statement": "Streaming two perceptions whose channels have the same channel id delivers each channel to its own perception. False of the code: the lookup ignores the perception, and reading the stream crashes.", "quantifier": "all experiences", "why_tests_cant": "id collisions across perceptions", "anchors": ["source/IOHaptics/src/IOStream.cpp: searchChannelInHaptic, readMetadataChannel"]}
{"id": "C46", "title": "Extracted curve keyframes are strictly ordered in time and taken from the signal", "statement": "Converting a signal into a curve band yields one effect whose keyframes have strictly increasing positions, each at the tick nearest to a sample and with its amplitude; the first sample, the last sample and every sample where the signal turns is kept. True except that of several such samples in one tick only the last is kept (so the first sample's amplitude may be lost), and that peaks within 100 epsilon of both neighbours are dropped.", "quantifier": "all signals", "why_tests_cant": "all signal shapes", "anchors": ["source/Encoder/src/PcmEncoder.cpp: convertToCurveBand, localExtrema"]}
{"id": "C47", "title": "Equivalence of effects is an equivalence relation", "statement": "The test used to find repeated effects is reflexive on basis effects, symmetric and transitive, and ignores only id and position. False for NaN values (not reflexive), and it also ignores semantic keyword, timeline and wavelet data; symmetric and transitive always.", "quantifier": "all effects", "why_tests_cant": "all triples of effects", "anchors": ["source/Types/src/Effect.cpp: isEquivalent"]}
{"id": "C48", "title": "Interpolated values stay between their end points", "statement": "Linear interpolation between two keyframes at a time between them is within 5 units of relative rounding of a value between the two amplitudes that hits them at the ends. False of the code that it is between them and exact at the ends, and that it is a number when the two times coincide.", "quantifier": "all end points and times", "why_tests_cant": "rounding on all inputs", "anchors": ["source/Tools/src/Tools.cpp: linearInterpolation"]}
{"id": "C49", "title": "Factoring leaves no repeated effect behind", "statement": "After moving repeated effects into the library, no two different places of a perception hold equivalent effects (the one in the lower channel not being in a wavelet band).", "quantifier": "all perceptions, all pairs of places", "why_tests_cant": "depends on every earlier replacement made while scanning", "anchors": ["source/Types/src/Perception.cpp: refactorEffects, searchForEquivalentEffects"]}
{"id": "C50", "title": "Data of spatial perceptions survives streaming", "statement": "The effects of a band of a spatial perception (texture, stiffness, friction) are read back from the stream as they were written. False of the code: the reader expects another format and crashes.", "quantifier": "all bands of spatial perceptions", "why_tests_cant": "two separately written formats must agree on every band", "anchors": ["source/IOHaptics/src/IOStream.cpp: writeSpatialData, readData, readEffect", "source/IOHaptics/src/IOBinaryBands.cpp: writeBandBody"]}
{"id": "C51", "title": "The data of each band is emitted once", "statement": "Every data packet produced for a band appears exactly once in the stream, and only packets of that band carry its id. False with several spatial bands: the data of the earlier ones is sent again.", "quantifier": "all experiences, any mixture of spatial and temporal perceptions", "why_tests_cant": "depends on the order of all earlier bands", "anchors": ["source/IOHaptics/src/IOStream.cpp: writeData"]}
{"id": "C52", "title": "Cutting a band into packets terminates", "statement": "For every positive packet duration the loop that cuts a band into packets ends; the number of packets is bounded by the time of the last keyframe divided by the packet duration. With a packet duration of 0 it never ends.", "quantifier": "all bands and packet durations", "why_tests_cant": "termination for all inputs", "anchors": ["source/IOHaptics/src/IOStream.cpp: packetizeBand, createPayloadPacket"]}
{"id": "C53", "title": "An accepted checksum does not disturb the units that follow it", "statement": "After a checksum packet has been accepted, later units are processed as if it had not been there. False of the code: every later unit is reported as corrupt and data packets that continue an effect are then dropped.", "quantifier": "all streams with an accepted checksum followed by any unit", "why_tests_cant": "depends on state left behind by an earlier unit", "anchors": ["source/IOHaptics/src/IOStream.cpp: readFile, checkCRC, readCRC"]}
{"id": "C54", "title": "Semantic keywords and their codes correspond one to one", "statement": "The code of a keyword decodes to the keyword and the keyword of a code encodes to the code; every code fits its field; any other text is refused.", "quantifier": "all texts and all codes", "why_tests_cant": "two separately written tables", "anchors": ["source/Types/include/Effect.h: stringToEffectSemantic, effectSemanticToString", "source/IOHaptics/src/IOStream.cpp: writePayloadPacket, readEffect"]}
{"id": "C55", "title": "A stream file splits into the units it was written from", "statement": "Reading a stream file yields exactly the units that were written, in order, however many there are and however long they are.", "quantifier": "all sequences of well-formed units up to 2^32 bytes in total", "why_tests_cant": "every combination of unit sizes", "anchors": ["source/IOHaptics/src/IOStream.cpp: loadFile, writeFile, readNBytes, writeNBytes"]}
{"id": "C56", "title": "A unit that cannot be decoded does not shift what follows", "statement": "If the contents of a unit cannot be decoded, the effects of later units keep their positions. False of the code: the duration of a unit is not added to the clock when one of its packets fails, so everything after it is early.", "quantifier": "all streams with a unit that cannot be decoded", "why_tests_cant": "needs every failure position and what follows it", "anchors": ["source/IOHaptics/src/IOStream.cpp: readMIHSUnit, readData, addTimestampEffect"]}
{"id": "C57", "title": "A stream that is written and read restores the experience", "statement": "An experience that is written as a stream and read again is restored: its own fields, avatars, perceptions with devices and libraries, channels and bands in their places, and in every band every effect with every keyframe at its time; effects without id receive one, reals are quantised, absent defaults become explicit, the only synchronisation point is the start. Conditions: bands of curves, vectorial effects or transients with effects in sequence, no spatial perception, at most one synchronisation point, distinct ids, values that fit their fields, times below 2^24 ticks, packets below 128 KiB.", "quantifier": "all experiences that satisfy the conditions, all packet durations below 2^24 ticks", "why_tests_cant": "composition of all packets and units, for every structure, alignment and duration", "anchors": ["source/IOHaptics/src/IOStream.cpp: writeFile, readFile, writeUnits, readMIHSUnit, writeAllPacketsMetadata, writeAllBands, readData"]}
{"id": "C58", "title": "A receiver can start at a packet marked for random access", "statement": "A packet marked as random access contains no continuation of an effect that began in an earlier packet. False of the code: the last effect of the packet decides the mark.", "quantifier": "all bands and packet durations", "why_tests_cant": "depends on how effects align with packets", "anchors": ["source/IOHaptics/src/IOStream.cpp: createPayloadPacket, writeEffectBasis"]}
{"id": "C59", "title": "The length stated in a packet is the length of its payload", "statement": "The header of each packet states the number of bytes of the payload that follows. True below 128 KiB; false for longer payloads, whose length is written modulo 2^17.", "quantifier": "all payloads", "why_tests_cant": "needs payload sizes no test uses", "anchors": ["source/IOHaptics/src/IOStream.cpp: writeMIHSPacketHeader, padToByteBoundary"]}
{"id": "C60", "title": "Loading an OHM file replaces what the object held", "statement": "After loading a file, an OHM object describes that file. False of the code: the elements of the file are appended to the ones the object already held.", "quantifier": "all objects with elements and all files", "why_tests_cant": "the objects of tests are fresh", "anchors": ["source/Tools/src/OHMData.cpp: loadFile"]}
{"id": "C61", "title": "Numbers on the command line are recognised exactly", "statement": "A text is taken for a number exactly when it is not empty and has only decimal digits.", "quantifier": "all texts", "why_tests_cant": "infinitely many texts", "anchors": ["source/Tools/src/Tools.cpp: isNumber"]}
{"id": "C62", "title": "The block length of a wavelet band survives the binary file format", "statement": "The block length read back from a binary file is the one written. False of the code in general: it is read back exactly if and only if it is a whole power-of-two number of samples (16 to 4194304); otherwise it becomes shorter, e.g. blocks of 512 samples at 44100 Hz are halved.", "quantifier": "all wavelet bands: every block length and upper frequency", "why_tests_cant": "every combination of sampling rate and block length", "anchors": ["source/IOHaptics/src/IOBinaryBands.cpp: writeBandHeader, readBandHeader", "source/Encoder/src/WaveletEncoder.cpp: encodeSignal"]}
{"id": "C63", "title": "The effects of a wavelet band keep their positions in a binary file", "statement": "Effects placed one block after another are at the same positions after writing and loading. False of the code: the position is scaled by 1000 over the upper frequency of the band.", "quantifier": "all experiences, bands and effects", "why_tests_cant": "the scaling cancels out for some bands", "anchors": ["source/IOHaptics/src/IOBinaryBands.cpp: readBandBody"]}
{"id": "C64", "title": "The timescale of an experience survives the binary file format", "statement": "Loading a binary file gives the number of ticks per second the experience was written with. False of the code: it is not stored and is always 1000 after loading.", "quantifier": "all files", "why_tests_cant": "any other timescale is lost", "anchors": ["source/IOHaptics/src/IOBinary.cpp: loadFile, writeFile, readFileHeader"]}
{"id": "C65", "title": "Loading any binary file is well defined", "statement": "Loading a file has a defined result whatever its bytes. False of the code: a wavelet band with upper frequency 0 divides by zero, and a block length code above 26 overflows an int conversion.", "quantifier": "all byte sequences", "why_tests_cant": "undefined behaviour may go unnoticed on the tested platform", "anchors": ["source/IOHaptics/src/IOBinaryBands.cpp: readBandHeader"]}
{"id": "C66", "title": "Loading any binary file terminates", "statement": "Loading stops whatever the bytes of the file, even if truncated or hostile: the depth of recursion is bounded by the number of bits.", "quantifier": "all byte sequences of any length", "why_tests_cant": "termination on all inputs", "anchors": ["source/IOHaptics/src/IOBinary.cpp: loadFile, readLibraryEffect", "source/IOHaptics/src/IOBinaryBands.cpp: readTimelineEffect"]}
{"id": "C67", "title": "A curve effect with two keyframes is heard", "statement": "The sampled signal of a curve effect with two keyframes follows the line between them. False of the code: such effects add nothing to the signal.", "quantifier": "all curve bands whose effects have two keyframes", "why_tests_cant": "the silence depends on the number of keyframes only", "anchors": ["source/Types/src/Band.cpp: EvaluationBand"]}
{"id": "C68", "title": "A curve effect is heard at its position", "statement": "An effect of a curve band starts at position * sampling rate / timescale samples. False of the code: it is placed at position * sampling rate * timescale, so it is not heard unless at position 0.", "quantifier": "all effects, rates, timescales and lengths", "why_tests_cant": "tests use effects at position 0", "anchors": ["source/Types/src/Band.cpp: EvaluationBand"]}
{"id": "C69", "title": "The signal of a channel is the sum of the signals of its bands, limited to full scale", "statement": "Each sample of a channel is the sum of the samples of its bands, limited once, in any order of the bands. True while no partial sum exceeds full scale; false in general: the sum is limited after every band, so the order matters and the result differs from the evaluation at one instant.", "quantifier": "all channels", "why_tests_cant": "needs bands that clip in the middle of the sum", "anchors": ["source/Types/src/Channel.cpp: EvaluateChannel, Evaluate"]}
{"id": "C70", "title": "A curve effect with one keyframe can be synthesised", "statement": "The synthesis of a curve effect with one keyframe has a defined result. False of the code: the amplitude is read outside of an empty vector.", "quantifier": "all such effects", "why_tests_cant": "undefined behaviour may go unnoticed", "anchors": ["source/Types/src/Band.cpp: EvaluationBand", "source/Tools/src/Tools.cpp: linearInterpolation2, cubicInterpolation2"]}
{"id": "C71", "title": "A band without effects is silent", "statement": "A band without effects adds silence to the signal. False of the code: the synthesis reads before the beginning of a vector, unless it is a curve band.", "quantifier": "all bands and lengths", "why_tests_cant": "undefined behaviour may go unnoticed", "anchors": ["source/Types/src/Band.cpp: EvaluationBand"]}
{"id": "C72", "title": "The samples of a decoded wavelet band are played one by one", "statement": "Sample k of the synthesised signal is sample k of the decoded signal. Proved: it is sample k or the one before it, for all rates and timescales. False in general: at 44100 Hz and 1000 ticks per second sample 2 is played twice and sample 3 is lost.", "quantifier": "all rates, timescales and sample numbers below 2^31", "why_tests_cant": "rounding of each of the 2^31 positions for each rate", "anchors": ["source/Types/src/Effect.cpp: EvaluateWavelet", "source/Types/src/Band.cpp: EvaluationBand"]}
{"id": "C73", "title": "A band is silent outside of its effects", "statement": "Before its first effect starts and after its last effect ends a band evaluates to 0.", "quantifier": "all bands and times", "why_tests_cant": "all times", "anchors": ["source/Types/src/Band.cpp: Evaluate"]}
{"id": "C74", "title": "The synthesised signal is long enough for all effects", "statement": "The length of the synthesised signal covers every effect. Proved for the last effect of each band (in channels that do not state their length); false for other effects, which are cut off if they end after the last one of their band.", "quantifier": "all experiences", "why_tests_cant": "all arrangements of effects", "anchors": ["source/Synthesizer/src/Helper.cpp: getTimeLength", "source/Types/src/Band.cpp: getBandTimeLength"]}
{"id": "C75", "title": "A band offered for a new effect is free at that time", "statement": "Looking for a band for an effect of some type at some interval gives a band of that type none of whose effects meets the interval; none is given only if every band of that type has one that does. Requires a known position in the keyframes: otherwise the end of a vector is read.", "quantifier": "all channels, positions, durations and types", "why_tests_cant": "all arrangements of effects", "anchors": ["source/Types/src/Channel.cpp: findBandAvailable", "source/Types/src/Band.cpp: isOverlapping", "source/Types/src/Effect.cpp: getEffectTimeLength"]}
{"id": "C76", "title": "A curve effect is synthesised whatever the spacing of its keyframes", "statement": "The synthesis of a linear or cubic curve effect that fits into the signal has a defined result. False of the code exactly when a keyframe is one sample before the last one or all keyframes fall into one sample: the interpolated curve is one value short and is read past its end.", "quantifier": "all keyframe times in order, rates and timescales", "why_tests_cant": "depends on the distance in samples of the last keyframes", "anchors": ["source/Types/src/Band.cpp: EvaluationBand", "source/Tools/src/Tools.cpp: linearInterpolation2, cubicInterpolation2"]}
{"id": "C77", "title": "A perception may declare its semantic scheme", "statement": "An experience that is otherwise conformant and whose perceptions declare the standard semantic scheme is accepted by the conformance checker. False of the code: a declared scheme is rejected whatever it is, so that files with one cannot be loaded.", "quantifier": "all experiences and schemes", "why_tests_cant": "universal negative", "anchors": ["source/IOHaptics/src/IOJson.cpp: semanticConformanceCheckPerception"]}
{"id": "C78", "title": "Dates, URIs and versions are checked", "statement": "Only dates are accepted as dates, only URIs as URIs and only valid versions as versions. Proved for versions. False of the code for the others: any text with four digits in a row is accepted as a date, and any non-empty text as a URI.", "quantifier": "all texts", "why_tests_cant": "the accepted texts are characterised exactly", "anchors": ["source/IOHaptics/src/IOJson.cpp: URICheck, dateCheck, versionCheck"]}
{"id": "C79", "title": "Every reference in an accepted experience has its effect", "statement": "In an experience accepted by the conformance checker, every effect that is a reference refers to an effect of the library that can be rendered. Proved for effects directly in bands (there is a library effect with the id); false inside composite effects, which are not looked into, and in the library, where an effect may refer to itself.", "quantifier": "all experiences", "why_tests_cant": "soundness over all experiences", "anchors": ["source/IOHaptics/src/IOJson.cpp: semanticConformanceCheckEffect, semanticConformanceCheckLibraryEffect"]}
{"id": "C80", "title": "Interchange files give back what was saved", "statement": "Saving a conformant experience to an interchange file (.hjif) and opening the file, where the schema accepts it, succeeds and gives the same experience, except for: ids, phase, base signal, keyframes and streams that do not belong to the kind of effect and band; curve types and block lengths outside curve and wavelet bands; meshes of avatars that are not custom; a missing timescale of a synchronisation mark, which becomes 1000; effects inside composite effects; null bytes at the end of streams. An experience without any of these comes back identical.", "quantifier": "all conformant experiences whose values fit the file (finite numbers, text without null characters, sorted effects, a timescale), all dates of saving", "why_tests_cant": "round trip over an unbounded tree of optional fields", "anchors": ["source/IOHaptics/src/IOJson.cpp: writeFile, extract*, loadFile, load*"]}
{"id": "C81", "title": "Saving again loses nothing", "statement": "After one saving and opening, further savings and openings of the experience change nothing.", "quantifier": "all experiences as in C80", "why_tests_cant": "idempotence over all experiences", "anchors": ["source/IOHaptics/src/IOJson.cpp: writeFile, loadFile"]}
{"id": "C82", "title": "What is saved can be opened", "statement": "Every conformant experience that is saved as an interchange file can be opened. False of the code: a file saved without a timescale (which is optional and which the conformance checker accepts) is always refused, and one with a gain that is infinite or not a number is cut short and refused.", "quantifier": "all experiences without a timescale or with such a gain, all schemas", "why_tests_cant": "refusal for every experience of the class", "anchors": ["source/IOHaptics/src/IOJson.cpp: writeFile, loadFile"]}
{"id": "C83", "title": "Interchange files keep composite effects", "statement": "The effects inside composite effects are kept by interchange files. False of the code: no effect opened from any interchange file, in a band or in a library, has effects inside, whatever the file contains.", "quantifier": "all files", "why_tests_cant": "a statement about every input", "anchors": ["source/IOHaptics/src/IOJson.cpp: extractBands, extractLibrary, loadEffects, loadLibrary"]}
{"id": "C84", "title": "Wavelet streams in interchange files", "statement": "A wavelet block that is coded, saved in an interchange file and opened is decoded to the same coefficients; the null bytes that base 64 loses at the end of a stream never change what is decoded. A stream is always saved - false of the code: a band effect with a non-empty stream of null bytes makes saving end with an exception.", "quantifier": "all blocks as in C12; all byte sequences; all experiences with such a stream", "why_tests_cant": "composition of coder, base 64 and decoder over all blocks", "anchors": ["source/IOHaptics/src/IOJson.cpp: bytes2bits, bits2bytes, bits2base64, base642bits", "source/Spiht/src/ArithDec.cpp: decode"]}
{"id": "C85", "title": "Reading any stream ends", "statement": "Opening a stream file ends after a finite number of steps whatever the file contains: cut off, corrupted or made up.", "quantifier": "all files of less than 2 GiB", "why_tests_cant": "termination for every content", "anchors": ["source/IOHaptics/src/IOStream.cpp: readFile, loadFile, readMIHSUnit, readMIHSPacket, readLibraryEffect"]}
{"id": "C86", "title": "Reading any stream is well defined", "statement": "Opening a stream file has a defined result (an experience or an error) whatever the file contains. False of the code: a unit starting with a timing packet that states more bytes than are left makes the reader use memory beyond the unit, and a timescale of 0 followed by a timing packet makes it divide by zero.", "quantifier": "all files that start with such a unit, whatever follows", "why_tests_cant": "the whole class of files is shown to be undefined", "anchors": ["source/IOHaptics/src/IOStream.cpp: readMIHSUnit, readMIHSPacket, readTiming, readInitializationTiming"]}
{"id": "C87", "title": "Every launched effect of an IVS file is imported at all its times", "statement": "Importing an IVS document into an empty perception makes one channel for each timeline. If the launch events are listed in time order and the repetitions of the timeline do not overlap, the bands of that channel hold each launched effect of a known kind exactly once for each time at which the repetitions make it play, converted to ticks, and nothing else; no two effects of a band overlap.", "quantifier": "all documents, numbers of timelines, launches and repetitions, all timescales", "why_tests_cant": "all arrangements of launches and repetitions", "anchors": ["source/Encoder/src/IvsEncoder.cpp: encode, convertToEffect, injectIntoBands", "source/Encoder/include/IvsEncoder.h: pushEffect, linearize"]}
{"id": "C88", "title": "Nested repetitions of an IVS file keep all effects", "statement": "Repetitions inside repetitions are imported without loss. False of the code: as soon as one repetition starts inside another one, every launch outside the repetitions is lost, whatever the launches are (the search for the parent node overwrites the root of the tree).", "quantifier": "all timelines with two repetitions one of which starts inside the other", "why_tests_cant": "the whole class of timelines is shown to lose its effects", "anchors": ["source/Encoder/src/IvsEncoder.cpp: encode, isRepeatNested", "source/Encoder/include/IvsEncoder.h: pushEffect"]}
{"id": "C89", "title": "The order of launch events in an IVS file does not matter", "statement": "The time at which an effect is played depends on its time, not on where its launch event is in the file. False of the code: if a launch after a repetition is listed before a launch that precedes the repetition, the earlier one is delayed by the repetition too.", "quantifier": "all repetitions and all pairs of launches on both sides of it", "why_tests_cant": "all times", "anchors": ["source/Encoder/src/IvsEncoder.cpp: encode", "source/Encoder/include/IvsEncoder.h: pushEffect, linearize"]}
{"id": "C90", "title": "Times of an IVS file become the right tick", "statement": "A time in milliseconds is converted to the last tick that is not after it. Proved up to the case where the time is exactly a tick: then the tick or the one before is the result; false of the code that it is always the exact one (4007 ms at 1000 ticks per second give 4006).", "quantifier": "all times and timescales whose product fits", "why_tests_cant": "all double roundings", "anchors": ["source/Encoder/src/IvsEncoder.cpp: millisecondsToTimeScale"]}
{"id": "C91", "title": "An imported effect has the envelope of the IVS file", "statement": "The keyframes of an imported effect are in time order, start at 0 and end at the duration of the effect. The first has the attack level (the magnitude without an attack), the last the fade level (the magnitude without a fade). The frequency of a periodic effect is 1000 divided by its period in milliseconds, rounded down (a period given in microseconds, that is with its highest bit set, is first rounded down to milliseconds), that of a sweep 170 Hz.", "quantifier": "all effects with durations, attacks and fades that fit, also when they are longer than the effect or overlap", "why_tests_cant": "all relations between attack, fade and duration", "anchors": ["source/Encoder/src/IvsEncoder.cpp: convertToEffect", "source/Types/src/Effect.cpp: addAmplitudeAt"]}
{"id": "C92", "title": "An imported effect never overlaps another one in its band", "statement": "Adding an effect to a channel of vectorial bands puts it, at its time in ticks, into a band where it meets no other effect, or into a new one. All other effects stay, bands stay ordered and without overlaps.", "quantifier": "all channels with such bands, all effects", "why_tests_cant": "all arrangements of effects", "anchors": ["source/Encoder/src/IvsEncoder.cpp: injectIntoBands", "source/Types/src/Channel.cpp: findBandAvailable, generateBand"]}
{"id": "C93", "title": "Importing an IVS file gives distinct channels and valid frequencies", "statement": "The channels made by an import can be told apart by their identifiers, and their effects have frequencies of their band. False of the code: all channels have the identifier 0; a periodic effect without a period gets -1000 Hz; with the period 0 the result is undefined.", "quantifier": "all documents and effects", "why_tests_cant": "the whole class of effects is shown to fail", "anchors": ["source/Encoder/src/IvsEncoder.cpp: encode, convertToEffect, getPeriod"]}
{"id": "C94", "title": "Transient events of an AHAP file become keyframes at their times", "statement": "Importing an AHAP file into an empty perception makes a transient band of 65 to 300 Hz with one effect at 0 that has exactly one keyframe for each transient event, in the order of the file: at the nearest tick, with the amplitude for its intensity (0.5 if there is none), multiplied by the intensity curve interpolated at that time.", "quantifier": "all documents with valid values, all timescales", "why_tests_cant": "real-valued times, values and curves in any number", "anchors": ["source/Encoder/src/AhapEncoder.cpp: encode, extractTransients, extractKeyframes"]}
{"id": "C95", "title": "Continuous events of an AHAP file become effects without overlaps", "statement": "Every continuous event of an imported AHAP file becomes exactly one sine effect at the nearest tick, whose keyframes are in strict time order from 0 to its duration, with the amplitude and frequency of its parameters (unchanged if there are no curves) and never a larger amplitude. The effects are in vectorial bands of 65 to 300 Hz, sorted, no two in one band overlapping.", "quantifier": "all documents with valid values, all timescales", "why_tests_cant": "any number of events, at any times, with any curves", "anchors": ["source/Encoder/src/AhapEncoder.cpp: encode, extractContinuous"]}
{"id": "C96", "title": "A parameter curve need not reach every event", "statement": "An AHAP file whose intensity or sharpness curve ends before a continuous event, or starts after it, is imported. False of the code: the import of every such file is undefined (an iterator outside the vector is dereferenced).", "quantifier": "all documents in which the curves miss the first continuous event by two ticks", "why_tests_cant": "undefined behaviour for a whole class of files, invisible when the memory happens to be readable", "anchors": ["source/Encoder/src/AhapEncoder.cpp: modulateContinuousOnAmplitude, modulateContinuousOnFrequency"]}
{"id": "C97", "title": "Continuous effects follow the intensity curve", "statement": "In the effect made of a continuous event the amplitude at each control point of the intensity curve is the product of the amplitude of the event and the value of the point; at the beginning and at the end it is the interpolated one. False of the code at the last control point: there the amplitude is that of the event, as if there were no curve.", "quantifier": "all documents with valid values and control points in time order", "why_tests_cant": "interpolation on floating-point numbers for any curve and event", "anchors": ["source/Encoder/src/AhapEncoder.cpp: modulateContinuousOnAmplitude", "source/Types/src/Effect.cpp: addAmplitudeAt"]}
{"id": "C98", "title": "Frequencies of an imported AHAP file are those of the band", "statement": "All frequencies of an imported AHAP file are between 65 and 300 Hz, the limits of its bands, and those of continuous effects inside the event follow the sharpness curve. False of the code for transients: between two control points of value 1 a transient gets 389 or 390 Hz, between two of value -1 about -80 Hz.", "quantifier": "all documents with valid values", "why_tests_cant": "range of a result of floating-point interpolation", "anchors": ["source/Encoder/src/AhapEncoder.cpp: extractTransients, modulateContinuousOnFrequency"]}
{"id": "C99", "title": "An AHAP file without transients gives no transients", "statement": "Importing an AHAP file without transient events gives no transient effect. False of the code: there is always a transient band with one effect, then without keyframes.", "quantifier": "all documents without transient events", "why_tests_cant": "holds for every such document", "anchors": ["source/Encoder/src/AhapEncoder.cpp: encode"]}
{"id": "C100", "title": "Events and control points at the same time get the same tick", "statement": "An event and a control point of an AHAP file at the same time are at the same tick after the import. False of the code: times of events are rounded, those of control points truncated; at 1.001 s and timescale 1000 they are 1001 and 1000.", "quantifier": "all times and timescales", "why_tests_cant": "the rounding of a product of floating-point numbers", "anchors": ["source/Encoder/src/AhapEncoder.cpp: extractKeyframes, extractTransients, extractContinuous"]}
{"id": "C101", "title": "The sharpness of a transient is imported", "statement": "The sharpness of a transient event determines the frequency of its keyframe. False of the code: without a sharpness curve the frequency is 90 Hz whatever the sharpness.", "quantifier": "all documents without sharpness curve", "why_tests_cant": "holds for every value of the parameter", "anchors": ["source/Encoder/src/AhapEncoder.cpp: extractTransients"]}
{"id": "C102", "title": "Keyframes of the transients are in time order", "statement": "The keyframes of the effect of the transients are in time order. False of the code: they are in the order of the file.", "quantifier": "all documents with two transient events in reversed order", "why_tests_cant": "holds for every such document", "anchors": ["source/Encoder/src/AhapEncoder.cpp: encode"]}
{"id": "C103", "title": "A sharpness curve that is zero changes nothing", "statement": "A sharpness curve that is 0 throughout leaves the frequencies of continuous effects as they are without a curve. False of the code: at the end of the effect the sharpness of the event counts twice (300 Hz instead of 183 Hz for 0.5), and an event without a sharpness, 90 Hz without a curve, gets 300 Hz at the control points.", "quantifier": "all documents with valid values", "why_tests_cant": "holds for every such document", "anchors": ["source/Encoder/src/AhapEncoder.cpp: extractContinuous, modulateContinuousOnFrequency"]}
{"id": "C104", "title": "The bit budget of a block is spent exactly", "statement": "The bit allocation of the wavelet encoder always ends, and the bits it gives to the bands of a block add up to the bit budget, or to 15 bits for every band if the budget is larger.", "quantifier": "all blocks, block lengths, budgets, energies and signal-to-mask ratios, any logarithm and square function", "why_tests_cant": "the allocation depends on floating-point ratios that no finite set of signals covers", "anchors": ["source/Encoder/src/WaveletEncoder.cpp: encodeBlock"]}
{"id": "C105", "title": "No band gets more than 15 bits", "statement": "No band of a block gets more than the 15 bits that the entropy coder can carry, as long as the next bit can always be given to a band with a finite ratio. False of the code for a silent block: all ratios are infinite or undefined, every bit of the budget goes to the lowest band (16 of a budget of 16), and a budget of 31 or more shifts an int by 31 bits, which is undefined behaviour.", "quantifier": "all blocks and budgets; silent blocks of every length", "why_tests_cant": "the ratios are infinite only for exact zeros of the noise, and then the order of comparisons decides", "anchors": ["source/Encoder/src/WaveletEncoder.cpp: encodeBlock, updateNoise, findMinInd, uniformQuant"]}
{"id": "C106", "title": "Coefficients are quantised to the closest step", "statement": "The scale factor of a block is the smallest one that the header can carry and that is not below the largest coefficient (or the last one of its range), and each band is quantised to the closest multiple of scale / 2^bits, clipped at 2^bits - 1 steps, with the sign kept and all other bands unchanged.", "quantifier": "all finite coefficients up to 2^30, all bit counts up to 15", "why_tests_cant": "rounding is exact or off by a multiple of the step only at isolated values", "anchors": ["source/Encoder/src/WaveletEncoder.cpp: maximumWaveletCoefficient, maxQuant, uniformQuant, sgn"]}
{"id": "C107", "title": "The coded coefficients are exactly the quantised ones", "statement": "Decoding an encoded block gives every quantised coefficient back exactly, scaled by the scale factor over 2^bits, before the inverse transform is applied.", "quantifier": "all blocks of 2^k integers below 2^bits and all scale factors of the header", "why_tests_cant": "needs every block of integers", "anchors": ["source/Spiht/src/Spiht_Enc.cpp: encodeEffect", "source/Spiht/src/Spiht_Dec.cpp: decodeEffect", "source/WaveletDecoder/src/WaveletDecoder.cpp: transformBand, decodeBlock"]}
{"id": "C108", "title": "The inverse wavelet transform undoes the transform", "statement": "Transforming a vector and transforming it back gives every sample back up to 2^levels / 2^40 of the largest sample, and no coefficient exceeds 2^levels times the largest sample.", "quantifier": "all vectors of finite samples whose length is a multiple of 2^levels", "why_tests_cant": "an error bound over all inputs", "anchors": ["source/FilterBank/src/Wavelet.cpp: DWT, inv_DWT, symconv1D, symconv1DAdd, conv1D"]}
{"id": "C109", "title": "A block is decoded within the error of its bits", "statement": "A block that is encoded and decoded differs from the original in no sample by more than 1.16 times the sum of the quantisation steps of its bands (plus what the largest coefficient exceeds the scale factor, plus rounding).", "quantifier": "all blocks of 2^k samples up to 512, all budgets", "why_tests_cant": "an error bound over all inputs", "anchors": ["source/Encoder/src/WaveletEncoder.cpp: encodeBlock", "source/WaveletDecoder/src/WaveletDecoder.cpp: transformBand, decodeBlock"]}
{"id": "C110", "title": "Block lengths that can be transformed", "statement": "The transform and its inverse at the number of levels of a block length are defined exactly if the length is a multiple of 2^levels; an effect decoded with another length gives no samples at all but undefined behaviour.", "quantifier": "all vectors of at least 8 samples, all bitstreams", "why_tests_cant": "needs every length", "anchors": ["source/FilterBank/src/Wavelet.cpp: DWT, inv_DWT", "source/WaveletDecoder/src/WaveletDecoder.cpp: transformBand"]}
{"id": "C111", "title": "A signal is divided into blocks without gap", "statement": "The wavelet encoder makes one effect for each block of the signal, ceil(samples / length) in number; effect i holds the coded samples from i * length on, with zeros behind the end, and is at i times the block length of the band; and it succeeds for every sampling frequency.", "quantifier": "all signals, block lengths, sampling frequencies and timescales", "why_tests_cant": "needs every length of the signal", "anchors": ["source/Encoder/src/WaveletEncoder.cpp: encodeSignal"]}
{"id": "C112", "title": "The decoder finds the block length again", "statement": "The decoder computes the number of samples of a block from the block length of the band: the right number if a block of 2^k samples lasts a whole number of milliseconds. False of the code for the sampling frequencies 44100, 48000, 22050, 11025 and 24000 Hz with blocks of 1024 samples: the length becomes 1014 or 1008, and an encoded signal is never decoded; and for other timescales than 1000: 8192 samples for each block of 1024 at 8000 Hz and 8000 ticks per second.", "quantifier": "all block lengths 2^k up to 2^21 and all sampling frequencies that divide 1000 * 2^k; all signals at the refuted frequencies", "why_tests_cant": "the product is computed in floating point; the failure needs a sampling frequency of a kind that no test uses", "anchors": ["source/WaveletDecoder/src/WaveletDecoder.cpp: transformBand", "source/Encoder/src/WaveletEncoder.cpp: encodeSignal"]}
{"id": "C113", "title": "A signal survives wavelet coding", "statement": "Encoding a signal into a wavelet band and transforming it with the decoder at timescale 1000 gives one effect for each block, at the exact time of the block, whose samples are those of the signal within the error given by a division of the bit budget over the bands.", "quantifier": "all signals up to magnitude 512 whose blocks can be encoded, all block lengths 2^k up to 2^21, sampling frequencies dividing 1000 * 2^k", "why_tests_cant": "an error bound over all signals", "anchors": ["source/Encoder/src/WaveletEncoder.cpp: encodeSignal", "source/WaveletDecoder/src/WaveletDecoder.cpp: transformBand"]}
{"id": "C114", "title": "Decoded blocks play through without gaps", "statement": "A decoded wavelet band of any number of blocks is played without gap, overlap or echo at the block borders: every output sample is the sample of the same number, or the one before. False of the code that it is always the sample of the same number: at 8000 Hz with blocks of 1024 samples, sample 1001 of every band is sample 1000 again (the position is rounded in binary).", "quantifier": "all bands of blocks of 2^k samples that last a whole number of milliseconds, all samples", "why_tests_cant": "holds for every sample number; the rounding differs from sample to sample", "anchors": ["source/Types/src/Band.cpp: EvaluationBand", "source/Types/src/Effect.cpp: EvaluateWavelet"]}
{"id": "C115", "title": "An audio channel encoded as a wavelet band is heard again", "statement": "Encoding a channel of an audio file with a cutoff frequency of 0 adds exactly one wavelet band; transformed by the decoder and synthesised, it gives as many samples as the file has, each within the error that the bit budget allows of the sample of the same number or the one before.", "quantifier": "all signals within full scale whose blocks can be encoded, all block lengths 2^k up to 2^21, all sampling frequencies dividing 1000 * 2^k", "why_tests_cant": "an error bound over all signals", "anchors": ["source/Encoder/src/PcmEncoder.cpp: encode", "source/WaveletDecoder/src/WaveletDecoder.cpp: transformBand", "source/Types/src/Channel.cpp: EvaluateChannel"]}
{"id": "C116", "title": "Curve and wavelet band add up to the signal", "statement": "With a curve band, the wavelet band encodes the difference between the signal and the synthesised curve, and both are added to the channel. Synthesised together, every sample is the curve plus that difference at the same sample or the one before, limited to full scale, within the error that the bit budget allows.", "quantifier": "all signals within full scale, all low-pass filters and interpolations for which the curve band is defined and within full scale", "why_tests_cant": "an error bound over all signals", "anchors": ["source/Encoder/src/PcmEncoder.cpp: encode", "source/Types/src/Channel.cpp: EvaluateChannel"]}
{"id": "C117", "title": "The encoded file has the channels of the audio file", "statement": "Encoding an audio file into a perception gives one channel for each channel of the file, with its sampling frequency and number of samples. Channels that exist keep their metadata and bands; nothing else of the perception changes. It fails exactly if the perception has more channels than the file. False of the code that a file that cannot be read is reported: the result is a success without channels.", "quantifier": "all audio files, settings and perceptions", "why_tests_cant": "quantifies over all files and states of the perception", "anchors": ["source/Encoder/src/PcmEncoder.cpp: encode", "source/Encoder/src/PcmEncoder.cpp: loadFile"]}
{"id": "C118", "title": "Disabling the vectorial coding keeps the signal", "statement": "With the vectorial coding disabled the whole signal is encoded in the wavelet band. False of the code: with a cutoff frequency above 0 (the default) the wavelet band has only what the low-pass filter takes away, so that a signal below the cutoff frequency is encoded exactly like silence.", "quantifier": "all signals that the low-pass filter does not change", "why_tests_cant": "holds for all such signals", "anchors": ["source/Encoder/src/PcmEncoder.cpp: encode", "source/Encoder/src/main.cpp: --disable-vectorial"]}
{"id": "C119", "title": "A file is encoded or an error is reported", "statement": "The encoding of an audio file succeeds only if its signal is in the result. False of the code: with both codings disabled it succeeds without adding a band; with a negative cutoff frequency and the wavelet coding disabled the result does not depend on the samples.", "quantifier": "all audio files", "why_tests_cant": "quantifies over all files", "anchors": ["source/Encoder/src/PcmEncoder.cpp: encode", "source/Encoder/src/main.cpp: --disable-vectorial", "source/Encoder/src/main.cpp: --disable-wavelet"]}
{"id": "C120", "title": "Short audio files can be encoded", "statement": "An audio file of any length can be encoded with the default settings. False of the code: a file whose channels have no or one sample leads to undefined behaviour (its curve has less than two points).", "quantifier": "all audio files of at most one sample per channel, all cutoff frequencies above 0", "why_tests_cant": "undefined behaviour is not seen by running the program", "anchors": ["source/Encoder/src/PcmEncoder.cpp: encode", "source/Encoder/src/PcmEncoder.cpp: localExtrema", "source/Types/src/Band.cpp: EvaluationBand"]}
{"id": "C121", "title": "The bit budget follows the bitrate", "statement": "The bit budget chosen for a target bitrate r is -6.506 + 3.433 r - 0.04421 r^2 + 0.0002573 r^3 rounded down, but at least 1 and at most 15 bits for each band of the block; a higher bitrate never gives a smaller budget. False of the code for bitrates from 20350: the conversion to an integer is undefined.", "quantifier": "all bitrates from -20000 to 131072, all block lengths from 8", "why_tests_cant": "quantifies over all bitrates; monotonicity relates pairs of them", "anchors": ["source/Encoder/include/PcmEncoder.h: generateConfigParam"]}
{"id": "C122", "title": "Cutoff frequency and block length are used", "statement": "The cutoff frequency and the block length given on the command line are used. True with a bitrate or a bit budget; false of the code without: any cutoff frequency and block length give the default settings.", "quantifier": "all options", "why_tests_cant": "holds for all combinations", "anchors": ["source/Encoder/src/main.cpp: main", "source/Encoder/include/PcmEncoder.h: generateDefaultConfig"]}
{"id": "C123", "title": "Every block can be analysed", "statement": "The psychohaptic analysis of a block (after its Fourier transform) is defined for every block length of at least 8, whatever the spectrum and the results of the C library, also if values are infinite or no numbers: no access outside of an array, no exception, and one ratio and one energy for every band. The search for peaks is defined for every spectrum and gives bins of the spectrum with their heights.", "quantifier": "all block lengths from 8, all spectra, all results of log10 and pow", "why_tests_cant": "quantifies over all spectra, also those with infinite values; undefined behaviour is not seen by running the program", "anchors": ["source/PsychohapticModel/src/PsychohapticModel.cpp: getSMR", "source/PsychohapticModel/src/PsychohapticModel.cpp: findPeaks"]}
{"id": "C124", "title": "The peaks of a spectrum are found", "statement": "For a spectrum without equal neighbours, the search gives, from left to right, exactly the bins that are higher than both neighbours, have at least the minimal height and at least the minimal (topographic) prominence: the height above the higher of the two lowest points between the bin and the next higher bin, or the border, on either side.", "quantifier": "all spectra of numbers without equal neighbours, all minimal heights and prominences", "why_tests_cant": "an equivalence over all spectra and bins", "anchors": ["source/PsychohapticModel/src/PsychohapticModel.cpp: findPeaks", "source/PsychohapticModel/src/PsychohapticModel.cpp: findAllPeakLocations", "source/PsychohapticModel/src/PsychohapticModel.cpp: peakProminence", "source/PsychohapticModel/src/PsychohapticModel.cpp: filterPeakCriterion"]}
{"id": "C125", "title": "Equal neighbours do not hide a peak", "statement": "The search for peaks also gives the peaks of spectra with equal neighbours. False of the code: two equal bins on the way up to a peak are taken for a peak and the peak itself is missed, whatever the heights.", "quantifier": "all heights a < b < c, for the spectrum a, b, b, c, a", "why_tests_cant": "holds for all heights; random spectra have no equal neighbours", "anchors": ["source/PsychohapticModel/src/PsychohapticModel.cpp: findAllPeakLocations"]}
{"id": "C126", "title": "Peaks mask their neighbourhood", "statement": "The masking threshold of a block is the perceptual threshold if the spectrum has no peak of prominence 12 dB at most 45 dB below its highest value. Otherwise it is in every bin the perceptual threshold plus the power of the highest mask of the peaks, where a peak of h dB at f Hz masks h - 5 + 5 f / 1400 - 30 ((g - f) / f)^2 dB at g Hz, up to rounding.", "quantifier": "all spectra of numbers of up to 65536 bins, all sampling frequencies", "why_tests_cant": "an error bound over all spectra", "anchors": ["source/PsychohapticModel/src/PsychohapticModel.cpp: globalMaskingThreshold", "source/PsychohapticModel/src/PsychohapticModel.cpp: peakMask", "source/PsychohapticModel/src/PsychohapticModel.cpp: findMaxVector"]}
{"id": "C127", "title": "The bands cover the spectrum", "statement": "For block lengths 4 * 2^k the energy of a band is the sum over its bins of the power of the spectrum, its ratio is 10 log10 of that energy divided by the sum of the masking threshold, and every bin is in exactly one band. False of the code for other block lengths, which the command line accepts: with 1000 the bins from 896 on are in no band, and the energies do not depend on them.", "quantifier": "all spectra, all block lengths 4 * 2^k; all pairs of spectra for the block length 1000", "why_tests_cant": "an equality over all spectra; independence relates pairs of spectra", "anchors": ["source/PsychohapticModel/src/PsychohapticModel.cpp: getSMR", "source/PsychohapticModel/src/PsychohapticModel.cpp: PsychohapticModel", "source/Encoder/src/main.cpp: -bl"]}
{"id": "C128", "title": "Frequencies and perceptual thresholds of the bins", "statement": "Bin k has the frequency k fs / (2 bl - 1), up to a billionth of fs although it is added up. The perceptual threshold of a bin is 1 from the first bin on where its curve reaches 1, and the value of the curve before.", "quantifier": "all block lengths up to 65536, all sampling frequencies, all curves", "why_tests_cant": "an error bound over all additions", "anchors": ["source/PsychohapticModel/src/PsychohapticModel.cpp: PsychohapticModel", "source/PsychohapticModel/src/PsychohapticModel.cpp: perceptualThreshold"]}
{"id": "C129", "title": "The analysis depends on the block only", "statement": "The result of the analysis does not depend on what was analysed before. False of the code: the factor for the block length is computed once in a process, so that after a block of another length the spectrum is scaled with the factor of that length.", "quantifier": "all pairs of block lengths and blocks", "why_tests_cant": "quantifies over histories of the process", "anchors": ["source/PsychohapticModel/src/PsychohapticModel.cpp: getSMR (static correction)"]}
{"id": "C130", "title": "The status of the encoder program tells whether the file was written", "statement": "The encoder program ends with status 0 exactly if it has written its output file. False of the code: with an interchange (hjif) input the status is -1 although the file is written, and with an output that cannot be written the status is that of a success. For the other inputs status 1 means that nothing was written, and status 0 that the file was written if it could be.", "quantifier": "all argument lists, all contents of the file system and all behaviours of the component encoders", "why_tests_cant": "the argument lists and the file contents are unbounded, and a test only sees the files it writes itself", "anchors": ["source/Encoder/src/main.cpp: main"]}
{"id": "C131", "title": "The encoder program encodes one file as asked", "statement": "For an AHAP, IVS or WAV input that its encoder accepts, the output is named and formatted as the options ask, with the packet duration asked for, and holds one perception, which is what that encoder made at the timescale and with the settings asked for, refactored or linearized if asked. A file that is missing, refused or of an unknown kind gives status 1 and no output.", "quantifier": "all argument lists (order, repetitions, short and long names), files and encoder results", "why_tests_cant": "options may come in any order and number, and interact", "anchors": ["source/Encoder/src/main.cpp: main", "source/Tools/src/InputParser.cpp: getCmdOption, cmdOptionExists, getFileExt"]}
{"id": "C132", "title": "The options in the help text are understood", "statement": "Every option that the help text of the encoder lists has an effect; --bitrate sets the target bitrate like -kb. False of the code: --bitrate and its value can be left out of any argument list without changing what the program does. With -kb the settings are those of the bitrate.", "quantifier": "all argument lists with --bitrate at any place", "why_tests_cant": "the absence of any effect is a statement about all runs", "anchors": ["source/Encoder/src/main.cpp: help, main"]}
{"id": "C133", "title": "All elements of an OHM file are encoded, or the program fails", "statement": "Encoding an OHM file gives one perception for each of its elements, in order, encoded from the element's file, or the program ends with status 1 and writes nothing. False of the code for elements whose file is of an unknown kind: they become perceptions without content and the status is 0. True if the kinds are known: the first element whose file is missing or refused ends the program with status 1.", "quantifier": "all OHM files with any number of elements and channels, all element files", "why_tests_cant": "number of elements and position of the failing one are unbounded", "anchors": ["source/Encoder/src/main.cpp: main", "source/Types/src/Haptics.cpp: loadMetadataFromOHM"]}
{"id": "C134", "title": "Metadata survive the way from OHM and back", "statement": "An experience made from the metadata of an OHM file gives the same version, descriptions, channel counts, gains (bit for bit, unless NaN) and body parts when the metadata are extracted again; only the file name is replaced. False of the code for experiences from elsewhere: with a version that does not begin with a number the extraction throws.", "quantifier": "all metadata with versions in 16 bits, any number of elements, up to 32767 channels each", "why_tests_cant": "the gains are arbitrary bit patterns, the lists are unbounded", "anchors": ["source/Types/src/Haptics.cpp: loadMetadataFromOHM, extractMetadataToOHM"]}
{"id": "C135", "title": "A description of an OHM element names its modality", "statement": "The modality of an element is the one its description names, with or without the word effect, and otherwise unspecified. False of the code for the description Electrotactile effect, which gives the unspecified modality.", "quantifier": "all descriptions", "why_tests_cant": "the descriptions are arbitrary byte strings", "anchors": ["source/Types/src/Perception.cpp: convertToModality"]}
{"id": "C136", "title": "The padding of the synthesizer is in milliseconds", "statement": "With --pad n the synthesized audio is longer by n milliseconds at both ends. False of the code unless the timescale of the experience is 1000: the padding is counted in ticks, so that with a timescale of 2000 or more the audio is too short. With timescale 1000 the number of samples is right to within 0.501.", "quantifier": "all experiences, timescales, paddings and sampling frequencies without overflow", "why_tests_cant": "the result depends on the product of four unbounded numbers", "anchors": ["source/Synthesizer/src/Helper.cpp: playFile", "source/Synthesizer/src/main.cpp: main"]}
{"id": "C137", "title": "The synthesizer writes one signal for each channel", "statement": "When the synthesizer program ends normally with an input and a positive frequency, its status is 0 and the audio has, interleaved and with the same number of samples, the signal of every channel of every perception: what is synthesized from the padding before the start on, times the gain and the unit of the perception. A frequency that is not positive gives status 1. False of the code for an experience without perceptions, for example from a file that cannot be loaded: the program ends with an exception.", "quantifier": "all argument lists, experiences and file contents", "why_tests_cant": "number of channels and samples are unbounded", "anchors": ["source/Synthesizer/src/main.cpp: main", "source/Synthesizer/src/Helper.cpp: playFile", "source/Tools/src/WavParser.cpp: saveFile"]}
{"id": "C138", "title": "The decoder program reports files it cannot read", "statement": "The decoder program ends with status 0 exactly if it could read the input and write the output. False of the code: given two file names the status is never anything but 0; for an input that cannot be opened an experience without content is written. An input that can be read is written as the interchange file asked for.", "quantifier": "all argument lists and file contents", "why_tests_cant": "needs all possible inputs", "anchors": ["source/Decoder/src/main.cpp: main", "source/IOHaptics/src/IOStream.cpp: readFile"]}
{"id": "C139", "title": "Numbers in options are read as decimal numbers", "statement": "A number in an option or version is read as blanks, a sign and decimal digits up to the first other character; without digits or outside of 32 bits the program ends with an exception. What to_string writes is read back.", "quantifier": "all byte strings and all 32-bit numbers", "why_tests_cant": "infinitely many strings", "anchors": ["source/Encoder/src/main.cpp: main (std::stoi)", "source/Synthesizer/src/main.cpp: main", "source/Types/src/Haptics.cpp: extractMetadataToOHM, loadMetadataFromOHM"]}
{"id": "C140", "title": "The synthesizer writes metadata that describe its audio", "statement": "With --generate_ohm, an OHM file is written beside the audio, with the version and description of the experience and one element for every perception, in order, which names the audio file and has the description, gain (bit for bit) and body parts of every channel. False of the code for an experience whose version does not begin with a number: the program then ends with an exception.", "quantifier": "all argument lists, all experiences with less than 32768 channels in a perception", "why_tests_cant": "experiences are unbounded, gains are arbitrary bit patterns", "anchors": ["source/Synthesizer/src/main.cpp: main", "source/Types/src/Haptics.cpp: extractMetadataToOHM"]}
{"id": "C141", "title": "Audio and metadata written by the synthesizer can be encoded again", "statement": "Encoding the OHM file that the synthesizer wrote gives an experience with the same channels, which sounds the same. False of the code in two ways: every element names the file with the channels of all perceptions, so each perception gets all of them; and every channel gets the gain again that the samples were already multiplied with.", "quantifier": "all experiences, audio files and settings of the encoder", "why_tests_cant": "the failure depends on the interplay of two programs for all experiences", "anchors": ["source/Synthesizer/src/main.cpp: main", "source/Synthesizer/src/Helper.cpp: playFile", "source/Types/src/Haptics.cpp: extractMetadataToOHM, loadMetadataFromOHM", "source/Encoder/src/PcmEncoder.cpp: encode"]}
{"id": "C142", "title": "An Akima curve goes through its keyframes", "statement": "An effect with at least three keyframes in a band with an Akima curve adds one number to the signal for every sample from its first keyframe to its last, and at the time of a keyframe this number is its amplitude. Between two keyframes the samples lie on a cubic which at each keyframe has the same slope as the neighbouring cubic, so that the curve has no corners; this slope is between those of the straight lines to the keyframes before and after (to within 2^K / 2^48). At a keyframe with two others on each side, if these lines change their slopes by at least 2^K / 2^19 in all, it is Akima's weighted mean of the two slopes (to within 2^K / 2^26). For a segment of h samples, at most 2^26, and amplitudes of at most 2^K the rounding error is at most 2^K h / 2^42. False of the code if two neighbouring keyframes fall into the same sample: the signal is not a number there.", "quantifier": "all effects, keyframe times and finite amplitudes, sample rates and timescales", "why_tests_cant": "the samples come out of a chain of floating-point quotients whose denominators depend on the distances of all keyframes", "anchors": ["source/Tools/src/Tools.cpp: akimaInterpolation", "source/Types/src/Band.cpp: EvaluationBand"]}
{"id": "C143", "title": "Keyframes of a curve may be in any order", "statement": "The evaluation of a band with an Akima curve is defined whatever the order of the keyframes of an effect. False of the code: if a keyframe is earlier than the one before it, samples are written past the end of a vector.", "quantifier": "all effects with at least three keyframes whose times are not in order", "why_tests_cant": "memory errors depend on the times of all keyframes", "anchors": ["source/Tools/src/Tools.cpp: akimaInterpolation", "source/Types/src/Band.cpp: EvaluationBand"]}
{"id": "C144", "title": "A Bezier curve goes through every second keyframe", "statement": "An effect with at least three keyframes in a band with a Bezier curve adds one number to the signal for every sample from its first keyframe to its last, and at the first, third, fifth ... keyframe this number is its amplitude. In between the samples lie on the quadratic Bezier curves whose control points are the keyframes (three at a time), to within 2^-30 of the largest amplitude. This holds for an odd number of keyframes in order with at most 32767 samples from one to the next but one. False of the code otherwise: with an even number of keyframes, samples are read past the end of a vector, and a segment of 46341 samples or more overflows an int unless its middle keyframe is exactly in the middle.", "quantifier": "all effects, keyframe times and finite amplitudes, sample rates and timescales", "why_tests_cant": "the overflow needs long effects, and the root of a quadratic equation is taken at every sample", "anchors": ["source/Tools/src/Tools.cpp: bezierInterpolation", "source/Types/src/Band.cpp: EvaluationBand"]}
{"id": "C145", "title": "A B-spline curve stays within its amplitudes and ends", "statement": "The evaluation of an effect with at least three keyframes in a band with a B-spline curve ends. When it is defined it adds one number to the signal for every sample from its first keyframe to its last; the first and the last of these are the amplitudes of these keyframes, and none is larger than the largest amplitude (up to rounding).", "quantifier": "all effects, keyframe times in any order, finite amplitudes", "why_tests_cant": "the loop advances a floating-point parameter by a step that depends on the length of the effect", "anchors": ["source/Tools/src/Tools.cpp: bsplineInterpolation", "source/Types/src/Band.cpp: EvaluationBand"]}
{"id": "C146", "title": "A B-spline curve may have any number of keyframes", "statement": "The evaluation of a band with a B-spline curve is defined for every number of keyframes in increasing order. False of the code: with fifteen keyframes at 0, 1, ..., 13 and 50 samples the parameter of the curve passes 1 before the last sample is reached, and the knots are read past their end.", "quantifier": "all effects with keyframes in increasing order", "why_tests_cant": "the error depends on rounding and on the distances of all keyframes", "anchors": ["source/Tools/src/Tools.cpp: bsplineInterpolation"]}
