# Design: a Rocq model of the MPEG haptics reference software

Source: `/repo` (C++17), read as text only. Nothing in `/repo` was built, run or changed.
Prover: Coq 8.16.1, `-Q theories Verif`.

## Layout

Each area `X` has up to four files in `rocq/theories/`:

* `XModel.v`: executable Gallina functions. Every definition cites the file and lines it models and says
  where it simplifies. No proofs.
* `XSpec.v`: a small specification that does not use the model (only for properties that need more than
  standard list and integer notions).
* `XProof.v`: lemmas.
* `XProps.v`: the property theorems only, each closed by `exact`, each followed by `Print Assumptions` and by
  examples showing that a concrete, non-trivial case meets the hypotheses.

Naming: a theorem is called `Cnn_...`. The suffix `_refuted` marks the proof that the property is false of the
modelled code (with a concrete witness). The suffix `_partial` marks a proved part of a property whose full
statement is kept in a comment beside it.

## Modelling conventions

* C++ integers are `Z`. Wrap-around and narrowing casts are written out (`mod 2^n`) wherever the code narrows.
  `int` arithmetic that could overflow is either guarded by the hypotheses or reported in the definition's comment.
* A bit vector (`std::vector<bool>`) is `list bool`; a byte is a `Z` in 0..255; a file is a list of bytes.
* Undefined behaviour, thrown exceptions and non-termination are distinct outcomes (an `outcome` type, `option`,
  or exhausted fuel); a theorem never gets its conclusion from such an outcome by accident.
* Loops are structural recursion or recursion on explicit fuel. Exhausted fuel is a separate result, and either
  the theorem shows that it does not occur for the fuel supplied or (non-termination) that no fuel suffices.
* `float`/`double` are Flocq `binary32`/`binary64` (round to nearest even) where arithmetic matters. Where
  floating values are merely stored they are an arbitrary type parameter.
* Printing to `std::cerr`/`std::cout` is not modelled.

## Trusted base

* Coq's kernel (8.16.1), including `vm_compute`.
* The reading of the C++ source: the model is written by hand, and the only tie to the code is the citation on
  every definition.
* `Print Assumptions` is run under every property theorem. Theorems about integers, lists and bits are closed
  under the global context. Theorems about Flocq floats depend on the standard library's real-number axioms
  (`ClassicalDedekindReals.sig_forall_dec`, `ClassicalDedekindReals.sig_not_dec`,
  `FunctionalExtensionality.functional_extensionality_dep`, `Classical_Prop.classic`).
  No other axiom is used and none is declared. The table at the end lists them per theorem file.
* Assumed about the platform: `int` is 32 bits, two's complement, arithmetic right shift, `char` is signed
  8 bits, IEEE 754 single/double with round-to-nearest-even, no extended precision and no contraction into fused multiply-add.

## What is modelled, per property

| Property | Model | Proof |
|---|---|---|
| C01 bit fields | `readNBits`, `writeNBits`, `fillBitset`, `writeBitset` as functions on (remaining bytes, leftover bits) | The reader refines "take n bits of a bit stream"; induction over the field list |
| C02 truncation | same | Refuted by witness; the exact returned value characterised for all cuts |
| C03 strings | `writeString`, `readString` | Induction for length <= 255; witness for longer |
| C04, C05 reals | `writeFloatNBits`, `readFloatNBits` in Flocq `binary32`/`binary64` | Rounding-error analysis; finite sweep over all codes for C05 |
| C06 signed ints | `readInt`, `readUInt` on bit vectors with unchecked indexing as an outcome | Two's complement lemmas |
| C07 CRC bursts | `computeCRC` as written (shift register over a bit vector) | GF(2) linearity, polynomial multiples, odd generator |
| C08, C09 CRC packets | `writeCRC`, `readCRC`, `checkCRC` | Direct for one packet; witnesses for value 0 and for two packets |
| C10, C11 entropy coder | `ArithEnc`, `ArithDec`, counters, renormalisation | Invariant tying the coder interval and pending bits to the decoder window; induction on the symbols |
| C12, C13 SPIHT | `Spiht_Enc`, `Spiht_Dec` list machines (`SpihtModel.v`); fuel for the set pass is the number of nodes below the entries and is proved enough. `log2` is taken to be exact for powers of two | Maxima by induction on the tree levels; lock-step simulation of encoder and decoder through `serves`; bit-plane invariant on the lists (a partition of the indices) and on the partial values; bound on the number of symbols so that the counters of the coder cannot overflow (hence block lengths up to 2^22). The maxima of nodes 0 and 1 are never asked for and are not covered |
| C14, C15 block header, packing | `setBitwavmax`, `getWavmax`, `convert2bytes`, `convert2bits` | The scaled factor is exact in double arithmetic, then floor; induction |
| C16 binary file | `IOBinary`, `IOBinaryBands` writers and readers | Composition of reader lemmas on the bit stream |
| C17, C18 | same | Non-termination for every fuel; witness for wrapped counts |
| C19, C20 stream units | unit and packet framing, the reading loop, boolean results | Induction over packets under the size guard; witnesses |
| C21, C43 clocks | `writeUnits` and unit writers as a state machine on times; `readMIHSUnit` clock | Invariant over the packet list |
| C22, C23, C44 packetisation | `packetizeBand`, `createPayloadPacket`, `writeEffectBasis`, `createWaveletPayload`, `addEffectToHaptic` | Induction over windows for non-overlapping effects; witnesses for overlap, references, wavelets |
| C24 | `sortPacket` | Insertion-sort invariants, stability |
| C25 | `getEffectsId`, `getNextEffectId` | Induction over assignments |
| C26 | `linearizeTimeline` | Induction on nested effects |
| C27, C28 | stream metadata and library packets | Composition of bit-vector reader lemmas |
| C29, C30, C37, C45 | `checkHapticComponent`, metadata readers, `replacePerceptionMetadataAt`, `searchChannelInHaptic` | Witness, plus the true half |
| C31, C32, C33, C47 | `Band`, `Channel`, `Perception`, `Effect` containers | Induction over operation sequences |
| C34, C69 | `Channel::Evaluate`, `EvaluateChannel`, `Band::Evaluate`, `EvaluationBand` and the evaluation of effects, with `sin`, `pow` and three curve types as parameters | Floating-point comparisons; induction over the bands; witnesses |
| C35 | `EvaluateTransient` iterator loop | Non-termination for every fuel; termination otherwise |
| C67, C68, C70, C76 | `EvaluationBand` for curve bands, `linearInterpolation2`, `cubicInterpolation2` | Number of values of the interpolation, by induction over the points |
| C71, C73 | `EvaluationBand`, `Evaluate` | Case analysis |
| C72 | `EvaluateWavelet` and the position of each sample | Relative rounding errors of the four operations (Flocq) |
| C74 | `getTimeLength` | Maximum over all parts; witness |
| C75 | `findBandAvailable`, `isOverlapping` | Exactness of the float operations; induction over bands and effects |
| C36 | `refactorEffects`, `linearizeLibrary` | Invariant over the scan |
| C38 | `OHMData` | Reader/writer composition; witness for sign extension |
| C62, C63, C64 | `writeBandHeader`, `readBandHeader`, `readBandBody` | Exact arithmetic of the block length code; corollaries of C16 |
| C65, C66 | `IOBinary::loadFile` on arbitrary bytes | Witness family; every step of the readers consumes bits |
| C60 | `OHMData::loadFile` on a non-empty object | Same composition, other start |
| C39, C61 | `InputParser`, `isNumber` | Induction on the arguments |
| C40 | `WavParser` quantisation and interleaving | Flocq / list induction |
| C41 | `isPowerOfTwo` | Bitwise reasoning |
| C42, C77–C79 | `IOJson::semanticConformanceCheck*`, `URICheck`, `dateCheck`, `versionCheck` with a matcher for the fragment of regular expressions used | Checker equivalent to a specification, level by level; regular expressions by induction on the text; the norm of directions by error analysis |
| C80–C84 | `IOJson::loadFile`, `writeFile` and all their parts on JSON trees, base 64, the tables of names | Per object: what is written is finite and is read as the object with what is not kept left out; lists by induction; base 64 in groups of six bits; decoder insensitive to zeros at the end by a relation between decoder states; refutations universal over the class |
| C46 | `PcmEncoder::localExtrema`, `convertToCurveBand`, with binary64 positions | Induction over the signal; the keyframes are characterised exactly by the last salient sample of each tick; rounding of positions proved with Flocq; witnesses for the lost first sample and the lost small peak |
| C48 | `linearInterpolation` | Flocq / exact reals |
| C49 | `refactorEffects` | Invariant over the scan |
| C50, C51, C52 | `writeSpatialData`, `writeData`, `packetizeBand` | Witnesses; termination measure: the last keyframe time |
| C53 | `readFile`, `checkCRC` | Witness: the state left by an accepted checksum |
| C57 | The whole of `writeFile` and `readFile` of IOStream on experiences that can be streamed (`TripSpec.v`) | Initialization packets stage by stage: what the reader has after each; data packets: one lane per band, the packets of a band are the filtered list and carry its windows; invariant over units: every lane is found and holds what its past windows contain; at the end the remaining windows are empty; the experience is put together index by index |
| C85, C86 | All of `readFile` of IOStream on arbitrary bytes | Every reader either fails or ends at an index that is not smaller; each level of nesting takes at least 16 bits, each packet 24, each unit 9 bytes; refutations for whole classes of files given by the fields of their first unit |
| C87–C93 | All of `IvsEncoder` on the attributes of the XML document (`IvsModel.v`): conversion of effects, the tree of repetitions, linearisation, bands | Invariants of the tree: without nesting it is a list of leaves, and effects pushed in time order stay sorted; linearisation by induction over the leaves; Flocq error analysis for ticks and frequencies; keyframes by induction; refutations universal over the class |
| C94–C103 | All of `AhapEncoder` on the members of the JSON document (`AhapModel.v`): control points, transients, modulation of continuous events, bands | Flocq error analysis for ticks, amplitudes, interpolation and frequencies (`AhapFloat.v`); loop invariant of the modulation (keyframes in strict time order, bounded, all points so far placed); bands as in C75/C92; refutations universal over the class except C100 and the first of C103 (witnesses) |
| C104–C113 | The wavelet transform, `WaveletEncoder` and `WaveletDecoder` (`WaveletModel.v`); the psychohaptic model, `log10` and `pow(x, 2)` are arbitrary functions; `(int)log2(bl / 4)` is the integer logarithm | Perfect reconstruction from the real filter identities plus Flocq rounding bounds (`WaveletFilter.v`, `WaveletInverse.v`); loop invariants of the bit allocation; exactness of the quantiser on the grid of scale factors; SPIHT round trip (C12) for the integers; block lengths `2^x * 5^y` are scaled exactly by powers of two; refutations universal over signals |
| C114–C122 | `PcmEncoder::encode` on the samples that the WAV library reads, its settings and their choice in `main` (`PcmModel.v`); synthesis as in `SynthModel.v`; the low-pass filter, the interpolations and `pow` are arbitrary functions (with exact small powers for C121) | Flocq analysis of sample positions relative to a block: at most one sample late, exact at block borders (`PcmPlay.v`, `PcmBand.v`); composition with C113 and limits of the sums (`PcmEnd.v`); error of the polynomial in binary64 (`PcmConfig.v`); refutations universal over the class |
| C123–C129 | `PsychohapticModel` from the absolute values of the spectrum on (`PeakModel.v`): search for peaks, masks, thresholds, bands; `log10`, `pow`, `1 / sqrt` and the curve of the perceptual threshold are arbitrary functions; the static variable is part of the state | a peak between any two bins of a different side of a level (`PeakProof.v`) makes the code's bounds by higher peaks equal to the topographic ones; error analysis of the mask in binary64 (`MaskFloat.v`) and of the added frequencies (`PeakMask.v`); induction over bands (`PeakBand.v`); refutations universal over the class |
| C130–C141 | `main` of the three programs, `Helper::playFile`, the exchange of metadata with OHM files and `convertToModality` (`MainModel.v`); file system, component encoders, loaders, `std::stod`, path concatenation and synthesis are a record of arbitrary functions; `std::stoi` and `std::to_string` are modelled; writing a file is its name and the experience handed to the writer; what is printed is left out | option lookup against positions in the argument list, `stoi` against an independent grammar of numerals (`MainProof.v`); induction over the elements of an OHM file with the perceptions already replaced (`MainOhm.v`); error analysis of the number of samples (`MainSynth.v`); position of every sample in the audio, metadata against the channels, composition with the encoder of audio files (`MainAudio.v`) |
| C142–C146 | `akimaInterpolation`, `bezierInterpolation`, `bsplineInterpolation` (`InterpModel.v`) as used by the evaluation of curve bands (`SynthModel.v`, where they are parameters); `std::pow` is any function that squares faithfully (and, for Akima's slopes, gives at most 2^-26 for 10^-8) | Flocq analysis with bounds on every intermediate value (`AkimaProof.v`, `BezierProof.v`); error of the parameter and of the value against the curve in the reals (`BezierCurve.v`); error of the Akima coefficients and samples against Hermite cubics (`AkimaCurve.v`); the slopes as weighted means, where the weights are multiples of 2^-300 and cannot underflow (`AkimaSlope.v`); division by a zero distance gives NaN (`AkimaNan.v`); the weights of the B-spline are between 0 and 1 in binary64 and the parameter grows in every step, so the loop ends (`BsplineProof.v`); witness by computation for C146 |
| C55, C56 | `loadFile`, `readMIHSUnit` | Induction over units; witness |
| C58, C59 | `createPayloadPacket`, `writeMIHSPacketHeader` | Witness; arithmetic on sizes |
| C54 | the two semantic tables | Sweep over the 78 entries, lifted to all texts and codes |

## Not modelled

JSON text syntax: a JSON file stands for its tree (rapidjson is trusted to write a tree and read the same tree; its
default parser may be off by a few units in the last place of a `double`, which the conversion to `float` absorbs) and the
JSON schema, which is a parameter of the statements; WAV container parsing (AudioFile), XML parsing of IVS files (pugixml), the IIR filter
bank (external library), the FFT and the curve of the perceptual threshold in the psychohaptic model (its result is a
parameter), the text the programs print, and memory allocation failure.

## Axioms per theorem file

| File | `Print Assumptions` |
|---|---|
| `BitsProps.v`, `CrcProps.v`, `TypesProps.v` | closed under the global context |
| `DataProps.v` | C26, C24, C22_partition: closed under the global context; the rest (statements about the float fields of packets): the four axioms of `FloatProps.v` |
| `UnitProps.v` | C43_silent, C43_stream, C55: closed under the global context; the rest (decoding of packets with float fields): the four axioms of `FloatProps.v` |
| `StreamProps.v` | C29, C44, C59: closed under the global context; the rest: the four axioms of `FloatProps.v` |
| `MetaProps.v` | C54, C28_band and C28_experience: closed under the global context; C27 and the rest of C28: the four axioms of `FloatProps.v` |
| `ToolsProps.v` | C38, C39, C41, C60, C61: closed under the global context; C40 and C48: the four axioms of `FloatProps.v` (C48_line: two of them) |
| `ArithProps.v` | C15: closed under the global context; C10 and C11 (the interval is split in double arithmetic): the four axioms of `FloatProps.v` |
| `SpihtProps.v` | C13: closed under the global context; C12 and C14 (arithmetic coder, scale factor): the four axioms of `FloatProps.v`; C14_exact: the axioms of the reals |
| `BinaryProps.v` | all (float fields, and `log2` and `pow` for the block length): the four axioms of `FloatProps.v` or a subset |
| `SynthProps.v` | all (float values): the four axioms of `FloatProps.v` or a subset |
| `CurveProps.v` | all (float values): the four axioms of `FloatProps.v` |
| `ConformProps.v` | `C78_*`: none; others (the check of directions): the four axioms of `FloatProps.v` |
| `JsonProps.v` | C81_settles: closed under the global context; the rest (numbers, the check of directions, the arithmetic coder): the four axioms of `FloatProps.v` or a subset |
| `TripProps.v` | C57_round_trip: the four axioms of `FloatProps.v` |
| `FinishProps.v` | all: the four axioms of `FloatProps.v` |
| `IvsProps.v` | all: the four axioms of `FloatProps.v` or a subset |
| `AhapProps.v` | all: the four axioms of `FloatProps.v` or a subset |
| `PcmProps.v` | C122_ignored: closed under the global context; the rest: the four axioms of `FloatProps.v` or a subset |
| `PeakProps.v` | C127_partition, C128_thresholds: closed under the global context; the rest: the four axioms of `FloatProps.v` or a subset |
| `InterpProps.v` | all (float values): the four axioms of `FloatProps.v` |
| `MainProps.v` | C134_version_refuted, C135_*, C139_*: closed under the global context; the rest: the four axioms of `FloatProps.v` |
| `WaveletProps.v` | C104: closed or a subset; the rest: the four axioms of `FloatProps.v` or a subset |
| `FloatProps.v` | `ClassicalDedekindReals.sig_forall_dec`, `ClassicalDedekindReals.sig_not_dec`, `FunctionalExtensionality.functional_extensionality_dep`, `Classical_Prop.classic` (`C04_nan_refuted`, `C04_infinities` and others list a subset) |
