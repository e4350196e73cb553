# Machine-checked model of jxl-go

Target: the Go JPEG XL decoder in `/repo` (read as text, never built or run).
Tool: Rocq/Coq 8.16.1, standard library only.

## Trusted base

* Coq's kernel (`coqc`, cross-checked with `coqchk`).
* `Print Assumptions` is issued next to every property theorem. Unless a line
  below says otherwise the answer is "Closed under the global context". Any
  standard-library axiom used is listed in the section *Axioms* below.
* The faithfulness of the Gallina transcription. Every definition of a
  `Model*` file cites the Go file and lines it transcribes and states each
  simplification.
* The Go semantics encoded in `GoBase.v`: fixed-width wrap-around integers,
  slices as lists with explicit bounds, errors as values, panics as a
  distinct outcome.

## Conventions

* `Outcome A = Ok a | Err | Panic`. A Go run-time panic (index out of range,
  negative make, explicit `panic`) is `Panic`, a returned error is `Err`.
* Integers are `Z`; `u8/u16/u32/u64/i32/i64` are explicit wrap functions and
  are applied wherever the Go type can wrap and the property depends on it.
* Byte streams are `bytes.Reader` values: list of bytes plus position.
* `Model*.v` contains only the transcription, `Spec*.v` the independent
  specification, `Proof*.v` lemmas, `Prop*.v` only the property theorems with
  their `Print Assumptions` and non-vacuity `Example`s.
* A property that is false of the code is kept in full in `properties.jsonl`;
  the `Prop*` file has `..._refuted` (a witness evaluated in the model) and,
  where useful, `..._partial` for the domain on which it does hold.

## Plan per property

| id | model | proof idea |
|----|-------|-----------|
| C01 C02 C03 C04 | `jxlio/bitreader.go` function by function | abstraction of the reader state to the list of remaining bits; every operation is a refinement of take/drop on that list |
| C05 | `testcommon/bitwriter.go` | invariant: emitted bits = concatenation of written fields; compose with C01 |
| C06 C07 C08 C09 | same reader, `UnpackSigned`, `ReadF16` | round trip with small specification encoders; F16 as exact rational (mantissa, exponent) |
| C10 C11 C12 | `core/read_jxl_boxes.go` | fuel-free bound via decreasing remaining bytes; witness for size-0 boxes |
| C13 C14 | `bundle/image_header.go` size header | arithmetic with explicit uint32 wrap; witnesses |
| C15 | `transposeBuffer`, oriented dimensions | pointwise specification with the EXIF table |
| C16 | `readPermutation` | the tree maintains counts of unused indices; result = Lehmer decode |
| C17 | `ReadTOC`, `getBitreader` | witness with a permuted table; partial for unpermuted ones |
| C18 | `HybridIntegerConfig`, `ReadHybridInteger` | round trip with the specification encoder |
| C19 | `VLCTable` | canonical code specification; completeness by counting |
| C20 C21 | `ANSSymbolDistribution` | loop invariant of the alias construction (mass conservation); encoder/decoder step inverse |
| C22 | LZ77 part of `EntropyStream` | refinement of the ring buffer to the full output history |
| C23 C24 | `ReadClusterMap` | induction over the map |
| C25 C26 | `MATree.go` | well-formedness invariant of the breadth-first construction |
| C27 C28 | squeeze and RCT of `ModularStream.go` | inversion by induction along the row; ring arithmetic modulo 2^32 |
| C29 C30 | `ModularChannel.go` | bounds of neighbour accesses; bounds of the weight sum |
| C31 | group geometry of `Frame.go` | div/mod arithmetic |
| C32 C33 C34 | worker loops of `Frame.go` | interleaving semantics, invariant over all schedules |
| C35 | `buffer_pool.go` | explicit heap with aliasing; witness history |
| C36 | ICC part of `image_header.go` | case analysis; counting |
| C37 C38 | `MathsHelper.go` | div/mod arithmetic, bit arithmetic |
| C39 C40 | `sliceutil.go`, `misc.go`, `deque.go` | list induction; backing array made explicit |
| C41 C42 C43 | HF metadata, pass order, contexts | packing invariant; strict total order; interval arithmetic |
| C44 | colour bundle | case analysis of the parser |
| C45 C46 C47 C48 C49 | image, options, writers | list induction; witnesses |
| C50 | `blendFrame` coordinates | interval arithmetic; witnesses |
| C51 C52 | containers, `decode` | boxes as a grammar; witnesses |
| C53 C54 | image header | a grammar of bit fields (`SpecGrammar.v`: sequences, choices, repetitions with their bit encodings); the parser accepts exactly the encodings and stops behind them |
| C55 | `GetUpWeights` | index arithmetic over the symmetric table |
| C56 | ICC decoding | encoder in the specification, induction over the tags |
| C57 | palette transform | pointwise specification of palette values |
| C58 | reading of decision trees | the reader of symbols is a parameter; witness |
| C59 C60 | several passes, coefficient positions | witness; scan orders as permutations |
| C61 C62 | modular samples to image | pointwise; witness |
| C63 C64 | `FrameHeader.go` | same grammar; geometry by div/mod arithmetic |
| C65 C66 | descriptions of ANS and prefix codes | grammar of `SpecDist.v`; canonical codes |
| C67 | section and stream numbers | counting |
| C68 | `InverseDCT2D`, `ForwardDCT2D` | real arithmetic: orthogonality of the cosine basis from trigonometric sums |
| C69 C70 | `invertVarDCT`, `invertAFV` | encoder in the specification; loops as block replacements; the Gram matrix of the AFV basis in integers |
| C71 | header of `ModularStream.go`, `WPParams.go` | same grammar, with the squeeze fields as a parameter (dialect of the standard, dialect of the code) |
| C72 C73 | channel bookkeeping and `applyTransforms` of `ModularStream.go` | an encoder as a relation on lists of planes; induction over the transforms with C27, C28 and C57 for the steps |
| C74 C75 | `colour_management.go`, `CIEXY.go`, `OpsinInverseMatrix.go`, matrices of `MathsHelper.go` | matrices as functions of indices; a colour space is any matrix with the given primaries and white; XYB is a relation with existential cube roots |
| C76 | `transfer_function.go` | round trips over the reals, with interval arguments for the decimal constants |
| C77 | `LFGlobal.go`, `HFBlockContext.go`, `LFChannelCorrelation.go` | same grammar, the cluster map reader and the decoding of thresholds as parameters |
| C78 | `lfcoefficients.go` | pointwise over the reals; loops over matrices as block replacements (`GoMatrixR.v`) |
| C79 | `HFGlobal.go` weights | closed forms over the reals; layouts of 8x8 tables computed on matrices with abstract entries |
| C80 | `HFGlobal.go` parameters | grammar exactness like C77; raw tables and the weight check are arguments |
| C81 | `HFCoefficients.go` dequantisation, chroma from luma | blocks replaced one after another in disjoint rectangles; the store of tile factors as the set of corners seen |
| C82 | `HFCoefficients.go` LLF, `transformtype.go` scales | half-angle identities of the basis; table checked by integer interval arithmetic |
| C83 | `EntropyStream.go` headers, `HybridIntegerConfig.go` | completeness and soundness of readers up to a relation between grammar values and streams, composed over binds; the cluster map reader as a parameter |
| C84 C85 | `performGabConvolution`, `performEdgePreservingFilter` of `Frame.go` | tables of pixels; neighbours as a mirrored infinite image; sums over lists of places up to permutation |
| C86 C87 | `performUpsampling`, `GetUpWeights`, `invertSubsampling` | the index of a weight by evaluation over its whole finite domain; concatenated tables by div/mod; telescoping sums for the mean |
| C88 C89 | `ToImage`, `ChannelToImage`, `transform`, `transferImage`, `transferInPlace`, `getBuffer` | bytes of a pixel by division of the index; rounding errors of float32 bounded step by step |
| C90 C91 | the frame loop and box loop of `decode`, `blendFrame`, `blendAlpha`, the buffer conversions, `performColourTransforms` (which matrices it is applied to), `ImageBufferSliceEquals` | slices as positions in a memory; simulation of the loop by an inductive by-value relation |
| C92 | `ModularChannel.decode` with `prePredictWP`, `getWalkerFunc`, `prediction` and the error history | over unbounded integers: the predictor, properties and samples of the format as functions of the whole plane; loop invariant "the buffers hold the planes before the pixel" |
| C93 | `XorShiro.go` | words as vectors of bits, the generator of the standard as a relation between states; invariant "the batch holds the numbers of the current round"; splitmix and the step invertible bit by bit |
| C94 | `NewNoiseGroupWithHeader` | sample by sample: last write wins, so a sample keeps the first number of its own run; float32 by its bits |
| C95 | `generateAliasMapping` | as in C20; the order of the two stacks is now part of the specification |
| C96 | `ReadSymbolWithMultiplier` and below | as in C19 to C22 and C83; the grammar of sequences is a specification of its own |
| C97 | `NewMATreeWithReader` | as in C23 and C96; the symbols of a tree are a specification of their own |
| C98 | Whole modular streams, `NewModularStreamWithChannels` to `decodeChannels` | the parts put together: header C71, layout C72, tree C97, symbols C96, samples C92, inverse transforms C73 |
| C99 | Modular frames, `DecodeFrame` to `decodePassGroupsConcurrent` without XYB, `NewLFGlobalWithReader`, `NewPassWithReader`, `NewPassGroupWithReader` | C98 for each section, tiles and places of groups, passes by scale, copies into the channels, C73 and C61 at the end |
| C100 | `decode` from the bytes on, `ReadFrameHeader`, `DecodeFrame` for plain modular frames | C54, C57, C17, C99 and C90 joined at byte positions, C51 for containers; existence by building the bytes |
| C101 | HF coefficients of a group, `NewHFCoefficientsWithReader` | Symbols from C96; counts, contexts and places per block and channel by induction over the blocks, with the positions done so far |
| C102 | Scan orders and code of a pass, `NewHFPassWithReader` | Symbols from C96, permutations from C16, natural orders unique by C42; induction over the orders |
| C103 | LF groups of VarDCT frames, `NewLFGroupWithReader` | Streams from C98, samples from C78, packing from C41; contexts by a loop invariant |
| C104 | Table of transform types and the switch of `invertVarDCT` | Case analysis over the 27 types |
| C105 | VarDCT groups from bits to samples, `invertVarDCT`, all groups of a frame | Induction over blocks and groups: each block replaces only its own samples; chain of C101, C81, C82, C69, C70, C104 |
| C106 | VarDCT frames of one pass from sections to samples: `DecodeFrame`, `decodeLFGroups`, `decodePassGroupsConcurrent`, `LFGlobal` with coded maps of block contexts | Chain of C77, C83, C97, C103, C80, C102, C101 and C105 over the sections, which share one reader or have their own; the geometry of C31 |
| C107 | Layouts of blocks in VarDCT frames | Packings of C42 give disjoint blocks in row order; the geometry of C31 places them in groups, LF groups and the frame; with C106 the samples follow |
| C108 | ICC profiles with tags and data commands (`GetDecodedICC`) | Invariant of the loops over tags and commands: the profile so far, then zeros |
| C109 | entry points of the image package (`Decode`, `DecodeConfig` of reader.go) | Chain of C54, C100 and C88 |
| C110 | PNG conversion (tools/jxltopng, `WritePNG` with its transform) | Chain of C100, C108, C47 and C109 |
| C111 | Reading of bytes (`jxlio/IOHelper.go`) | Induction over reads of arbitrary sizes |
| C112 | Helpers of `util` (extremes, `RangeIterator`, comparisons, filling) | Inductions over lists and rows |
| C113 | Access to channels (core/jxl_image.go:112-176) | Lists of channels; on top of the model of `ToImage` (C88) |
| C114 | Comparisons (`frame/dctparams.go`, `OpsinInverseMatrix.Matches`, `ImageBufferSliceEquals`) | Inductions over rows; floats as NaN or a number |
| C115 | Two-dimensional pool and metrics (`util/buffer_pool.go`) | Simulation in the model of C35 |

## Axioms

* C01 to C67, C71 to C73, C80, C83, C88 to C102, the tables of C104, the global part of C106, C108 to C115: none ("Closed under the global context").
* C68 to C70, C74 to C76, the scales of C77, C78, C79, C81, C82, C84 to C87, C103, the methods of C104, C105, the frames of C106, and C107 are about real numbers and use the standard library's `Reals`.
  `Print Assumptions` lists `ClassicalDedekindReals.sig_forall_dec`,
  `ClassicalDedekindReals.sig_not_dec` and
  `FunctionalExtensionality.functional_extensionality_dep`, and for theorems
  with powers or logarithms (C75, C76, C79) also `Classical_Prop.classic`.
* No axiom is added by this development.

## What is not modelled

Floating-point rounding (DCT, colour conversion, filters) except where a
property is about exact values: the transforms of C68 to C70,
the colour conversions of C74 to C76, the LF image of C78, the weights of C79,
the coefficients of C81 and C82, the filters of C84 to C87, the LF samples of
C103 and the samples of C105 work on exact real numbers. `BitReaderRecorder` is treated as the reader it wraps; logging; the exact memory cost; the Go
scheduler beyond interleaving of atomic steps. Of the standard library, the
choice of the decoder in `image/format.go` is described in `ModelReader.v` from
its documentation (C109).

Code that only tests and tools call has no model: `frame/fakes.go`,
`testcommon`, `examples`, `benchtesting` and `tools/memchecker`.
The choice of a pool by the type of its samples (`MakeMatrix2DPooled` and the
like in `util/buffer_pool.go`) has no model.
