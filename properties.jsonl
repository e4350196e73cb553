{"id": "C01", "title": "Reading n bits returns exactly the next n bits of the stream, least significant first", "statement": "For a reader positioned anywhere in a byte stream, asking for n bits (0<=n<=64) returns the unsigned integer whose bit i is the i-th not yet consumed bit of the stream (each byte consumed from its least significant bit), moves the read position by exactly n bits and adds n to the reported bit count; it reports an error exactly when fewer than n bits are left (or n>64), and n>64 leaves the reader unchanged.", "quantifier": "every byte stream, every read position inside it, every requested width 0..2^32-1", "why_tests_cant": "The fast path mixes a partially consumed byte, whole bytes and a tail; a unit test only samples a few alignments and widths, never all 8*65 combinations on all contents.", "anchors": ["jxlio/bitreader.go:ReadBits", "jxlio/bitreader.go:readBit", "jxlio/bitreader.go:ReadBool"]}
{"id": "C02", "title": "How a field is split over several reads does not matter", "statement": "Reading a bits and then b bits (a+b<=64) yields the low a and the high b bits of what one read of a+b bits yields, and ends in the same position with the same reported bit count; single-bit reads agree with one-bit reads of the general reader.", "quantifier": "every byte stream, every position, every a,b with a+b<=64", "why_tests_cant": "A law relating all pairs of call sequences; tests compare single fixed sequences.", "anchors": ["jxlio/bitreader.go:ReadBits", "jxlio/bitreader.go:readBit"]}
{"id": "C03", "title": "Peeking is invisible", "statement": "A successful peek of n bits returns what a read of n bits would return and leaves every later operation of the reader with the same results as if the peek had not happened; the end-of-stream query never changes what later reads return and answers true exactly when no bit is left.", "quantifier": "every byte stream, every position, every n<=64, every later sequence of reads", "why_tests_cant": "Invisibility is a statement about all continuations after the call.", "anchors": ["jxlio/bitreader.go:ShowBits", "jxlio/bitreader.go:AtEnd"]}
{"id": "C04", "title": "Skipping bits is the same as reading and discarding them", "statement": "Skipping n bits that are available leaves the reader at the position a read of the same n bits would leave it, so every later read returns the same values; skipping k whole bytes skips exactly 8k bits for every k the API accepts.", "quantifier": "every byte stream, every position, every n<2^32, every byte count<2^32", "why_tests_cant": "Requires all alignments and the whole uint32 range of byte counts (8k must not wrap).", "anchors": ["jxlio/bitreader.go:SkipBits", "jxlio/bitreader.go:Skip"]}
{"id": "C05", "title": "Whatever the bit writer wrote, the bit reader reads back", "statement": "For every sequence of fixed-width fields and U8 values written with the repository's bit writer, reading the resulting bytes with the same sequence of widths returns the same sequence of values.", "quantifier": "every finite history of writes (any widths 0..64, any values that fit, any U8 values 0..255)", "why_tests_cant": "Ranges over unbounded histories of writes with arbitrary alignment.", "anchors": ["testcommon/bitwriter.go:WriteBit", "testcommon/bitwriter.go:WriteBits", "testcommon/bitwriter.go:WriteU8", "testcommon/bitwriter.go:Bytes", "jxlio/bitreader.go:ReadBits", "jxlio/bitreader.go:ReadU8"]}
{"id": "C06", "title": "Variable-length header integers decode to the encoded value", "statement": "U32 with any of its four distributions returns offset plus field modulo 2^32; U64 can represent every value below 2^64 and decodes each of its encodings to that value, consuming exactly the encoding; U8 covers exactly 0..255; enums above 63 are rejected and all others returned.", "quantifier": "every uint32 offset/width table, every uint64 value, every byte value, every following stream content", "why_tests_cant": "The domain (2^64 values times any continuation) cannot be enumerated.", "anchors": ["jxlio/bitreader.go:ReadU32", "jxlio/bitreader.go:ReadU64", "jxlio/bitreader.go:ReadU8", "jxlio/bitreader.go:ReadEnum"]}
{"id": "C07", "title": "ICC varints decode to the value they encode", "statement": "Every value that fits the decoder's result type, written in little-endian base 128, is read back unchanged and exactly its bytes are consumed; values of 2^31 or more are not silently altered.", "quantifier": "every value, every following stream content", "why_tests_cant": "Overflow behaviour shows up only outside any sampled range.", "anchors": ["jxlio/bitreader.go:ReadICCVarint"]}
{"id": "C08", "title": "Zig-zag unpacking is the inverse of zig-zag packing", "statement": "Unpacking turns u into u/2 for even u and -(u+1)/2 for odd u for every unsigned value, hence is a bijection between unsigned and signed values (32 and 64 bit versions).", "quantifier": "every uint32 value, every uint64 value", "why_tests_cant": "Sampled values below 2^31 all pass; the failure is confined to the upper half of the range.", "anchors": ["jxlio/bitreader.go:UnpackSigned", "jxlio/bitreader.go:UnpackSigned64"]}
{"id": "C09", "title": "Half-precision floats are decoded exactly", "statement": "Every finite 16-bit float pattern is returned as the single-precision number of exactly the same value (sign, subnormals and zeros included) and every infinity/NaN pattern is rejected.", "quantifier": "all 65536 patterns, any stream position and continuation", "why_tests_cant": "Tests check a handful of patterns; the statement is about the exact real value of each.", "anchors": ["jxlio/bitreader.go:ReadF16"]}
{"id": "C10", "title": "Box walking always terminates and never leaves the input", "statement": "Scanning the container terminates for every input, consumes at least eight bytes per box, and every codestream location it reports starts inside the input with a positive size that was declared by a codestream box header; the reported level is 5 or 10.", "quantifier": "every byte string given as a container", "why_tests_cant": "Termination and location safety over arbitrary hostile inputs.", "anchors": ["core/read_jxl_boxes.go:ReadBoxHeader", "core/read_jxl_boxes.go:readAllBoxes"]}
{"id": "C11", "title": "A bare codestream and a container are told apart for every input", "statement": "An input is treated as a bare codestream exactly when it starts with FF 0A, as a container exactly when its first 12 bytes are the JPEG XL signature box, and is rejected otherwise; inputs shorter than 12 bytes are rejected with an error.", "quantifier": "every byte string", "why_tests_cant": "The classification must be total over all prefixes.", "anchors": ["core/read_jxl_boxes.go:ReadBoxHeader"]}
{"id": "C12", "title": "A box that extends to the end of the file is honoured", "statement": "A codestream box with size field 0 is reported as a codestream extending to the end of the input.", "quantifier": "every container whose last box is a codestream box of size 0", "why_tests_cant": "Existing samples carry explicit sizes.", "anchors": ["core/read_jxl_boxes.go:readAllBoxes"]}
{"id": "C13", "title": "Accepted image sizes respect the declared level limits", "statement": "Whenever a size header is accepted for level 5 the width and height are each at most 2^18 and the number of pixels is at most 2^28; at level 10 at most 2^30 each and 2^40 pixels.", "quantifier": "every bit pattern of a size header, both levels", "why_tests_cant": "The pixel-count check wraps in 32 bits, visible only for extreme sizes.", "anchors": ["bundle/image_header.go:readSizeHeader", "bundle/image_header.go:getWidthFromRatio"]}
{"id": "C14", "title": "Ratio-coded widths are the exact floor of height times the ratio", "statement": "For each of the seven ratios the width derived from the height equals floor(height*num/den).", "quantifier": "every ratio 1..7 and every height the header can encode (1..2^30)", "why_tests_cant": "32-bit overflow occurs only for heights above 2^32/num.", "anchors": ["bundle/image_header.go:getWidthFromRatio"]}
{"id": "C15", "title": "Orientation is applied as the declared symmetry", "statement": "Applying EXIF orientation k to a channel yields a channel whose dimensions are the declared oriented dimensions and whose pixel (x',y') is the source pixel prescribed by the EXIF table; no pixel is lost or duplicated, and orientations k and their inverse undo each other.", "quantifier": "every channel size, every content, each orientation 1..8", "why_tests_cant": "Bijectivity over all sizes and contents.", "anchors": ["core/jxl_codestream_decoder.go:transposeBuffer", "bundle/image_header.go:OrientedWidth", "bundle/image_header.go:OrientedHeight"]}
{"id": "C16", "title": "Decoded permutations are permutations", "statement": "Every permutation that is read successfully lists each index 0..size-1 exactly once, keeps the skipped prefix in place, and is the one whose Lehmer code was transmitted, so every permutation can be transmitted.", "quantifier": "every size, every skip, every transmitted Lehmer code", "why_tests_cant": "Factorially many permutations; the implementation uses a Fenwick-like tree.", "anchors": ["frame/Frame.go:readPermutation"]}
{"id": "C17", "title": "Sections of a frame are found where the table of contents says", "statement": "The byte range used for logical section i of a frame is the range the table of contents declares for it, including when the table is permuted.", "quantifier": "every table of contents, permuted or not", "why_tests_cant": "Permuted tables occur only in progressive files.", "anchors": ["frame/Frame.go:ReadTOC", "frame/Frame.go:getBitreader", "frame/Frame.go:readPermutation"]}
{"id": "C18", "title": "Hybrid integers decode to the encoded value", "statement": "For every hybrid configuration that can be read, the token/extra-bits encoding of any value below 2^32 decodes to that value and consumes exactly the extra bits; tokens asking for more than 32 extra bits are rejected.", "quantifier": "every configuration (split, msb, lsb), every uint32 value, every continuation of the stream", "why_tests_cant": "The space is configurations times 2^32 values.", "anchors": ["entropy/HybridIntegerConfig.go:NewHybridIntegerConfigWithReader", "entropy/EntropyStream.go:ReadHybridInteger"]}
{"id": "C19", "title": "Prefix-code tables decode the canonical prefix code", "statement": "For every list of code lengths that is accepted, looking up the next bits of the stream yields the symbol whose canonical codeword is a prefix of the stream and consumes exactly that codeword; length lists that are not a complete prefix code are rejected.", "quantifier": "every alphabet, every list of lengths, every stream content", "why_tests_cant": "All length assignments times all streams.", "anchors": ["entropy/VLCTable.go:NewVLCTable", "entropy/VLCTable.go:GetVLC"]}
{"id": "C20", "title": "The ANS alias table is a bijection onto the symbol slots", "statement": "For every frequency table summing to 4096 the alias table sends the 4096 slots one-to-one onto pairs (symbol, offset) with offset below that symbol's frequency, so each symbol is drawn for exactly its frequency many slots; construction terminates.", "quantifier": "every alphabet size and frequency table", "why_tests_cant": "All compositions of 4096.", "anchors": ["entropy/ANSSymbolDistribution.go:generateAliasMapping", "entropy/ANSSymbolDistribution.go:ReadSymbol"]}
{"id": "C21", "title": "ANS decoding inverts ANS encoding", "statement": "For every frequency table and every message, decoding the stream an rANS encoder produces returns the message, restores the initial state and consumes exactly the produced words; the decoder state always fits 32 bits.", "quantifier": "every frequency table, every finite message, every initial state", "why_tests_cant": "Unbounded messages.", "anchors": ["entropy/ANSSymbolDistribution.go:ReadSymbol", "entropy/ANSState.go", "entropy/EntropyStream.go:ValidateFinalState"]}
{"id": "C22", "title": "LZ77 copies reproduce the decoded history", "statement": "With LZ77 enabled a copy of given length and distance returns exactly the values decoded `distance` positions earlier, including overlapping copies and copies after more than 2^20 symbols, with the distance limited to what has been decoded and to 2^20.", "quantifier": "every history of literals and copies of any length", "why_tests_cant": "The window wraps only after more than a million symbols.", "anchors": ["entropy/EntropyStream.go:ReadSymbolWithMultiplier"]}
{"id": "C23", "title": "Cluster maps stay in range", "statement": "Every successfully read cluster map assigns each context a cluster number below the reported number of clusters, which is at most the allowed maximum.", "quantifier": "every stream content, every number of contexts", "why_tests_cant": "Arbitrary hostile maps.", "anchors": ["entropy/EntropyStream.go:ReadClusterMap"]}
{"id": "C24", "title": "Inverse move-to-front inverts move-to-front", "statement": "Inverting move-to-front on the transmitted indices returns the original list for every list of byte-sized cluster numbers.", "quantifier": "every list of values 0..255 of any length", "why_tests_cant": "Unbounded lists.", "anchors": ["entropy/EntropyStream.go:ReadClusterMap"]}
{"id": "C25", "title": "Every meta-adaptive tree that is accepted can be walked safely", "statement": "For every accepted tree and every vector of properties the walk terminates at a leaf that belongs to the tree, every child index is inside the tree, the leaves carry the contexts 0,1,2,... without gap, and the number of contexts equals the number of leaves.", "quantifier": "every tree bit stream, every property vector", "why_tests_cant": "Arbitrary trees up to 2^26 nodes.", "anchors": ["frame/MATree.go:NewMATreeWithReader", "frame/MATree.go:walk"]}
{"id": "C26", "title": "Tree specialisation never changes a decision", "statement": "Pruning a tree for a fixed channel, stream and row selects, for every pixel, the same leaf as walking the full tree; the weighted predictor is skipped only for trees whose decisions cannot depend on it.", "quantifier": "every tree, every channel/stream/row, every property vector agreeing with them", "why_tests_cant": "Equivalence over all trees and pixels.", "anchors": ["frame/MATree.go:compactify", "frame/MATree.go:compactifyWithY", "frame/MATree.go:walk", "frame/MATree.go:useWeightedPredictor"]}
{"id": "C27", "title": "Inverse squeeze restores what forward squeeze split", "statement": "Un-squeezing the averages and residuals produced by the JPEG XL forward squeeze returns the original channel, horizontally and vertically, for every size including odd ones and for every value of the tendency function.", "quantifier": "every channel size and content (32-bit range with headroom)", "why_tests_cant": "Data dependent recurrence along rows of any length.", "anchors": ["frame/ModularStream.go:inverseHorizontalSqueeze", "frame/ModularStream.go:inverseVerticalSqueeze", "frame/ModularStream.go:tendancy"]}
{"id": "C28", "title": "Inverse colour transforms are exact inverses", "statement": "For each of the 42 reversible colour transforms, inverting the forward transform of any triple of 32-bit samples returns the triple, including when intermediate sums wrap.", "quantifier": "every triple of int32 samples, each transform type", "why_tests_cant": "2^96 triples.", "anchors": ["frame/ModularStream.go:applyTransforms"]}
{"id": "C29", "title": "Prediction never reads outside the decoded area", "statement": "The value predicted for any pixel depends only on pixels of the same channel that precede it in decoding order, all of which lie inside the channel, for each predictor and every channel size of at least 1x1.", "quantifier": "every channel size, every position, each predictor 0..13", "why_tests_cant": "All border configurations.", "anchors": ["frame/ModularChannel.go:prediction", "frame/ModularChannel.go:north", "frame/ModularChannel.go:west"]}
{"id": "C30", "title": "Self-correcting predictor table look-ups stay in bounds", "statement": "For every error history and weights, the index into the 64-entry division table stays inside the table and the combined weight sum is never zero, so the weighted predictor never faults.", "quantifier": "every error history, every weight header", "why_tests_cant": "Arbitrary residual sequences.", "anchors": ["frame/ModularChannel.go:prePredictWP"]}
{"id": "C31", "title": "Groups tile the frame", "statement": "Every pixel of a frame belongs to exactly one group and exactly one low-frequency group, group sizes add up to the frame, every group's low-frequency group exists, and the group's position inside it is within 8x8.", "quantifier": "every frame width and height >= 1, every group size", "why_tests_cant": "All frame sizes.", "anchors": ["frame/Frame.go:getGroupLocation", "frame/Frame.go:getGroupSize", "frame/Frame.go:getLFGroupLocation", "frame/Frame.go:getLFGroupSize", "frame/Frame.go:getLFGroupForGroup", "frame/Frame.go:groupPosInLFGroup"]}
{"id": "C32", "title": "Parallel row processing is schedule independent", "statement": "Splitting the rows of an image among workers covers every row exactly once without overlap, for any number of rows and workers, and any interleaving of the workers yields the image sequential processing yields.", "quantifier": "every row count, every worker count, every interleaving", "why_tests_cant": "Exponentially many interleavings.", "anchors": ["frame/Frame.go:performGabConvolution", "frame/Frame.go:performEdgePreservingFilter"]}
{"id": "C33", "title": "Every pass group is decoded exactly once whatever the schedule", "statement": "With any number of workers pulling from the shared queue, in every interleaving, when all workers have finished every (pass, group) pair has been handled exactly once and no worker is blocked.", "quantifier": "every number of groups, passes, workers, every interleaving", "why_tests_cant": "All schedules.", "anchors": ["frame/Frame.go:decodePassGroupsConcurrent", "frame/Frame.go:startWorker"]}
{"id": "C34", "title": "A failing section makes decoding fail", "statement": "If decoding any pass group of a frame fails, decoding the frame reports an error.", "quantifier": "every set of failing groups, every schedule", "why_tests_cant": "Fault positions times schedules.", "anchors": ["frame/Frame.go:startWorker", "frame/Frame.go:decodePassGroupsConcurrent"]}
{"id": "C35", "title": "Decoding does not depend on what was decoded before", "statement": "Matrices obtained from the shared buffer pools are zero filled, have the requested dimensions and do not alias memory that is still in use, whatever was decoded before in the process; so decoding the same file twice gives the same pixels.", "quantifier": "every history of earlier decodes", "why_tests_cant": "Histories of process-wide state.", "anchors": ["util/buffer_pool.go", "frame/Frame.go:decodePassGroupsConcurrent"]}
{"id": "C36", "title": "Header ICC contexts and byte shuffles are total", "statement": "The entropy context used for each ICC byte is within the 41 contexts the stream is created with; de-interleaving a block of ICC bytes by width 2 or 4 is a bijection of the bytes for every block length.", "quantifier": "every pair of previous bytes and position; every block length and content", "why_tests_cant": "All lengths and contents.", "anchors": ["bundle/image_header.go:GetICCContext", "bundle/image_header.go:shuffle"]}
{"id": "C37", "title": "Mirroring maps any coordinate into the image", "statement": "For any size >= 1 and any coordinate, mirrored coordinates lie inside 0..size-1, in-range coordinates are unchanged, and mirroring is symmetric about both edges and 2*size periodic.", "quantifier": "every int32 size >= 1 and every coordinate", "why_tests_cant": "All pairs.", "anchors": ["util/MathsHelper.go:MirrorCoordinate"]}
{"id": "C38", "title": "Integer helper functions compute what their names say", "statement": "CeilDiv, CeilLog2, CeilLog1p, FloorLog1p, Clamp and Clamp3 return the mathematical ceiling, logarithm and clamp for every argument of their type.", "quantifier": "every argument pair of the integer types used", "why_tests_cant": "Wrap-around at 0 and at the type limits.", "anchors": ["util/MathsHelper.go:CeilDiv", "util/MathsHelper.go:CeilLog2", "util/MathsHelper.go:CeilLog1p", "util/MathsHelper.go:FloorLog1p", "util/MathsHelper.go:Clamp3"]}
{"id": "C39", "title": "Channel lists keep their members when one is inserted", "statement": "Inserting an element into a list at any position keeps all existing elements in order and puts the new element at that position.", "quantifier": "every list, every position, every element", "why_tests_cant": "Every position in every list; aliasing of the backing array.", "anchors": ["util/sliceutil.go:AddToSlice"]}
{"id": "C40", "title": "The work queue is first-in first-out in both directions", "statement": "Any history of pushes and pops on the deque behaves like a sequence with operations at its two ends.", "quantifier": "every history of operations", "why_tests_cant": "Unbounded histories.", "anchors": ["util/deque.go"]}
{"id": "C41", "title": "High-frequency blocks never overlap", "statement": "After placing any list of transform blocks, each cell of the block grid is covered by at most one block, every reported block position lies in the grid, and blocks are placed in non-decreasing row order; a block is never placed partly outside the grid.", "quantifier": "every grid size, every list of block types", "why_tests_cant": "All packings.", "anchors": ["frame/hfmetadata.go:placeBlock", "frame/hfmetadata.go:NewHFMetadataWithReader"]}
{"id": "C42", "title": "Coefficient scan order is a permutation fixed by the block shape", "statement": "For each block shape the natural scan order lists every coefficient position exactly once, starts with the low-frequency corner, and does not depend on the sorting algorithm because the ordering has no ties.", "quantifier": "all 13 shapes, all pairs of positions, any correct sort", "why_tests_cant": "The sort used is not stable; determinism is about all algorithms.", "anchors": ["frame/HFPass.go:getNaturalOrder", "frame/HFPass.go:getNaturalOrderFunc"]}
{"id": "C43", "title": "Entropy contexts of coefficients stay within the coded set", "statement": "Every context used for block counts and coefficients is inside the number of contexts the entropy stream was created with, contexts of different presets and of counts and coefficients never collide.", "quantifier": "every block context, predicted count, coefficient position, history", "why_tests_cant": "All combinations; hostile counts.", "anchors": ["frame/HFCoefficients.go:getBlockContext", "frame/HFCoefficients.go:getNonZeroContext", "frame/HFCoefficients.go:getCoefficientContext", "frame/lfcoefficients.go:getLFIndex", "frame/HFBlockContext.go"]}
{"id": "C44", "title": "Colour-encoding headers only yield defined values", "statement": "Every accepted colour-encoding header has a colour space, white point, primaries, transfer function and rendering intent among the defined ones, with white point and primaries coordinates present; the all-default header is sRGB.", "quantifier": "every bit pattern", "why_tests_cant": "All headers.", "anchors": ["colour/colour_encoding_bundle.go", "colour/colour_flags.go"]}
{"id": "C45", "title": "Copying a decoded image yields an equal image", "statement": "The copy constructor returns an image with the same channels and samples.", "quantifier": "every image", "why_tests_cant": "All images.", "anchors": ["core/jxl_image.go:NewJXLImageFromJXLImage"]}
{"id": "C46", "title": "Decoder options given by the caller are honoured", "statement": "Options passed to the option constructor are the options in effect.", "quantifier": "every option record", "why_tests_cant": "All combinations of option values.", "anchors": ["options/jxl_options.go:NewJXLOptions"]}
{"id": "C47", "title": "PNG output is well framed", "statement": "Every chunk written has a length equal to its data, the CRC over type and data, and the pixel data has exactly the number of bytes the header announces.", "quantifier": "every image size, channel count and bit depth", "why_tests_cant": "All sizes and depths.", "anchors": ["core/png_writer.go"]}
{"id": "C48", "title": "PFM output stores rows bottom to top", "statement": "The floats in the PFM body are the image rows from last to first, each left to right, channels interleaved, height*width*channels of them.", "quantifier": "every image size and content", "why_tests_cant": "All sizes.", "anchors": ["core/pfm_writer.go"]}
{"id": "C49", "title": "Sample clamping and integer conversion are safe", "statement": "Clamping puts every sample in 0..max and leaves samples already there unchanged; converting an integer channel to float and back with the same maximum returns the same samples.", "quantifier": "every channel and maximum", "why_tests_cant": "All values.", "anchors": ["image/imagebuffer.go"]}
{"id": "C50", "title": "Blending only touches the overlap of frame and canvas", "statement": "Blending a frame placed at any offset modifies exactly the canvas pixels covered by the frame and reads only pixels inside the frame.", "quantifier": "every frame size and offset, positive or negative, every canvas size", "why_tests_cant": "All offsets.", "anchors": ["core/jxl_codestream_decoder.go:blendFrame"]}
{"id": "C51", "title": "A container reports exactly its codestream boxes", "statement": "Scanning a well-formed container returns, in file order, exactly one entry per codestream box with its type, the offset of its body and the size of its body, skips all other boxes, and reports the level given by the level box (5 if there is none). This holds for every legal box layout: 32-bit sizes, 64-bit sizes, empty boxes.", "quantifier": "every finite sequence of boxes of any kinds and sizes", "why_tests_cant": "The number, order and sizes of boxes are unbounded; files in the wild mostly have one or two boxes.", "anchors": ["core/read_jxl_boxes.go:ReadBoxHeader", "core/read_jxl_boxes.go:readAllBoxes"]}
{"id": "C52", "title": "Decoding returns an image or an error", "statement": "The decode entry never reports success without an image, for every input.", "quantifier": "every byte string", "why_tests_cant": "Depends on the position of the first codestream box relative to the end of the file.", "anchors": ["core/jxl_codestream_decoder.go:decode", "core/jxl_decoder.go:Decode"]}
{"id": "C53", "title": "Header parsing never panics and yields consistent headers", "statement": "On every input the image-header parser returns an error or a header whose level is 5 or 10, whose orientation is 1..8 with oriented dimensions swapped exactly for orientations above 4, whose bit depths lie in 1..64, whose alpha indices are exactly the positions of the alpha channels, whose extra channels are of defined kinds, whose colour encoding is defined, and whose custom upsampling tables have 15, 55 and 210 entries.", "quantifier": "every byte string, every start bit, both levels", "why_tests_cant": "The header is a deeply conditional bit grammar with unbounded extra channels and extensions; invariants must hold on hostile inputs.", "anchors": ["bundle/image_header.go:ParseImageHeader", "bundle/extra_channel_info.go", "bundle/BitDepthHeader.go", "bundle/Extensions.go"]}
{"id": "C54", "title": "The header parser accepts exactly the header grammar", "statement": "The header parser decodes every bit string of the image-header grammar to the value it denotes, consumes exactly its bits and pads to a byte, and accepts nothing else; the grammar is that of the standard.", "quantifier": "every header value and every bit string", "why_tests_cant": "The number of headers is unbounded and tests only see encoder-made ones.", "anchors": ["bundle/image_header.go:ParseImageHeader", "colour/colour_encoding_bundle.go", "colour/ToneMapping.go", "colour/OpsinInverseMatrix.go"]}
{"id": "C55", "title": "Upsampling kernels are read from the symmetric weight tables", "statement": "For 2, 4 and 8 fold upsampling, every kernel entry is taken from inside the signalled weight table, from the position of its tap pair in a symmetric matrix stored as an upper triangle, so kernels are symmetric under transposition and mirroring, and different tap pairs use different weights.", "quantifier": "every factor, subpixel and tap, every table content", "why_tests_cant": "The index arithmetic (triangular numbers, xor as minimum) is only exercised by images using upsampling; an off-by-one reads a wrong but valid weight.", "anchors": ["bundle/image_header.go:GetUpWeights"]}
{"id": "C56", "title": "ICC reconstruction inverts the ICC encoding", "statement": "For every colour profile, decoding an encoding of it (size, commands, predicted header residuals, tag count, raw data) returns exactly the profile's bytes.", "quantifier": "every profile content and length, every minimal or padded varint encoding of the counts", "why_tests_cant": "All profiles; predictions depend on already decoded bytes; sizes at which the code indexes past its buffer are rare.", "anchors": ["bundle/image_header.go:GetDecodedICC", "bundle/image_header.go:GetICCPrediction", "jxlio/bitreader.go:ReadICCVarint"]}
{"id": "C57", "title": "Palette expansion gives every pixel its palette value", "statement": "Expanding a palette replaces the index channel by the signalled number of channels, each pixel being the palette entry of its index (explicit colour, 4x4x4 or 5x5x5 cube colour, or delta entry), plus the prediction from already expanded pixels for indices below the number of delta entries; all other channels are left alone.", "quantifier": "every palette, index image, number of channels, bit depth and predictor", "why_tests_cant": "Implicit colours, delta entries and predictors combine; deltas create a recurrence over all preceding pixels.", "anchors": ["frame/ModularStream.go:applyTransforms", "util/misc.go:Add"]}
{"id": "C58", "title": "Reading a decision tree returns a tree or an error", "statement": "For every input reading a meta-adaptive tree returns a tree or an error and never panics.", "quantifier": "every byte string", "why_tests_cant": "Panics need particular truncations or values of the entropy-coded fields.", "anchors": ["frame/MATree.go:NewMATreeWithReader", "entropy/EntropyStream.go:TryReadSymbol"]}
{"id": "C59", "title": "Frames of several passes can be decoded", "statement": "A VarDCT frame with any number of passes, all of whose sections are valid, is decoded without failing.", "quantifier": "every number of passes and groups", "why_tests_cant": "Encoders rarely write progressive frames; test images have one pass.", "anchors": ["frame/Frame.go:decodePassGroupsConcurrent", "frame/PassGroup.go:invertVarDCT"]}
{"id": "C60", "title": "Coefficients of a block land on their own samples", "statement": "Decoding the coefficients of a block stores each transmitted coefficient, scaled by the pass shift, at its position of the scan order inside the block, never in the low-frequency corner and never twice; no other sample changes; every such coefficient list can be transmitted and nothing else is accepted.", "quantifier": "every transform type, scan order, coefficient list and block position", "why_tests_cant": "27 types times arbitrary scan orders; a swapped axis or an off-by-one moves coefficients inside the block without failing.", "anchors": ["frame/HFCoefficients.go:NewHFCoefficientsWithReader", "frame/transformtype.go:flip"]}
{"id": "C61", "title": "Integer samples of a modular frame reach the image unchanged", "statement": "For a frame coded losslessly with integer samples, the image channel holds exactly the decoded modular samples.", "quantifier": "every channel size and every sample value of the declared bit depth", "why_tests_cant": "Samples pass through float32 arithmetic; only values above 24 bits are damaged.", "anchors": ["frame/Frame.go:DecodeFrame"]}
{"id": "C62", "title": "Float samples of a modular frame are read as floating-point numbers", "statement": "For a frame with floating-point samples, each image sample is the number whose bit pattern is the decoded integer.", "quantifier": "every channel size and bit pattern", "why_tests_cant": "All bit patterns; test images have integer samples.", "anchors": ["frame/Frame.go:DecodeFrame"]}
{"id": "C63", "title": "Frame header grammar", "statement": "The frame header parser accepts exactly the bit strings of the frame header grammar of the standard (field table with presence conditions and defaults, blending infos, passes, crop, restoration filter, name, extensions), returns the coded value and stops behind the last bit.", "quantifier": "every image header, every frame header bit string at every position of every stream", "why_tests_cant": "Presence of each field depends on earlier ones; the combinations are too many to enumerate and most never occur in test files.", "anchors": ["frame/FrameHeader.go:NewFrameHeaderWithReader", "frame/BlendingInfo.go:NewBlendingInfoWithReader", "frame/PassesInfo.go:NewPassesInfoWithReader", "frame/RestorationFilter.go:NewRestorationFilterWithReader"]}
{"id": "C64", "title": "Frame geometry", "statement": "Every accepted frame header has upsampling factors in {1,2,4,8}, group dimension 128*2^shift with matching logarithms and LF group dimension eight times that, an LF level in 0..4 that is 0 exactly for frames of another type, chroma shifts 0 or 1, and a positive size that is the requested size divided by the upsampling and by 8 per LF level, rounding up, then rounded up to the chroma subsampling.", "quantifier": "every stream and image header", "why_tests_cant": "Wrap-around in the size arithmetic shows only for sizes that encoders do not produce.", "anchors": ["frame/FrameHeader.go:NewFrameHeaderWithReader", "util/MathsHelper.go:CeilDiv"]}
{"id": "C65", "title": "ANS distribution descriptions", "statement": "The reader of ANS distributions accepts exactly the four description forms, returns the frequencies described, and every accepted description is a distribution: non-negative frequencies summing to 4096 over at most 2^logAlphabetSize symbols.", "quantifier": "every alphabet size and every bit string at every position of every stream", "why_tests_cant": "Runs, omitted positions and partial precision combine freely; encoders emit a small subset and never an inconsistent description.", "anchors": ["entropy/ANSSymbolDistribution.go:NewANSSymbolDistribution"]}
{"id": "C66", "title": "Prefix code descriptions", "statement": "The reader of prefix codes accepts exactly the descriptions of the grammar (simple codes of up to four symbols; complex codes whose lengths are coded with repeat items), stops behind the description, and the resulting distribution reads exactly the codewords of the canonical code described; malformed descriptions are errors.", "quantifier": "every alphabet size up to 2^15, every description and every bit string at every position of every stream", "why_tests_cant": "Two levels of codes with run lengths that continue across items; encoders emit few of the combinations and never a malformed one.", "anchors": ["entropy/PrefixSymbolDistribution.go:NewPrefixSymbolDistributionWithReader", "entropy/PrefixSymbolDistribution.go:populateComplexPrefix", "entropy/PrefixSymbolDistribution.go:populateSimplePrefix", "entropy/VLCTable.go:NewVLCTableWithSymbols"]}
{"id": "C67", "title": "Section and stream numbering", "statement": "The decoder looks up the sections of a frame at the positions 0, 1, 2, ... in the order of the standard (LF global, LF groups, HF global, pass groups by pass), the table of contents has exactly one entry per section (or a single one for one group and one pass), and the modular streams are numbered in the order of the standard without collisions.", "quantifier": "every number of groups, LF groups and passes", "why_tests_cant": "Test images are small: most have one section, few have several passes or LF groups.", "anchors": ["frame/Frame.go:ReadTOC", "frame/Frame.go:doProcessing", "frame/PassGroup.go:NewPassGroupWithReader", "frame/LFGroup.go:NewLFGroupWithReader", "frame/HFGlobal.go"]}
{"id": "C68", "title": "The block transforms are the cosine transforms", "statement": "ForwardDCT2D writes the orthogonal two-dimensional cosine transform of the source block, InverseDCT2D the inverse transform (transposed when asked for); the two are mutually inverse; nothing outside the target block changes and the contents of the scratch buffers do not matter.", "quantifier": "every block of 1 to 256 rows and columns (powers of two), every position of the source and target block, every real content of the matrices and scratch buffers", "why_tests_cant": "Tests compare a few sizes with recorded numbers under a tolerance; a wrong basis function or an index error at one size or position is easily missed.", "anchors": ["util/MathsHelper.go:InverseDCT2D", "util/MathsHelper.go:ForwardDCT2D", "util/MathsHelper.go:inverseDCTHorizontal", "util/MathsHelper.go:TransposeMatrixInto"]}
{"id": "C69", "title": "The special 8x8 transforms invert their encoders", "statement": "For the transform methods DCT, DCT2, DCT4, HORNUSS, DCT8_4 and DCT4_8, decoding the coefficients an encoder computed from an 8x8 block gives back the block at its place in the frame and changes nothing else.", "quantifier": "every real 8x8 block at every position, every content of the scratch blocks", "why_tests_cant": "Encoders choose the special transforms rarely; a sample image exercises few of them and rounding hides small errors.", "anchors": ["frame/PassGroup.go:invertVarDCT", "frame/PassGroup.go:auxDCT2", "frame/PassGroup.go:layBlock"]}
{"id": "C70", "title": "AFV blocks are decoded in their orientation", "statement": "For each of the four AFV transforms, decoding the coefficients an encoder computed from an 8x8 block gives back the block: exactly outside the corner with the special basis, and up to the precision of the basis table inside it.", "quantifier": "every real 8x8 block at every position, all four orientations", "why_tests_cant": "The orientation is chosen by comparing pointers, which looks right and compiles; only images with mirrored AFV blocks show that it never holds.", "anchors": ["frame/PassGroup.go:invertAFV", "frame/hfmetadata.go:placeBlock", "frame/transformtype.go"]}
{"id": "C71", "title": "Modular stream header grammar", "statement": "The reader of modular stream headers accepts exactly the bit strings of the standard's grammar (tree flag, weighted-predictor parameters, list of transforms with their parameters and explicit squeezes), returns the coded value and stops behind the last bit.", "quantifier": "every header bit string at every position of every stream", "why_tests_cant": "Variable-length fields inside lists inside optional parts; encoders never write explicit squeeze parameters.", "anchors": ["frame/ModularStream.go:NewModularStreamWithChannels", "frame/ModularStream.go:NewTransformInfo", "frame/ModularStream.go:NewSqueezeParam", "frame/WPParams.go:NewWPParams"]}
{"id": "C72", "title": "Layout of the coded channels", "statement": "From the channels of the image and the transforms of the header the decoder derives the channels that are coded: their number, order, sizes and shifts, the number of meta channels and the squeezes that an empty list stands for are those of the image after the transforms; transforms of channels that do not exist are errors.", "quantifier": "every image, every sequence of colour transforms, squeezes and palettes", "why_tests_cant": "The channel list changes with every transform, so positions depend on everything before; images in tests use one or two transforms.", "anchors": ["frame/ModularStream.go:NewModularStreamWithChannels", "util/sliceutil.go:AddToSlice"]}
{"id": "C73", "title": "Sequences of modular transforms are undone", "statement": "If an image is transformed by a sequence of reversible colour transforms, squeezes and palettes, applying the inverse transforms to the resulting channels gives back the samples, sizes and shifts of the image.", "quantifier": "every image, every sequence of transforms with its parameters", "why_tests_cant": "Each transform alone is easy to test; sequences move channels around and show index errors only in combination.", "anchors": ["frame/ModularStream.go:applyTransforms"]}
{"id": "C74", "title": "Conversion matrices between colour spaces", "statement": "Matrix products and 3x3 inverses are right in exact arithmetic; primariesToXYZ gives the matrix that takes each primary to a multiple of its chromaticity and (1,1,1) to the white point; GetConversionMatrix converts colours of one space to the same colours, adapted to the other white point by the Bradford method, in the other space and keeps white; for the spaces a header can name this holds without further conditions; unusable primaries are errors.", "quantifier": "every matrix of every size, every choice of primaries and white points", "why_tests_cant": "A wrong cofactor or a transposed product changes colours by little for the few spaces tests use; degenerate primaries only come from hostile files.", "anchors": ["colour/colour_management.go:GetConversionMatrix", "colour/colour_management.go:primariesToXYZ", "colour/CIEXY.go:AdaptWhitePoint", "util/MathsHelper.go:MatrixMatrixMultiply", "util/MathsHelper.go:InvertMatrix3x3", "util/MathsHelper.go:MatrixVectorMultiply"]}
{"id": "C75", "title": "XYB images are converted back", "statement": "InvertXYB applied to the XYB image that an encoder computes from linear colours (mixing matrix, intensity target, biased cube root, difference and mean) gives back the colours, converted to the colour space of the header when the matrix comes from GetMatrix; other channels are unchanged.", "quantifier": "every image size and content, every invertible mixing matrix, every bias, every positive intensity target, all named colour spaces", "why_tests_cant": "Tests compare whole images under a tolerance with the default matrix; sign errors in the bias are nearly invisible because the bias is small.", "anchors": ["colour/OpsinInverseMatrix.go:InvertXYB", "colour/OpsinInverseMatrix.go:GetMatrix", "colour/OpsinInverseMatrix.go:bakeCbrtBias", "util/MathsHelper.go:SignedPow"]}
{"id": "C76", "title": "Transfer functions", "statement": "For every transfer function a header can name, ToLinear and FromLinear are mutually inverse (exactly for linear and gamma curves, up to 1/10^9 for the curves with decimal constants) and the curve is the one the header names.", "quantifier": "every gamma from 1 to 10^7, every real input between 0 and 1", "why_tests_cant": "Only the direction that the output path uses is ever run, and mostly with sRGB.", "anchors": ["colour/transfer_function.go:ToLinear", "colour/transfer_function.go:FromLinear", "colour/transfer_function.go:NewGammaTransferFunction", "colour/colour_management.go:GetTransferFunction"]}
{"id": "C77", "title": "LF global information", "statement": "The LF global part of a frame is read exactly as its grammar says: quantisation steps (defaults or three half floats over 128), scales, block contexts with signed thresholds modulo 2^32 and a bounded cluster map, channel correlation with its defaults; the LF steps are 2^16 d / (scale * lf) for all scales of the syntax.", "quantifier": "every bit string, every reader of cluster maps that is exact for its grammar, every pair of scales", "why_tests_cant": "The largest scales and thresholds that need 32 bits never occur in encoder output; a field read in the wrong order still parses.", "anchors": ["frame/LFGlobal.go:NewLFGlobalWithReader", "frame/HFBlockContext.go:NewHFBlockContextWithReader", "frame/LFChannelCorrelation.go:NewLFChannelCorrelationWithReader"]}
{"id": "C78", "title": "The LF image", "statement": "From the samples of its modular stream the LF image is computed as specified: samples times step over the extra precision, X and B plus correlation times Y, then smoothing that keeps the border, replaces inner samples by a mixture with the weighted mean of nine samples depending on the distance in steps, and never leaves the range between sample and mean; with an LF frame the samples of that frame are used.", "quantifier": "every size, every sample, every step, every correlation factor from 0 to 255, every chroma shift", "why_tests_cant": "Factors below 128, steps far from 1 and LF frames are rare; smoothing that does nothing is invisible at high quality.", "anchors": ["frame/lfcoefficients.go:NewLFCoefficientsWithReader", "frame/lfcoefficients.go:adaptiveSmooth", "frame/LFGlobal.go:NewLFGlobalWithReader"]}
{"id": "C79", "title": "Weights of HF coefficients", "statement": "For every valid set of parameters the weight tables are those of the format: bands are the running products of the multipliers, weights between two bands are interpolated geometrically by distance from the corner, the special layouts of blocks of eight by eight and the AFV table put each parameter where it belongs, and the stored table holds the reciprocals; parameters that give a weight that is not positive are rejected.", "quantifier": "all seventeen tables, every mode, every number of bands, every parameter value (exact real arithmetic)", "why_tests_cant": "Encoders use the default parameters almost always; a wrong entry of one table changes one frequency of one rare block type.", "anchors": ["frame/HFGlobal.go:getDCTQuantWeights", "frame/HFGlobal.go:getAFVTransformWeights", "frame/HFGlobal.go:generateWeights", "frame/HFGlobal.go:quantMult", "frame/transformtype.go:getHorizontalTransformType"]}
{"id": "C80", "title": "Parameters of HF weights", "statement": "The HF global part of a frame is read exactly as its grammar says: defaults or seventeen tables, each in one of the modes permitted for its block size with its half floats (times 64 where required) and bands, raw tables as modular streams, and the number of presets in as many bits as number the groups.", "quantifier": "every bit string, every number of groups up to 2^30, every reader of raw tables that is exact for its grammar", "why_tests_cant": "Non-default tables are hardly ever produced by encoders, so a mode that is never parsed goes unnoticed.", "anchors": ["frame/HFGlobal.go:NewHFGlobalWithReader", "frame/HFGlobal.go:setupDCTParam", "frame/HFGlobal.go:readDCTParams", "frame/transformtype.go:validateIndex"]}
{"id": "C81", "title": "Values of HF coefficients", "statement": "Every quantised HF coefficient becomes its biased value times the step of its block (2^16 (4/5)^(qm-2) / (scale * multiplier)) times the weight of its place, coefficients of X and B get the correlation of their tile times Y, and in the end each block holds these values outside its lowest frequencies and the scaled transform of the LF samples inside; nothing else is touched.", "quantifier": "every block type and disjoint layout, every coefficient, every scale of the syntax, every chroma shift, every order of blocks", "why_tests_cant": "Scales below 2 and blocks that cross the border of a 64x64 tile are never written by common encoders; a wrong bias changes samples by less than one level.", "anchors": ["frame/HFCoefficients.go:dequantizeHFCoefficients", "frame/HFCoefficients.go:chromaFromLuma", "frame/HFCoefficients.go:bakeDequantizedCoeffs"]}
{"id": "C82", "title": "Lowest frequencies from the LF image", "statement": "The lowest coefficients of a block are the cosine transform of the LF samples below it times the scale of each frequency, and these scales are the ones that make the mean of every 8x8 samples of the block equal to the LF sample.", "quantifier": "every block type up to 256x256, every LF image (exact real arithmetic), all 32 entries of the table", "why_tests_cant": "A digit wrong in the table shifts the brightness of large blocks by less than a visible amount.", "anchors": ["frame/HFCoefficients.go:finalizeLLF", "frame/transformtype.go:scaleF", "frame/transformtype.go:SCALE_F"]}
{"id": "C83", "title": "Headers of entropy-coded streams", "statement": "The header of an entropy-coded stream is read exactly by its grammar (LZ77 parameters, cluster map, hybrid integer configurations, alphabet sizes, prefix codes or frequencies); the resulting stream carries just these parameters with codes that decode them, starts with no ANS state, no pending copy and an empty window, and a further stream with the same code starts afresh too.", "quantifier": "every number of contexts, LZ77 allowed or not, every header and every input", "why_tests_cant": "A header has dozens of variable-length parts; an off-by-one in a rarely used width (alphabet size, minimum length, split exponent) shifts every later bit of only such streams.", "anchors": ["entropy/EntropyStream.go:LoadWithReader", "entropy/EntropyStream.go:LoadWithStream", "entropy/EntropyStream.go:ReadClusterMap", "entropy/HybridIntegerConfig.go:NewHybridIntegerConfigWithReader"]}
{"id": "C84", "title": "Gaborish smoothing", "statement": "Every sample becomes the weighted mean of the nine samples around it (mirrored at the edges) with weight 1 in the middle, the first weight beside and the second diagonally; constant images and the sum of all samples are kept, and the weights can always be divided by their sum.", "quantifier": "every size, every image, every pair of weights a header can carry (exact real arithmetic)", "why_tests_cant": "Edges and corners are a vanishing part of test images; weights are the default ones in nearly every file.", "anchors": ["frame/Frame.go:performGabConvolution", "frame/RestorationFilter.go:NewRestorationFilterWithReader"]}
{"id": "C85", "title": "Edge-preserving filter", "statement": "For one to three iterations the channels become what the steps of the format give: weights fall linearly with the distance of the surroundings (larger at block edges), samples of blocks with a strength below 0.3 stay, the strength of a block is that of its own multiplier and sharpness in its own LF group; values never leave the range of their channel; a sharpness above 7 is an error.", "quantifier": "every size, group size, image, parameter and number of iterations (exact real arithmetic)", "why_tests_cant": "The sums have up to 13 x 5 terms per channel, and a wrong neighbour changes values by less than a level; frames of more than 2048 pixels with other group sizes are rare in tests.", "anchors": ["frame/Frame.go:performEdgePreservingFilter", "util/MathsHelper.go:MirrorCoordinate"]}
{"id": "C86", "title": "Upsampling", "statement": "An image upsampled by 2, 4 or 8 has as new samples the sums of the 5x5 samples around with the weights of the symmetric kernel for their place (mirrored for the second half), limited to the range of these samples; the built-in kernels have sum 1 for every place.", "quantifier": "every size, every image, every kernel, all three factors (exact real arithmetic)", "why_tests_cant": "Of the 1600 weights of the largest kernel only the sum is visible; dark samples are hardly ever upsampled in tests.", "anchors": ["frame/Frame.go:performUpsampling", "bundle/image_header.go:GetUpWeights", "bundle/image_header.go:DEFAULT_UP2"]}
{"id": "C87", "title": "Chroma upsampling", "statement": "Subsampled channels are doubled in width and height as often as their shifts say; new samples are three quarters of the nearest and one quarter of the next sample, mirrored at the edges; sizes, the mean and the range of the samples are as required.", "quantifier": "every size, every image, every pair of shifts (exact real arithmetic)", "why_tests_cant": "Subsampled frames only come from recompressed JPEG files, and errors at edges are one sample wide.", "anchors": ["frame/Frame.go:invertSubsampling"]}
{"id": "C88", "title": "Conversion to Go images", "statement": "ToImage gives an image of the size of the channels whose bytes are the samples: cut to 0..255 at 8 bits, scaled and rounded to the nearest at other depths or from floats after the transfer function of the target, the alpha channel (or 255) as fourth byte; ChannelToImage gives the samples of one channel.", "quantifier": "every size, every image, every transfer function", "why_tests_cant": "Test images are 8-bit sRGB with alpha, if any, as the first extra channel; images of other depths, channel orders and value ranges are not compared byte by byte.", "anchors": ["core/jxl_image.go:ToImage", "core/jxl_image.go:ChannelToImage", "core/jxl_image.go:create24BitImage", "core/jxl_image.go:createGrayScaleImage"]}
{"id": "C89", "title": "Repeated conversions and supported transfer functions", "statement": "ToImage does not panic for any image the decoder returns, and converting an image a second time gives the same result.", "quantifier": "every image, every transfer function of the header", "why_tests_cant": "Tests convert an image once and use sRGB files; the state left behind in the image shows only in a second call.", "anchors": ["core/jxl_image.go:ToImage", "core/jxl_image.go:transform", "core/jxl_image.go:linearize", "core/jxl_image.go:transferInPlace"]}
{"id": "C90", "title": "Composition of frames", "statement": "The decoded image is what the frames of the stream describe by value: each visible frame is drawn inside its rectangle with the blend mode of each channel onto the saved frame its header names, frames are saved under their index before or after drawing as the header says, LF frames are handed to the frames that use them, and the result is turned by the orientation.", "quantifier": "every number of frames, every size, position, blend mode, reference slot and extra channel", "why_tests_cant": "Test files have one frame; canvas, saved frames and frame buffers share memory in the code, so that errors need several frames with particular save and source slots.", "anchors": ["core/jxl_codestream_decoder.go:decode", "core/jxl_codestream_decoder.go:blendFrame", "core/jxl_codestream_decoder.go:blendAlpha", "core/jxl_codestream_decoder.go:performColourTransforms", "image/imagebuffer.go:ImageBufferSliceEquals"]}
{"id": "C91", "title": "End of decoding", "statement": "Decoding ends with the first frame that is marked as last and is not an LF frame, nothing after it is read; with ParseOnly a valid stream is accepted; the frames of a stream that is split over several boxes are all read.", "quantifier": "every list of frames and boxes", "why_tests_cant": "Files in tests are decoded completely and have one codestream box; whether frames of further boxes count shows only in split files.", "anchors": ["core/jxl_codestream_decoder.go:decode"]}
{"id": "C92", "title": "Samples of a modular channel", "statement": "Decoding a modular channel gives exactly the samples the stream encodes: at each pixel in raster order the tree decides on a leaf by the properties of the format (position, neighbours, earlier channels of the same shape, largest error of the self-correcting predictor), a symbol is read in the context of the leaf, and the sample is its residual times multiplier plus offset plus the prediction, where the self-correcting predictor is that of the format over unbounded integers; a channel that is already decoded is left alone.", "quantifier": "every size, tree, stream, set of earlier channels and weighting parameters; samples below 2^26 (2^20 with the self-correcting predictor)", "why_tests_cant": "A wrong neighbour, error term or rounding constant only shifts a prediction; small images use few properties, and the encoder of the tests never uses reference properties.", "anchors": ["frame/ModularChannel.go:decode", "frame/ModularChannel.go:prePredictWP", "frame/ModularChannel.go:getWalkerFunc", "frame/ModularChannel.go:prediction", "frame/ModularChannel.go:errorWestWest"]}
{"id": "C93", "title": "Pseudo-random numbers of the noise generator", "statement": "The generator of two seeds gives the numbers of the standard in order (eight xorshift128+ lanes seeded by splitmix64, drawn in turn), one by one or as 32-bit halves into a slice; four 32-bit seeds are the two 64-bit seeds they form; seeds that differ give lanes that differ, no two states step to the same one, and a lane is stuck at zero only for the one pair of seeds that cancels the golden ratio.", "quantifier": "all seeds, any number of draws, slices of any length (odd lengths panic: finding)", "why_tests_cant": "A test compares a few numbers for one seed; that lanes never merge or die is a statement about all 2^128 states.", "anchors": ["frame/XorShiro.go:fill", "frame/XorShiro.go:nextLong", "frame/XorShiro.go:fillBatch", "frame/XorShiro.go:NewXorShiroWith2Seeds", "frame/XorShiro.go:NewXorShiroWith4Seeds", "frame/XorShiro.go:splitMix64"]}
{"id": "C94", "title": "Noise of a group", "statement": "The noise of a group is written inside the rectangle of the group only, with values in [1, 2), and is that of the standard: rows in runs of 16 numbers, the channels one after the other.", "quantifier": "every group position, group and image size and seed", "why_tests_cant": "Noise looks like noise: wrong values show only by comparison with another decoder over groups wider than one sample.", "anchors": ["frame/NoiseGroup.go:NewNoiseGroupWithHeader"]}
{"id": "C95", "title": "Alias tables of the standard", "statement": "The alias table of a distribution is the one the standard prescribes: overfull buckets give slots to underfull ones, the last of both kinds first, and a symbol with all of the probability is in every slot with its own offset; the standard leaves no choice of table.", "quantifier": "all frequencies of sum 4096 and table sizes up to 2^12 (the table of a single symbol described by frequencies differs: finding)", "why_tests_cant": "Any permutation of the slots decodes some stream; that it is the permutation of the encoder shows only on files that visit the slots concerned.", "anchors": ["entropy/ANSSymbolDistribution.go:generateAliasMapping", "entropy/ANSSymbolDistribution.go:NewANSSymbolDistribution"]}
{"id": "C96", "title": "Values of an entropy-coded stream", "statement": "The calls that read symbols return, one by one, exactly the values an encoder put into the stream: tokens by prefix code or rANS with the alias tables of the standard, extra bits of hybrid integers, LZ77 copies at plain and special distances. The reader ends behind the last bit and the check of the final state passes if and only if the coder is in its final state; every nonempty sequence whose tokens have codes can be sent.", "quantifier": "all headers of the standard's grammar, contexts, sequences shorter than 2^31 and bit positions; distance multipliers 0 and 8 to 2^24", "why_tests_cant": "Sequences are unbounded and mix all parts of the coder, whose state carries from one symbol to the next.", "anchors": ["entropy/EntropyStream.go:ReadSymbolWithMultiplier", "entropy/EntropyStream.go:ValidateFinalState", "entropy/ANSSymbolDistribution.go:ReadSymbol", "entropy/PrefixSymbolDistribution.go:ReadSymbol", "entropy/HybridIntegerConfig.go:NewHybridIntegerConfigWithReader"]}
{"id": "C97", "title": "Decision trees are read as sent", "statement": "From the bits of a decision tree in the standard's breadth-first order, a stream of six contexts followed by the header of the stream with one context per leaf, exactly the nodes sent are read: properties, split values, predictors, offsets, multipliers, leaf contexts, children and the entropy stream of the samples; the reader ends behind the last bit.", "quantifier": "all trees of up to 2^20 + 1 nodes, all codes for their symbols, all headers of the standard's grammar and bit positions", "why_tests_cant": "The number of nodes still to come and the numbers of the leaves depend on everything read before; a wrong child or context still decodes, to another image.", "anchors": ["frame/MATree.go:NewMATreeWithReader"]}
{"id": "C98", "title": "Modular streams from bits to samples", "statement": "A modular stream, built from its bits and decoded, gives back the image that was sent: header, transforms of the channel list, tree of its own or of the frame, residuals by predictor, leaf and entropy coder, then the inverse transforms in reverse. The global stream gives back the channels before the first one larger than a group and leaves the others. Every image with samples within 2^26 can be sent.", "quantifier": "all images, lists of palette, colour and default squeeze transforms, trees, codings of the symbols and bit positions within the limits of the parts (the row length of copies in the global stream and a missing tree of the frame: findings)", "why_tests_cant": "Composition of all parts of the lossless decoder over unbounded images and all ways to encode them.", "anchors": ["frame/ModularStream.go:NewModularStreamWithChannels", "frame/ModularStream.go:decodeChannels", "frame/ModularStream.go:applyTransforms", "frame/ModularChannel.go:decode"]}
{"id": "C99", "title": "Modular frames from sections to buffers", "statement": "A modular frame, whose first section holds the global stream and whose further sections hold the tiles of the other channels, group by group and pass by pass, is decoded to the buffers of the image that was sent, whatever transforms, trees, codes and scales of passes the encoder chose. Every image with integer samples within 2^24 can be sent for every number of passes and every group size.", "quantifier": "all frame sizes, group sizes, numbers of passes with any scales, images, transforms and codings within the limits of C98 (channels for LF groups, channels that end before the last group, default passes, a repeated last pass, subsampled extra channels, palettes inside groups: findings)", "why_tests_cant": "Each section is decoded with its own reader and stream number and copied to its own rectangle; an error in one of the group formulas shows up only for some sizes, shifts and passes.", "anchors": ["frame/Frame.go:DecodeFrame", "frame/Frame.go:decodeLFGroups", "frame/Frame.go:decodePasses", "frame/Frame.go:decodePassGroupsConcurrent", "frame/LFGlobal.go:NewLFGlobalWithReader", "frame/Pass.go:NewPassWithReader", "frame/PassGroup.go:NewPassGroupWithReader"]}
{"id": "C100", "title": "Lossless files from bytes to image", "statement": "The bytes of a lossless file, image header, frame headers, tables of contents and sections, are decoded to the picture its frames give when drawn one after the other, seen in the orientation of the header; one frame that covers the image gives exactly the samples sent. Every image has such a file.", "quantifier": "all grey and RGB images with extra channels, 3 to 24 bits, orientations, any number of modular frames that replace or add, transforms, codes, group sizes and passes; every image of less than 2^27 samples has a file (the length of a single section and the last bits of a file: findings)", "why_tests_cant": "The composition of the whole decoder over unbounded images and all encodings of them; samples of test images cover one encoder's choices.", "anchors": ["core/jxl_codestream_decoder.go:decode", "frame/Frame.go:ReadFrameHeader", "frame/Frame.go:ReadTOC", "frame/Frame.go:DecodeFrame"]}
{"id": "C101", "title": "HF coefficients of a group from bits", "statement": "From the bits of a group, the preset and then per block and channel the number of nonzero coefficients and the coefficients in scan order, in the contexts of the standard, exactly the coefficients sent are stored, scaled by the shift of the pass, at the places of their blocks; Y comes first, channels without the block are left out, blocks of other groups are skipped, and the reader ends behind the last bit. Every group can be sent.", "quantifier": "all block layouts without overlap, transform types, scan orders, context models, subsamplings, presets, entropy codes, coefficients and bit positions within the limits of int32", "why_tests_cant": "The context of every symbol depends on counts and coefficients decoded before; a wrong context or place still decodes, to another image.", "anchors": ["frame/HFCoefficients.go:NewHFCoefficientsWithReader", "frame/HFCoefficients.go:getPredictedNonZeros", "frame/HFCoefficients.go:getBlockContext", "frame/HFCoefficients.go:getNonZeroContext", "frame/HFCoefficients.go:getCoefficientContext"]}
{"id": "C102", "title": "Scan orders and codes of an HF pass from bits", "statement": "From the bits of a pass, the set of orders that are sent, a stream with the permutations of their natural orders for three channels each and the code of the coefficients, exactly the orders and the code sent are read; orders not in the set are natural, the LF corner stays in place, the check of the final state passes and the reader ends behind the last bit. Every choice of orders that keeps the corner can be sent.", "quantifier": "all sets and permutations of the 13 orders, codes, context models, numbers of presets and bit positions within the limits of int32, for every correct sort", "why_tests_cant": "There are 39 orders of up to 65536 positions, each any permutation behind the corner; a wrong one still decodes, to another image.", "anchors": ["frame/HFPass.go:NewHFPassWithReader", "frame/HFPass.go:getNaturalOrder", "frame/Frame.go:readPermutation"]}
{"id": "C103", "title": "LF groups of VarDCT frames from bits", "statement": "From the bits of an LF group, extra precision, a stream with the LF samples of Y, X and B, a stream with the modular channels of the group and a stream with the layout of the blocks, exactly what was sent is read: the dequantized LF samples are those of C78, the LF context of each block counts the thresholds below its samples, every cell knows type and multiplier of the block that covers it, the blocks lie where the packing rule of the standard puts them, and the reader ends behind the last bit. Every group can be sent.", "quantifier": "all groups up to 8192x8192 blocks whose subsampling divides the size, all trees, transforms, thresholds, packings and bit positions", "why_tests_cant": "Thresholds, subsampling, layout and three coded streams interact; a wrong context or cell only shows in later streams.", "anchors": ["frame/LFGroup.go:NewLFGroupWithReader", "frame/lfcoefficients.go:NewLFCoefficientsWithReader", "frame/lfcoefficients.go:populatedLFIndex", "frame/lfcoefficients.go:getLFIndex", "frame/hfmetadata.go:NewHFMetadataWithReader"]}
{"id": "C104", "title": "Table of the transform types", "statement": "Each of the 27 transform types has the size, scan order, table of weights and orientation of the standard; the type that stands for an order or a table is in its group and not taller than wide; the method of a type selects the inverse transform of its kind.", "quantifier": "all 27 types, 13 orders and 17 tables; for the methods all coefficients, buffers, positions and sizes", "why_tests_cant": "Decoding files that use all types is no evidence for the entries: types of equal size with exchanged entries decode without error.", "anchors": ["frame/transformtype.go:NewTransformType", "frame/transformtype.go:flip", "frame/transformtype.go:getHorizontalTransformType", "frame/HFPass.go:filterByOrderID", "frame/PassGroup.go:invertVarDCT"]}
{"id": "C105", "title": "Samples of VarDCT frames from bits", "statement": "From the bits of the groups of a VarDCT frame, in any order of the groups, the samples that were transformed and quantized without loss come back: coefficients are read, scaled, correlated with luma, completed from the LF samples and transformed back, each block at its place in the frame; samples covered by no block keep their values.", "quantifier": "all frames, sizes, positions, subsamplings, layouts of blocks with every supported type, coefficients, weights and scales, in exact arithmetic", "why_tests_cant": "Types, sizes and places combine without bound; a block written to the wrong place or through the wrong transform of equal size still gives an image.", "anchors": ["frame/PassGroup.go:invertVarDCT", "frame/PassGroup.go:NewPassGroupWithReader", "frame/HFCoefficients.go:bakeDequantizedCoeffs", "frame/Frame.go:decodePassGroupsConcurrent"]}
{"id": "C106", "title": "VarDCT frames from sections to samples", "statement": "A VarDCT frame of one pass, its global information with tree and block contexts, its LF groups, tables, scan orders and codes and its groups, each in its section or all in one, is read to exactly what was sent; LF group, position and size of every group are those of the format. When the blocks cover the frame and the coefficients are those of samples F, the three channels are F.", "quantifier": "all frame sizes, subsamplings, trees, context models with entropy-coded maps, tables, scan orders, layouts, coefficients and codes, with one section or many; samples in exact arithmetic", "why_tests_cant": "The composition of all parts of a VarDCT frame over unbounded images and all encodings of them; images of one encoder cover few choices.", "anchors": ["frame/Frame.go:DecodeFrame", "frame/Frame.go:decodeLFGroups", "frame/Frame.go:decodePassGroupsConcurrent", "frame/LFGlobal.go:NewLFGlobalWithReader", "frame/HFBlockContext.go:NewHFBlockContextWithReader", "frame/PassGroup.go:NewPassGroupWithReader"]}
{"id": "C107", "title": "Tilings of VarDCT frames", "statement": "When the blocks of every LF group of a VarDCT frame without subsampled channels tile the group without crossing borders of 256x256 samples, the layout meets all that reading, correlation with luma and the inverse transforms need: blocks fit into their groups, do not overlap inside or between groups, are met row by row, know the correlation of each tile, and cover the frame. So every sample of the three channels is the one that the coefficients of its block stand for.", "quantifier": "all frame sizes, all tilings by all 27 types that start blocks crossing a row of 64x64 tiles at the corner of a tile, all coefficients, in exact arithmetic", "why_tests_cant": "The number of tilings is exponential in the size of the frame; groups and LF groups at the borders of the frame are cut.", "anchors": ["frame/Frame.go:decodePassGroupsConcurrent", "frame/HFCoefficients.go:NewHFCoefficientsWithReader", "frame/HFCoefficients.go:bakeDequantizedCoeffs", "frame/PassGroup.go:invertVarDCT", "frame/hfmetadata.go:placeBlock"]}
{"id": "C108", "title": "ICC profiles with tags and data commands", "statement": "A profile sent with its header residuals, its tag count, any list of tag commands (own names, the three curves, the three primaries, names with a code; start and size sent or left to their defaults) and any list of data commands (raw, shuffled by 2 or 4, predicted from numbers of 1, 2 or 4 bytes at any stride with order 0, 1 or 2, XYZ values, type names) is rebuilt byte by byte; so no two profiles are sent alike.", "quantifier": "all profiles of at least 132 and less than 2^29 bytes whose tag count is below 127 * 2^24, all ways to send them", "why_tests_cant": "Command lists and profiles are unbounded; profiles of real images use few of the commands, predictions and defaults.", "anchors": ["bundle/image_header.go:GetDecodedICC", "bundle/image_header.go:shuffle"]}
{"id": "C109", "title": "Entry points of the image package", "statement": "Decode of reader.go turns the bytes of a lossless file with 8-bit samples, bare or in a container, into the Go image with exactly these samples, in the orientation of the header and with its alpha channel; samples of other depths are scaled to 8 bits; DecodeConfig tells the colour model and size of that image; image.Decode of the standard library finds the decoder for every such file and every reader.", "quantifier": "all lossless codestreams of C100 with sRGB samples, all readers", "why_tests_cant": "Files, orientations and readers are unbounded; the tests call the decoder directly with a file and do not compare DecodeConfig with the decoded image.", "anchors": ["reader.go:Decode", "reader.go:DecodeConfig", "core/jxl_codestream_decoder.go:GetImageHeader", "core/jxl_image.go:NewJXLImageWithBuffer", "core/jxl_image.go:ToImage"]}
{"id": "C110", "title": "Conversion of files to PNG", "statement": "The program jxltopng turns a lossless file of 8 or 16 bits with an ICC profile into a PNG file with the same samples, in the orientation of the header, with its alpha channel and the same profile, all in correct chunks; a file of 8 bits without profile becomes the encoding of the Go image with its samples.", "quantifier": "all lossless codestreams of C100, bare or in a container, all profiles of C108, all compressors", "why_tests_cant": "Files, orientations and profiles are unbounded; the tests of the writer use a few images and compare lengths or hashes.", "anchors": ["tools/jxltopng/main.go:main", "core/png_writer.go:WritePNG", "core/png_writer.go:writeIDAT", "core/png_writer.go:writeICCP", "core/jxl_image.go:HasICCProfile"]}
{"id": "C111", "title": "Reading and skipping bytes of a reader", "statement": "ReadFullyWithOffset reads the bytes at an offset into the buffer, whatever the pieces in which the reader gives them, leaves the reader behind them and returns how many bytes could not be read; ReadFully does so from the position of the reader; SkipFully moves the reader by the number of bytes and returns how many could not be skipped.", "quantifier": "all readers, byte sequences, positions, offsets, lengths and sizes of pieces", "why_tests_cant": "Readers may return fewer bytes than asked for in any call, and lengths are unbounded; the tests do not call these functions.", "anchors": ["jxlio/IOHelper.go:ReadFullyWithOffset", "jxlio/IOHelper.go:ReadFully", "jxlio/IOHelper.go:SkipFully"]}
{"id": "C112", "title": "Extremes, iterators and comparisons of util", "statement": "Max and Min give the greatest and least of their arguments, the first NaN if there is one, and zero of no arguments; Clamp3Float32 gives the nearest value between two bounds in any order; RangeIterator visits the points of a range row by row; CompareMatrix3D and Matrix3Equal tell whether two arrays have the same shape and related or equal elements; FillFloat32 and MakeSliceWithDefault set exactly the elements asked for.", "quantifier": "all types with a total order, argument lists, bounds, ranges with coordinates below 2^31 - 1, arrays of all shapes and indices", "why_tests_cant": "Argument lists, ranges and shapes are unbounded; the tests use a few short lists and arrays of one shape and do not call the iterator.", "anchors": ["util/MathsHelper.go:Max", "util/MathsHelper.go:Min", "util/MathsHelper.go:Clamp3Float32", "util/MathsHelper.go:Matrix3Equal", "util/MathsHelper.go:MakeSliceWithDefault", "util/RangeInterator.go:RangeIterator", "util/misc.go:CompareMatrix3D", "util/misc.go:FillFloat32"]}
{"id": "C113", "title": "Access to the channels of decoded images", "statement": "The samples that SetIntChannelData or SetFloatChannelData set are got back by the matching Get function and shown by ToImage, nothing else of the image changes, samples that do not fit the image are refused, indices without a channel give errors, and the kind of every image can be asked for.", "quantifier": "all images, channels, indices, sample arrays and decisions of the colour conversion", "why_tests_cant": "Images, indices and sample arrays are unbounded; the tests call none of these functions.", "anchors": ["core/jxl_image.go:GetFloatChannelData", "core/jxl_image.go:SetFloatChannelData", "core/jxl_image.go:GetIntChannelData", "core/jxl_image.go:SetIntChannelData", "core/jxl_image.go:GetExtraChannelType", "core/jxl_image.go:IsIntBased", "core/jxl_image.go:IsFloatBased", "core/jxl_image.go:NumExtraChannels"]}
{"id": "C114", "title": "Comparisons of parameters and channels", "statement": "DCTParam.Equals, OpsinInverseMatrix.Matches, CIEPrimaries.Matches and ImageBufferSliceEquals tell whether their arguments have the same shapes and the same values (chromaticities: less than 0.0001 apart); each value is equal to itself, the order of the arguments does not matter and equality is transitive.", "quantifier": "all parameter sets, matrices of any shape, biases, chromaticities that are multiples of 10^-6, and channels", "why_tests_cant": "Shapes and values are unbounded, and values may be NaN; the tests compare a few sets with one difference each.", "anchors": ["frame/dctparams.go:Equals", "colour/OpsinInverseMatrix.go:Matches", "colour/CIEPrimaries.go:Matches", "colour/CIEXY.go:Matches", "image/imagebuffer.go:ImageBufferSliceEquals", "util/misc.go:CompareMatrix2D"]}
{"id": "C115", "title": "The two-dimensional pool", "statement": "A matrix that the two-dimensional pool gives has the size asked for and samples 0 and shares no row with the matrices in use or in the pool; a matrix that is put back can be given again; the metrics tell how many requests were served from the pool and how many made a new matrix.", "quantifier": "all histories of requests, writes and returns of a program that returns only matrices it holds, all sizes and all choices of sync.Pool", "why_tests_cant": "Histories and sizes are unbounded and the choices of sync.Pool are not under control of a test; the test of the package gets one matrix twice.", "anchors": ["util/buffer_pool.go:Matrix2DPool.Get", "util/buffer_pool.go:Matrix2DPool.Put", "util/buffer_pool.go:GetMetrics"]}
