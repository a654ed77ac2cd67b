{"id": "C01", "title": "Signed varint round trip", "statement": "encodeVarint64 followed by decodeVarint returns the same int64 and consumes exactly the bytes written (1 to 10), whatever bytes follow, for every int64 except INT64_MIN; INT64_MIN is emitted as the single byte 0 (the NaN marker), which decodeVarint rejects.", "quantifier": "all 2^64 values and all trailing byte strings", "why_tests_cant": "2^64 inputs; the one failing value is not found by sampling", "anchors": ["cloudini_lib/include/cloudini_lib/encoding_utils.hpp: encodeVarint64, decodeVarint"]}
{"id": "C02", "title": "Signed varint decoder is total, in-bounds and agrees with the plain loop", "statement": "On any byte buffer of any length decodeVarint either returns a value and a consumed count between 1 and max_size or throws; it never inspects a byte at or past max_size, its result depends only on the consumed bytes, and its one/two byte fast paths agree with the general loop.", "quantifier": "all byte strings and all max_size", "why_tests_cant": "unbounded hostile inputs", "anchors": ["cloudini_lib/include/cloudini_lib/encoding_utils.hpp: decodeVarint"]}
{"id": "C03", "title": "Unsigned varint round trip and strictness", "statement": "Unsigned run-length varints written by the V5 encoder are read back exactly with the following bytes untouched for every uint64; the reader throws on truncated input and never consumes more than ten bytes.", "quantifier": "all uint64 values, all trailing bytes, all hostile byte strings", "why_tests_cant": "2^64 inputs", "anchors": ["cloudini_lib/src/v5_codec.cpp: appendUVarint, readUVarint, encodedUVarintSize"]}
{"id": "C04", "title": "Integer fields are lossless through delta coding", "statement": "Feeding any sequence of values of an INT16..UINT64 field to the integer field encoder and the produced bytes to the integer field decoder reproduces each value's bytes exactly, provided no two consecutive values differ by exactly 2^63 modulo 2^64 (previous value of the first is 0). For 16 and 32 bit types the proviso always holds; for 64 bit types it can fail and then decoding throws.", "quantifier": "all value sequences of any length, all six integer types", "why_tests_cant": "unbounded histories; failing pair is a needle in 2^128", "anchors": ["cloudini_lib/include/cloudini_lib/field_encoder.hpp: FieldEncoderInt", "cloudini_lib/include/cloudini_lib/field_decoder.hpp: FieldDecoderInt"]}
{"id": "C05", "title": "XOR float coding is bit exact", "statement": "For every sequence of 32-bit or 64-bit patterns (NaN payloads, infinities, signed zeros included), XOR encoding then decoding returns the identical patterns and consumes exactly what was written.", "quantifier": "all sequences of bit patterns", "why_tests_cant": "unbounded sequences of 2^64 patterns", "anchors": ["cloudini_lib/include/cloudini_lib/field_encoder.hpp: FieldEncoderFloat_XOR", "cloudini_lib/include/cloudini_lib/field_decoder.hpp: FieldDecoderFloat_XOR"]}
{"id": "C06", "title": "Gorilla double coding is bit exact", "statement": "For every sequence of 64-bit patterns, the Gorilla field encoder followed by the Gorilla field decoder returns identical patterns, consumes exactly the bytes written, and each value takes between 1 and 10 bytes.", "quantifier": "all sequences of 64-bit patterns of any length", "why_tests_cant": "window reuse depends on the whole history", "anchors": ["cloudini_lib/include/cloudini_lib/field_encoder.hpp: FieldEncoderFloat_Gorilla", "cloudini_lib/include/cloudini_lib/field_decoder.hpp: FieldDecoderFloat_Gorilla, getBits"]}
{"id": "C07", "title": "Lossy scalar float fields reproduce the quantised value and NaN", "statement": "For FLOAT32/FLOAT64 fields with a resolution, decoding returns for every non-NaN sample exactly resolution*round(sample/resolution) as computed in floating point, independently of all other samples, and a NaN sample decodes as NaN, in every sequence in which the quantised values and their consecutive differences stay inside int64.", "quantifier": "all sample sequences mixing NaN and finite values", "why_tests_cant": "the delta state must resynchronise after any NaN pattern", "anchors": ["cloudini_lib/include/cloudini_lib/field_encoder.hpp: FieldEncoderFloat_Lossy::encode", "cloudini_lib/include/cloudini_lib/field_decoder.hpp: FieldDecoderFloat_Lossy::decode"]}
{"id": "C08", "title": "Grouped XYZ(I) lossy coding reproduces the quantised values and NaN", "statement": "For three or four leading FLOAT32 fields with resolutions, each lane decodes to its own quantised value (saturating to the int32 sentinel when out of range), lane NaNs decode to NaN, lanes do not influence each other, for every sequence of points.", "quantifier": "all sequences of 3/4-lane points, any NaN pattern", "why_tests_cant": "cross-lane and cross-point state", "anchors": ["cloudini_lib/src/field_encoder.cpp: FieldEncoderFloatN_Lossy::encode", "cloudini_lib/src/field_decoder.cpp: FieldDecoderFloatN_Lossy::decode", "cloudini_lib/include/cloudini_lib/intrinsics.hpp"]}
{"id": "C09", "title": "Quantisation error bound", "statement": "A finite sample x of a FLOAT32 or FLOAT64 field with a resolution r between 2^-100 and 2^60 comes back from encode and decode finite and at most r/2 + u*(5|x| + 2r) away from x, with u = 2^-24 for float and 2^-53 for double, as long as |x| is at most 2^30 r (2^62 r outside the leading vector group); so within one step up to 2^20 r (2^49 r). The plain bound of r/2 is false: with 1 mm a sample at 75 m can move by more than 0.5 mm and one at 92 km by more than 7 mm.", "quantifier": "all float and double samples, all resolutions in range, SSE and scalar builds, every point of every cloud", "why_tests_cant": "2^64 sample/resolution pairs", "anchors": ["cloudini_lib/include/cloudini_lib/basic_types.hpp: PointField::resolution", "cloudini_lib/include/cloudini_lib/field_encoder.hpp", "cloudini_lib/src/field_encoder.cpp"]}
{"id": "C10", "title": "V4 chunk round trip", "statement": "Any chunk of points encoded with the V4 stage-1 encoder decodes, given the point count, to exactly the same field bytes for lossless fields and the quantised image for lossy ones, consuming the whole chunk.", "quantifier": "all field layouts, encoding options and versions 3..5, all point contents and counts", "why_tests_cant": "unbounded layouts and data", "anchors": ["cloudini_lib/src/v4_codec.cpp: EncodeV4Stage1Chunk, DecodeV4Stage1Chunk"]}
{"id": "C11", "title": "V5 adaptive integer section round trip in every mode", "statement": "Whatever mode (delta, palette, RLE, delta-RLE) is used for an integer column, decoding the section restores every raw value and consumes exactly the section's bytes, for any column of 1 to 32768 values.", "quantifier": "all modes, all integer types, all columns", "why_tests_cant": "mode choice and runs depend on the whole column", "anchors": ["cloudini_lib/src/v5_codec.cpp: appendDeltaVarintSection, appendPaletteSection, appendRleSection, appendDeltaRleSection, decodeV5AdaptiveIntSection"]}
{"id": "C12", "title": "V5 chunk round trip", "statement": "Any chunk encoded with the V5 codec decodes to the same integer and lossless fields bytes and the quantised image of lossy floats, with no trailing bytes.", "quantifier": "all layouts with at least one adaptive integer column, all data", "why_tests_cant": "unbounded", "anchors": ["cloudini_lib/src/v5_codec.cpp: EncodeV5Stage1, DecodeV5Stage1Chunk"]}
{"id": "C13", "title": "Streaming and batch V5 sections are byte-identical", "statement": "The bytes emitted for a column when values are streamed into a committed section equal those emitted when the same mode encodes the whole column at once.", "quantifier": "all modes, all columns, all probe positions", "why_tests_cant": "run boundaries across the probe point", "anchors": ["cloudini_lib/src/v5_codec.cpp: appendCommittedValueToSection, finishCommittedAdaptiveIntSection, beginCommittedAdaptiveIntSection"]}
{"id": "C14", "title": "Palette indexing is correct and terminates", "statement": "The open-addressing palette lookup terminates for every column of every length, gives equal values equal indexes and distinct values distinct indexes, lists every distinct value exactly once in order of first appearance, and does so no matter what previous columns left in the reused hash table.", "quantifier": "all columns and all earlier table contents (generations)", "why_tests_cant": "table state depends on entire history", "anchors": ["cloudini_lib/src/v5_codec.cpp: preparePaletteTable, addPaletteValue, buildPaletteIndexes"]}
{"id": "C15", "title": "Bit-packed index round trip without over-read", "statement": "Indexes packed with the palette bit width unpack to the same indexes, the packed length is ceil(bits*n/8), and the reader never reads beyond that many bytes.", "quantifier": "all index lists and palette sizes up to 65535", "why_tests_cant": "unbounded lists", "anchors": ["cloudini_lib/src/v5_codec.cpp: appendBitpackedIndexes, readBitpackedIndex, bitsForPaletteIndex"]}
{"id": "C16", "title": "Adaptive mode choice is minimal on what it inspected", "statement": "The committed mode's predicted section size is the true section size and is minimal among the four modes for the values inspected; ties prefer delta, then palette, then RLE.", "quantifier": "all inspected columns", "why_tests_cant": "unbounded columns", "anchors": ["cloudini_lib/src/v5_codec.cpp: analyzeAdaptiveIntField, selectBestAdaptiveIntMode"]}
{"id": "C17", "title": "Whole-cloud round trip through the public API", "statement": "For every EncodingInfo with version 3..5, in-range disjoint fields and matching width*height, PointcloudDecoder::decode of the chunks produced by PointcloudEncoder::encode restores every field of every point (bit exact, or the quantised image for lossy floats) and leaves all other output bytes untouched, for uncompressed output and for LZ4/ZSTD whenever each stage-1 chunk is no larger than width*height*point_step.", "quantifier": "all clouds of any number of points, all layouts and options, any correct compressor", "why_tests_cant": "unbounded clouds crossing chunk boundaries", "anchors": ["cloudini_lib/src/cloudini.cpp: PointcloudEncoder::encode, PointcloudDecoder::decode", "cloudini_lib/src/chunk_writer.cpp"]}
{"id": "C18", "title": "Compressed round trip fails when stage-1 expands", "statement": "The decoder sizes its decompression buffer as width*height*point_step, so a cloud whose stage-1 chunk is larger than that (for example one UINT16 point with value >= 64) encodes successfully with LZ4/ZSTD but cannot be decoded.", "quantifier": "exists an input; characterised for all compressors honouring the capacity contract", "why_tests_cant": "needs a tiny or incompressible cloud", "anchors": ["cloudini_lib/src/cloudini.cpp: PointcloudDecoder::decodeChunk", "cloudini_lib/src/codec_common.cpp: DecompressChunk"]}
{"id": "C19", "title": "Reusing an encoder or decoder object never changes results", "statement": "The bytes produced by encode depend only on the EncodingInfo and the cloud passed, not on earlier encode calls on the same encoder, including calls that failed; the same holds for the decoder.", "quantifier": "all histories of earlier calls", "why_tests_cant": "histories are unbounded", "anchors": ["cloudini_lib/src/cloudini.cpp: PointcloudEncoder::encode, PointcloudDecoder::decode", "cloudini_lib/src/codec_common.cpp: ResetEncoders, ResetDecoders"]}
{"id": "C20", "title": "Chunks are independently decodable", "statement": "Each 32768-point chunk's stage-1 bytes decode on their own to that chunk's points, with no dependence on preceding chunks' contents.", "quantifier": "all clouds, all chunk indexes", "why_tests_cant": "state carry-over between chunks", "anchors": ["cloudini_lib/src/v4_codec.cpp", "cloudini_lib/src/v5_codec.cpp"]}
{"id": "C21", "title": "Encoder output depends only on field bytes", "statement": "Two clouds that agree on every declared field produce identical encoded bytes, whatever the padding bytes contain.", "quantifier": "all pairs of clouds agreeing on fields", "why_tests_cant": "relational over two clouds", "anchors": ["cloudini_lib/src/v4_codec.cpp", "cloudini_lib/src/v5_codec.cpp", "cloudini_lib/src/codec_common.cpp"]}
{"id": "C22", "title": "Chunk framing: counts and rejection", "statement": "The encoder emits exactly ceil(points/32768) chunks, each a 4-byte little-endian size followed by that many bytes; the decoder throws when chunks are missing, when bytes follow the last declared point, or when a chunk size exceeds the remaining data.", "quantifier": "all clouds and all byte strings given to the decoder", "why_tests_cant": "unbounded", "anchors": ["cloudini_lib/src/cloudini.cpp: PointcloudEncoder::encode, PointcloudDecoder::decode", "cloudini_lib/src/chunk_writer.cpp: WriteStage1Chunk"]}
{"id": "C23", "title": "Threaded encoding equals single-threaded encoding under every schedule", "statement": "With use_threads, for every interleaving of caller and compression worker, encode returns the same size and bytes as without threads.", "quantifier": "all schedules, all numbers of chunks", "why_tests_cant": "schedules cannot be enumerated by tests", "anchors": ["cloudini_lib/src/cloudini.cpp: PointcloudEncoder::compressionWorker, waitForCompressionComplete, encode"]}
{"id": "C24", "title": "Threaded encoding cannot deadlock and reports worker failure", "statement": "From every reachable state some thread can step until encode has returned or thrown; if the compressor fails on any chunk, encode throws; the destructor always terminates the worker; a failed encoder can be reused and then behaves like a fresh one.", "quantifier": "all schedules, all failing chunk indexes", "why_tests_cant": "schedules and lost wake-ups", "anchors": ["cloudini_lib/src/cloudini.cpp: compressionWorker, waitForCompressionComplete, ~PointcloudEncoder, encode"]}
{"id": "C25", "title": "MaxCompressedSize bounds every V4-codec encoding", "statement": "For every layout handled by the V4 codec, the bytes produced never exceed MaxCompressedSize and the encoder never writes outside its stage buffer nor the output.", "quantifier": "all layouts, all cloud contents, any compressor within its own bound", "why_tests_cant": "worst-case inputs are adversarial", "anchors": ["cloudini_lib/src/cloudini.cpp: MaxCompressedSize", "cloudini_lib/src/codec_common.cpp: MaxSerializedFieldSize"]}
{"id": "C26", "title": "MaxCompressedSize is not a bound for the V5 codec", "statement": "A single INT64 column whose first 4096 values are constant commits to delta-RLE, after which alternating values cost 11 bytes per point, so uncompressed encoding of a two-chunk cloud needs more than MaxCompressedSize and throws although the caller allocated what the API asked for.", "quantifier": "existence, with a per-mode bound for all columns", "why_tests_cant": "needs an adversarial column of tens of thousands of points", "anchors": ["cloudini_lib/src/cloudini.cpp: MaxCompressedSize", "cloudini_lib/src/v5_codec.cpp: commitAdaptiveIntMode"]}
{"id": "C27", "title": "encode refuses a too-small output buffer before writing", "statement": "If the caller's buffer is smaller than MaxCompressedSize (plus header when requested) encode throws and leaves the buffer unchanged; otherwise it never writes outside the buffer and, when no external compressor is used (a compressor may use the room after its result as scratch space), writes only the first returned-size bytes.", "quantifier": "all buffer sizes and clouds", "why_tests_cant": "unbounded", "anchors": ["cloudini_lib/src/cloudini.cpp: PointcloudEncoder::encode"]}
{"id": "C28", "title": "Binary header round trip", "statement": "For every EncodingInfo with versions 2..5, fewer than 65536 fields, names shorter than 65536 bytes and resolutions absent or positive, DecodeHeader of the BINARY header returns the same info (encoding_config and use_threads are not stored) and leaves the following bytes, provided the width's lowest byte is not 10 or its second byte is 0x7B.", "quantifier": "all infos, all trailing bytes", "why_tests_cant": "unbounded fields and names", "anchors": ["cloudini_lib/src/cloudini.cpp: EncodeHeader, DecodeHeader, ComputeHeaderSize"]}
{"id": "C29", "title": "Binary header with width 10 is misread", "statement": "A valid BINARY header whose width is 10 is taken for a YAML header by DecodeHeader, which does not return the original info.", "quantifier": "existence", "why_tests_cant": "a single width value", "anchors": ["cloudini_lib/src/cloudini.cpp: DecodeHeader"]}
{"id": "C30", "title": "YAML header round trip", "statement": "For every EncodingInfo with versions 2..5 and well-behaved names, DecodeHeader of the default (YAML) header returns the same width, height, point_step, options, encoding_config and fields (name, offset, type, presence of resolution) and leaves the following bytes.", "quantifier": "all infos with printable names, all trailing bytes", "why_tests_cant": "unbounded field lists and names", "anchors": ["cloudini_lib/src/cloudini.cpp: EncodingInfoToYAML, EncodingInfoFromYAML", "cloudini_lib/include/cloudini_lib/yaml_parser.hpp"]}
{"id": "C31", "title": "YAML header does not preserve every EncodingInfo", "statement": "Resolutions with more than six significant digits, names containing '#' or surrounded by spaces, and fields of type UNKNOWN are not restored by the default header.", "quantifier": "existence", "why_tests_cant": "special characters and digits", "anchors": ["cloudini_lib/src/cloudini.cpp: EncodingInfoToYAML, EncodingInfoFromYAML", "cloudini_lib/include/cloudini_lib/yaml_parser.hpp: trim"]}
{"id": "C32", "title": "DecodeHeader is safe on arbitrary bytes", "statement": "On any byte string DecodeHeader either throws or returns an info having consumed a prefix of the input; it never reads outside the input; wrong magic or versions outside 2..5 are always rejected.", "quantifier": "all byte strings", "why_tests_cant": "hostile inputs", "anchors": ["cloudini_lib/src/cloudini.cpp: DecodeHeader", "cloudini_lib/include/cloudini_lib/encoding_utils.hpp: decode"]}
{"id": "C33", "title": "Decoder memory safety on truncated or hostile chunks", "statement": "With encoding NONE and a well-formed header, decoding any byte string never reads outside the chunk nor writes outside the output; with the lossy V4 and V5 codecs a truncated chunk can make the decoder read past the end of its input.", "quantifier": "all byte strings (positive part); existence (negative part)", "why_tests_cant": "hostile inputs", "anchors": ["cloudini_lib/src/v4_codec.cpp: DecodeV4Stage1Chunk", "cloudini_lib/src/v5_codec.cpp: DecodeV5Stage1Chunk", "cloudini_lib/include/cloudini_lib/field_decoder.hpp"]}
{"id": "C34", "title": "Decoder trusts field offsets", "statement": "A header whose field offset+size exceeds point_step makes the decoder write outside the output buffer (and the encoder read outside its input); when every field lies inside the point, all accesses of encode are in bounds.", "quantifier": "all clouds (positive part); existence (negative part)", "why_tests_cant": "hostile header", "anchors": ["cloudini_lib/include/cloudini_lib/field_decoder.hpp", "cloudini_lib/src/v4_codec.cpp", "cloudini_lib/src/cloudini.cpp"]}
{"id": "C35", "title": "Skipped fields are decoded but not stored", "statement": "With the V4 codec, a field whose offset is the skip marker is consumed from the stream, leaves the output untouched and does not disturb the other fields; with the V5 codec a skipped integer field is written out of bounds.", "quantifier": "all layouts and data (V4); existence (V5)", "why_tests_cant": "combinations of skipped fields", "anchors": ["cloudini_lib/include/cloudini_lib/basic_types.hpp: kDecodeButSkipStore", "cloudini_lib/include/cloudini_lib/field_decoder.hpp", "cloudini_lib/src/v5_codec.cpp: decodeV5AdaptiveIntSection", "cloudini_lib/include/cloudini_lib/pcl_conversion.hpp: PointcloudDecode"]}
{"id": "C36", "title": "RLE run-length overflow", "statement": "A hostile RLE or delta-RLE section with a run length close to 2^64 passes the point-count check after at least one point was produced and makes the decoder write far outside the output.", "quantifier": "existence; absence proved for run lengths below 2^63", "why_tests_cant": "needs a crafted 10-byte varint", "anchors": ["cloudini_lib/src/v5_codec.cpp: decodeV5AdaptiveIntSection"]}
{"id": "C37", "title": "Gorilla decoder shift overflow on hostile input", "statement": "A crafted Gorilla stream makes the decoder shift a 64-bit value by 64 or more (undefined behaviour); streams produced by the encoder never do.", "quantifier": "existence; absence for all encoder outputs", "why_tests_cant": "crafted control bits", "anchors": ["cloudini_lib/include/cloudini_lib/field_decoder.hpp: FieldDecoderFloat_Gorilla::decode"]}
{"id": "C38", "title": "Encoder/decoder dispatch agree", "statement": "For every field, encoding option and version 3..5, the decoder selected from the header is the inverse of the encoder selected from the same info, with identical grouping of leading floats and identical V4/V5 codec choice.", "quantifier": "all infos", "why_tests_cant": "all combinations", "anchors": ["cloudini_lib/src/codec_common.cpp: CreateCompatibleEncoder, CreateCompatibleDecoder, LeadingLossyFloatFieldCount", "cloudini_lib/src/v5_codec.cpp: UsesV5Codec", "cloudini_lib/src/v4_codec.cpp"]}
{"id": "C39", "title": "Version 2 output is not readable by the version 2 decoder", "statement": "An encoder asked for version 2 emits chunk size prefixes that the version 2 decoder treats as payload, so the round trip fails.", "quantifier": "existence", "why_tests_cant": "legacy path", "anchors": ["cloudini_lib/src/cloudini.cpp: PointcloudEncoder::encode, PointcloudDecoder::decode"]}
{"id": "C40", "title": "Empty clouds round trip", "statement": "Encoding zero points yields no chunks and decoding zero declared points from no bytes succeeds and leaves the output unchanged, for every layout and option.", "quantifier": "all infos", "why_tests_cant": "all layouts", "anchors": ["cloudini_lib/src/cloudini.cpp"]}
{"id": "C41", "title": "CDR primitives round trip with alignment", "statement": "Any sequence of primitive values, strings and byte arrays written by the CDR encoder is read back identically by the CDR decoder with matching byte order and alignment.", "quantifier": "all sequences of typed values, both byte orders", "why_tests_cant": "alignment depends on the whole prefix", "anchors": ["cloudini_lib/include/cloudini_lib/contrib/nanocdr.hpp"]}
{"id": "C42", "title": "PointCloud2 message round trip", "statement": "Serialising a PointCloud2 (header, fields, dimensions, data) to little-endian CDR and parsing it returns the same content; converting it to a compressed message and back preserves stamp, frame id, dimensions, fields and density flag.", "quantifier": "all messages", "why_tests_cant": "unbounded strings, fields and data", "anchors": ["cloudini_lib/src/ros_msg_utils.cpp", "cloudini_lib/include/cloudini_lib/ros_msg_utils.hpp"]}
{"id": "C43", "title": "Big-endian compressed message is corrupted", "statement": "With a big-endian CDR header, the compressed payload length is patched in little-endian order and cannot be parsed back.", "quantifier": "existence", "why_tests_cant": "endianness path untested", "anchors": ["cloudini_lib/src/ros_msg_utils.cpp: convertPointCloud2ToCompressedCloud"]}
{"id": "C44", "title": "Visualisation preprocessing keeps a faithful subset", "statement": "applyVizLossyPreprocessing outputs an order-preserving subsequence of the input points, each with finite coordinates, keeps the first point of every voxel and only that one, and reports the matching width/height.", "quantifier": "all clouds", "why_tests_cant": "unbounded clouds", "anchors": ["cloudini_lib/src/ros_msg_utils.cpp: applyVizLossyPreprocessing, packVoxelKey21"]}
{"id": "C45", "title": "Voxel key injectivity range", "statement": "Distinct voxel coordinates in [-2^20, 2^20-1]^3 have distinct keys; outside that range distinct voxels can collide.", "quantifier": "all coordinate triples in range; existence outside", "why_tests_cant": "2^63 triples", "anchors": ["cloudini_lib/src/ros_msg_utils.cpp: packVoxelKey21"]}
{"id": "C46", "title": "Resolution profile semantics", "statement": "applyResolutionProfile gives each field whose name is listed (of any type) the listed resolution, gives the default resolution to every unlisted FLOAT32 field when there is a default, removes exactly the fields listed with resolution 0 (or -0), and leaves all others unchanged and in order.", "quantifier": "all profiles and field lists", "why_tests_cant": "unbounded profiles", "anchors": ["cloudini_lib/src/ros_msg_utils.cpp: applyResolutionProfile"]}
{"id": "C47", "title": "Cloud message copies and moves keep a valid data view", "statement": "After any sequence of copy/move constructions and assignments of RosPointCloud2 objects, each live object's data view refers to its own owned storage or to the external buffer it was given, with the same contents.", "quantifier": "all histories of copies and moves", "why_tests_cant": "aliasing bugs depend on history", "anchors": ["cloudini_lib/include/cloudini_lib/ros_msg_utils.hpp: RosPointCloud2"]}
{"id": "C48", "title": "Cutter keeps exactly the first N messages per channel", "statement": "The MCAP cutter writes, for each channel, its first N messages in original order and nothing else.", "quantifier": "all message sequences and N", "why_tests_cant": "unbounded sequences", "anchors": ["cloudini_lib/tools/src/mcap_cutter.cpp"]}
{"id": "C49", "title": "PCD header parsing", "statement": "For PCD text headers ReadEncodingInfoFromPCD yields exactly the map from each declared field name to the type its SIZE and TYPE entries denote, wherever other header lines stand, and rejects headers whose FIELDS, SIZE and TYPE counts differ; a leading comment line (as PCL itself writes) yields the empty map and 8-byte floats or signed integers the unknown type.", "quantifier": "all headers (positive part); existence (negative part)", "why_tests_cant": "unbounded headers", "anchors": ["cloudini_lib/src/pcl_conversion.cpp: ReadEncodingInfoFromPCD"]}
{"id": "C50", "title": "Object pool never exceeds its limit nor leaks a cloud to two owners", "statement": "In every history of messages (valid or corrupt), uses and releases of delivered clouds, the PCL subscriber's pool never holds more than four clouds, never hands out a cloud somebody still holds, loses no cloud, and delivers for each valid message exactly its decoded cloud, whatever the pooled object held before; no memory error occurs as long as every cloud is released before the subscriber is destroyed. A cloud released after that is a use after free, and a delivered cloud never carries its message's stamp and frame id but those an earlier holder left (counterexamples).", "quantifier": "all histories of messages, uses, releases and destruction", "why_tests_cant": "histories", "anchors": ["cloudini_ros/src/cloudini_subscriber_pcl.cpp: CloudiniSubscriberPCL::acquireCloudFromPool, messageCallback, ~CloudiniSubscriberPCL"]}
{"id": "C51", "title": "Encoded size never reveals mode-dependent desynchronisation", "statement": "The first bytes of a V5 chunk (regular fields) are independent of the integer columns, and each section's mode byte fully determines how it is read: decoding never depends on the encoder's probe size.", "quantifier": "all probe sizes and columns", "why_tests_cant": "probe boundary", "anchors": ["cloudini_lib/src/v5_codec.cpp"]}
{"id": "C52", "title": "WASM entry points never exceed the declared message size", "statement": "For every properly laid out cloud the WebAssembly encoders write at most as many bytes as their input has, leave the memory behind untouched, and return 0 or the size of a valid stream; decoding such a stream into a memory of the cloud's size writes exactly the restored points or returns 0. The contract fails when a hostile message understates its size (decoder writes beyond cldn_GetDecompressedSize), when point_step is 0 (division by zero), when cldn_DecodeCompressedMessage gets malformed input (escaping exception) and for cldn_ComputeCompressedSize of an incomplete cloud (counterexamples).", "quantifier": "all messages, clouds, resolutions and memories; existence for the negative parts", "why_tests_cant": "hostile sizes", "anchors": ["cloudini_lib/src/wasm_functions.cpp"]}
{"id": "C53", "title": "No data race in the threaded encoder", "statement": "With use_threads, in no schedule of any sequence of encode calls (successful or failing) do the caller and the compression worker access the output buffer, the output view, the scratch buffers or the size counter in conflict, nor does either leave the output buffer; the one exception is reuse of the object after an exception thrown by stage 1 itself while a chunk is in flight.", "quantifier": "all schedules, all sequences of calls", "why_tests_cant": "races need a particular interleaving", "anchors": ["cloudini_lib/src/cloudini.cpp: PointcloudEncoder::compressionWorker, encode"]}
{"id": "C54", "title": "Recording conversion keeps every message", "statement": "Converting an MCAP recording (compress, decompress, or one after the other) writes one message per input message, in the same order, on the same topic with the same times; messages that are not point clouds are bit-identical and clouds become exactly what the single-message conversion yields. Channel metadata, attachments and channels without a schema are not kept (counterexamples).", "quantifier": "all recordings; existence for the losses", "why_tests_cant": "unbounded message sequences", "anchors": ["cloudini_lib/tools/src/mcap_converter.cpp: McapConverter::encodePointClouds, decodePointClouds, duplicateSchemasAndChannels"]}
{"id": "C55", "title": "Resolution profile texts", "statement": "Every profile text that lists name:resolution entries separated by ';' is parsed to exactly that map, a malformed entry is reported as an error, and a trailing ';' or a profile file with line breaks is not accepted as the documentation suggests.", "quantifier": "all entry lists; existence for the negative parts", "why_tests_cant": "unbounded profile strings", "anchors": ["cloudini_lib/tools/src/mcap_converter.cpp: McapConverter::addProfile", "cloudini_lib/tools/src/cloudini_rosbag_converter.cpp"]}
{"id": "C56", "title": "PCL cloud round trip", "statement": "PCLPointCloudEncode followed by PCLPointCloudDecode restores width, height, point step, the fields (name, offset, type) and every field's values up to the requested resolution for every complete PCLPointCloud2 of single-element fields; multi-element fields lose all elements but the first, and a positive resolution too small for a float is accepted by the encoder although the stream cannot be decoded (counterexamples).", "quantifier": "all clouds, resolutions and output vectors; existence for the negative parts", "why_tests_cant": "unbounded clouds", "anchors": ["cloudini_lib/src/pcl_conversion.cpp: PCLPointCloudEncode, PCLPointCloudDecode, ConvertToEncodingInfo"]}
{"id": "C57", "title": "Typed PCL clouds", "statement": "Encoding a pcl::PointCloud<PointXYZ> or <PointXYZI> and decoding it into the same type always succeeds and restores every coordinate; decoding any stream of points of PointT's size into pcl::PointCloud<PointT> gives every member of PointT present in the stream its decoded value and leaves other bytes untouched; a member whose stream type is not float is reported as an error; a stream with smaller points is silently decoded into the wrong places (counterexample).", "quantifier": "all clouds, streams and point types; existence for the negative part", "why_tests_cant": "unbounded clouds", "anchors": ["cloudini_lib/include/cloudini_lib/pcl_conversion.hpp: PointcloudEncode, PointcloudDecode", "cloudini_lib/src/pcl_conversion.cpp"]}
{"id": "C58", "title": "WASM header text", "statement": "cldn_GetHeaderAsYAML returns exactly the header's text for every stream with a YAML header; but a stream that cldn_EncodePointcloudData makes from such a text can never be decoded again, because the version is stored as a character code.", "quantifier": "all headers, clouds and memories", "why_tests_cant": "unbounded headers", "anchors": ["cloudini_lib/src/wasm_functions.cpp: cldn_GetHeaderAsYAML, cldn_EncodePointcloudData", "cloudini_lib/src/cloudini.cpp: EncodingInfoFromYAML"]}
{"id": "C59", "title": "Decoding changes only the declared fields", "statement": "Whatever the data (from this encoder, another one, or forged), when decode returns normally every byte of the output buffer outside the stored fields of the declared width*height points is unchanged and the buffer keeps its size; with fields inside the point nothing past the declared points changes, so a decoder may write into the middle of a larger buffer. A buffer without room for every declared point is never accepted. Data of versions 1 and 2 changes only bytes of fields as well (for as many points as the data holds).", "quantifier": "all data, layouts with a positive point step (integer columns not skipped with the version-5 codec), scratch and output buffers", "why_tests_cant": "hostile data of unbounded length; a test sees one buffer", "anchors": ["cloudini_lib/src/cloudini.cpp: PointcloudDecoder::decode, decodeChunk", "cloudini_lib/src/v4_codec.cpp: DecodeV4Stage1Chunk", "cloudini_lib/src/v5_codec.cpp: DecodeV5Stage1Chunk, decodeV5AdaptiveIntSection", "cloudini_lib/include/cloudini_lib/field_decoder.hpp"]}
{"id": "C60", "title": "Decoded fields depend on the data only", "statement": "Whatever the data, whether decode succeeds and the bytes of every stored field of every declared point do not depend on what the output buffer held: decoding into any other buffer of the same size succeeds too and gives the same field bytes, and decoding again over the result changes nothing.", "quantifier": "all data, layouts and pairs of output buffers", "why_tests_cant": "unbounded data and buffer contents", "anchors": ["cloudini_lib/src/cloudini.cpp: PointcloudDecoder::decode", "cloudini_lib/src/v4_codec.cpp: DecodeV4Stage1Chunk", "cloudini_lib/src/v5_codec.cpp: DecodeV5Stage1Chunk"]}
{"id": "C61", "title": "point_cloud_transport plugin round trip", "statement": "A complete PointCloud2 that the publisher plugin encodes comes back from the subscriber plugin with the same header, dimensions, fields (counts included), steps and density, every field value restored up to the resolution and zeros elsewhere, whatever the subscriber decoded before; decoding may only throw when the scratch buffer is too small for the worst chunk. A big-endian cloud comes back marked little-endian with its bytes unswapped, and a cloud with padded rows is published but can be decoded by nobody (counterexamples).", "quantifier": "all complete clouds, resolutions and decoder scratch contents; existence for the negative parts", "why_tests_cant": "unbounded clouds and histories", "anchors": ["cloudini_ros/src/cloudini_publisher_plugin.cpp: CloudiniPublisher::encodeTyped", "cloudini_ros/src/cloudini_subscriber_plugin.cpp: CloudiniSubscriber::decodeTyped", "cloudini_lib/tools/src/mcap_cutter.cpp: ConvertToEncodingInfo"]}
{"id": "C62", "title": "Subscriber plugin trusts nothing it has not compared", "statement": "For every CompressedPointCloud2 message, forged ones included, if the subscriber plugin returns a cloud then the stream inside declares exactly the message's width, height, point step and fields (number, names, offsets, types), the cloud carries these, and for streams that state their point count its data has exactly width*height*point_step bytes although the size is computed in 32 bits.", "quantifier": "all messages and scratch buffers", "why_tests_cant": "hostile messages", "anchors": ["cloudini_ros/src/cloudini_subscriber_plugin.cpp: CloudiniSubscriber::decodeTyped"]}
{"id": "C63", "title": "Converter node round trip", "statement": "A compressing converter node followed by a decompressing one republishes every complete little-endian PointCloud2 with the same stamp, frame, dimensions, fields (count 1), point step and density, row_step normalised and every value restored up to the resolution, both messages being valid CDR serialisations of their ROS types; without subscribers nothing is published or read. A message with a field outside its point makes the node read outside the message (counterexample).", "quantifier": "all messages, resolutions; existence for the negative part", "why_tests_cant": "unbounded messages", "anchors": ["cloudini_ros/src/topic_converter.cpp: CloudiniPointcloudConverter::callback", "cloudini_lib/src/ros_msg_utils.cpp"]}
{"id": "C64", "title": "Plugin, node and serialiser interoperate", "statement": "What the publisher plugin sends is decompressed by the converter node, and what the node or SerializeCompressedPointCloud2 produces for a cloud with points is decoded by the subscriber plugin (and read by ReadEncodingInfo), each restoring the cloud. An empty cloud sent by the node is rejected by the plugin, and ReadEncodingInfo rejects every message of the plugin because its format string is empty (counterexamples).", "quantifier": "all complete clouds and resolutions; existence for the negative parts", "why_tests_cant": "unbounded clouds, two senders times two receivers", "anchors": ["cloudini_ros/src/cloudini_publisher_plugin.cpp", "cloudini_ros/src/cloudini_subscriber_plugin.cpp", "cloudini_ros/src/topic_converter.cpp", "cloudini_lib/tools/src/mcap_cutter.cpp: SerializeCompressedPointCloud2, ReadEncodingInfo, ConvertToRosPointCloud2"]}
{"id": "C65", "title": "Quality of service of the converter node", "statement": "When publishers exist, the QoS the converter node requests is compatible with every one of them and is the strongest such (reliability and durability). Started before its publisher, it requests reliable delivery and will not match a best-effort publisher (counterexample).", "quantifier": "all lists of publisher endpoints; existence for the negative part", "why_tests_cant": "unbounded endpoint lists", "anchors": ["cloudini_ros/src/topic_converter.cpp: adapt_request_to_offers"]}
{"id": "C66", "title": "Python decoder", "statement": "For every message whose stream the library decodes, CloudiniDecoder.decode_message returns the header's width, height, point step and fields and a structured array with one row per point and one column per field, each cell being the decoded bytes of that field with its numpy type, whatever the order of the fields; together with the encoder this is a round trip. 64-bit integer fields silently become one-byte columns, an empty cloud raises an error, and a header text longer than 4096 bytes is written past its buffer (counterexamples).", "quantifier": "all headers of printable names within the type table, clouds, buffers; existence for the negative parts", "why_tests_cant": "unbounded headers and clouds", "anchors": ["cloudini_py/cloudini_decoder.py: CloudiniDecoder.decode_message, get_header_info, extract_data_from_pc2_msg, bytes_to_numpy", "cloudini_lib/src/wasm_functions.cpp: cldn_DecodeCompressedMessage, cldn_GetHeaderAsYAMLFromDDS"]}
{"id": "C67", "title": "Builds with and without SSE4.1 interoperate", "statement": "Decoding gives the same result on a build with SSE4.1 and on a portable build for every input, so a cloud encoded on one machine is restored on any other as the encoding machine would restore it. The two builds also produce identical streams unless a coordinate of the leading 3- or 4-lane float group lies exactly half way between two steps; on such a tie the streams differ (counterexample).", "quantifier": "all data, clouds, layouts, encoder histories; existence for the negative part", "why_tests_cant": "all inputs on two builds; a test run exercises one build", "anchors": ["cloudini_lib/include/cloudini_lib/intrinsics.hpp: Vector4f, Vector4i", "cloudini_lib/src/field_encoder.cpp: FieldEncoderFloatN_Lossy::encode", "cloudini_lib/include/cloudini_lib/field_decoder.hpp"]}
{"id": "C68", "title": "Recompression is lossless", "statement": "A decompressed cloud compressed again with the same settings gives byte for byte the first stream (so any number of compress/decompress generations loses nothing after the first), on any combination of builds, as long as every lossy sample is a NaN or at most 2^20 steps from zero (2^49 for double fields). Farther away (4.2 km at 1 mm) the second generation differs (counterexample).", "quantifier": "all clouds within the range, layouts, encoder and decoder histories, three builds; existence for the negative part", "why_tests_cant": "rounding of every float value and resolution", "anchors": ["cloudini_lib/include/cloudini_lib/field_encoder.hpp: FieldEncoderFloat_Lossy", "cloudini_lib/include/cloudini_lib/field_decoder.hpp: FieldDecoderFloat_Lossy", "cloudini_lib/src/field_encoder.cpp", "cloudini_lib/src/field_decoder.cpp", "cloudini_lib/src/cloudini.cpp"]}
{"id": "C69", "title": "Bag metadata rewriting", "statement": "For every metadata.yaml text and new file name the bag converter terminates and writes the text with every occurrence of \"type: <old cloud type>\" replaced by the new type (none is left), then every occurrence of the first listed .mcap name replaced by the new name, left to right; line by line: the number and order of lines are kept and a line with neither is byte for byte unchanged; type lines and the listed file line become exactly the expected ones. Compressing and decompressing back under the old name restores the file. A type that only begins with the cloud type, an inline empty file list, or a one-letter file name corrupt other entries (counterexamples).", "quantifier": "all texts, file names and both directions; existence for the negative parts", "why_tests_cant": "unbounded texts; string search corner cases", "anchors": ["cloudini_lib/tools/src/cloudini_rosbag_converter.cpp: replaceAll, generateMetadataYaml"]}
{"id": "C70", "title": "The bag converter keeps the original bag", "statement": "For every file system without symbolic links, command line and conversion outcome: if the input is a bag (directory, or .mcap with a sibling metadata.yaml) and the output argument has no \"..\" in its directory part (in particular with the default output), no file directly in the bag's directory is written; with the default output the recording read is never overwritten, bag or not; an existing file is overwritten only after -y or a confirmation, except metadata.yaml beside the output; all writes go to one directory; exit status 0 means that the conversion worked and the output was written, or that no file was written because there was nothing to convert or the user declined; a lone recording x.mcap becomes x_encoded.mcap (x_decoded.mcap) in the current directory, whatever dots are in x. With \"..\" through a directory that does not exist yet the original metadata.yaml is overwritten without a question, -o naming a lone input overwrites it, and a run from inside the bag directory on the bare file name dies from an uncaught exception (counterexamples).", "quantifier": "all file systems, options, answers, conversion outcomes; existence for the negative parts", "why_tests_cant": "unbounded file systems and paths", "anchors": ["cloudini_lib/tools/src/cloudini_rosbag_converter.cpp: main"]}
{"id": "C71", "title": "The cutter and the PCD converter and their files", "statement": "The cutter without -o never writes its input, names its output x_cut.mcap for x.mcap, exits with 0 only if it cut the recording or found no cloud topic, and writes at most one file, only for an existing recording with cloud topics and a positive limit. The PCD converter never writes the .pcd it reads, whatever -o says, overwrites an existing file only with consent and exits with 0 exactly when it wrote its output; in batch mode it writes only the .cldn of each .pcd of the directory, each once, no .pcd, and with -y one for every convertible .pcd. The cutter given its input as output overwrites it without asking (counterexample).", "quantifier": "all file systems, options, answers, conversion outcomes; existence for the negative part", "why_tests_cant": "unbounded directories and paths", "anchors": ["cloudini_lib/tools/src/mcap_cutter.cpp: main", "cloudini_lib/tools/src/pcd_to_cloudini_converter.cpp: main"]}
{"id": "C72", "title": "Accuracy at each entry point", "statement": "A cloud that went through one of the library's entry points in both directions and came out has, for every field of the caller's cloud: FLOAT32 fields within the error bound of C09 for the resolution the caller passed (rounded to float where it is a double), NaN staying NaN; every other field byte for byte unchanged. This holds for pcl::PCLPointCloud2, pcl::PointCloud<PointXYZ> and <PointXYZI> (intensity exact, at its place in the struct), the Wasm functions, the ROS plugin and converter node, and recordings converted with a profile: a field the profile names gets its own resolution (float or double), other FLOAT32 fields the default, removed fields (resolution 0) disappear from the message, the rest is exact; stamp, frame, dimensions and density survive.", "quantifier": "all clouds, fields, types, resolutions in the range of C09, profiles, two builds", "why_tests_cant": "rounding of every float; every field list", "anchors": ["cloudini_lib/src/pcl_conversion.cpp: PCLPointCloudEncode, PCLPointCloudDecode, PointcloudEncode, PointcloudDecode", "cloudini_lib/src/wasm_functions.cpp: cldn_EncodePointcloudMessage, cldn_DecodeCompressedData", "cloudini_ros/src/cloudini_publisher_plugin.cpp", "cloudini_ros/src/cloudini_subscriber_plugin.cpp", "cloudini_ros/src/topic_converter.cpp", "cloudini_lib/tools/src/mcap_converter.cpp: encodePointClouds, decodePointClouds", "cloudini_lib/src/ros_msg_utils.cpp: applyResolutionProfile, toEncodingInfo"]}
{"id": "C73", "title": "Encoding a PCD file", "statement": "Encoding a PCD file and decoding the result gives the cloud PCL loaded: fields of PCL's eight types keep their type, fields of a type PCL does not know take the type the file's own header gives them and are restored exactly; FLOAT32 fields are within the bound of C09. If the header is malformed or does not list such a field, the call throws and leaves the output untouched. A signed 64-bit field is refused, although the format has it (counterexample).", "quantifier": "all file texts, loaded clouds, resolutions, output vectors; existence for the negative part", "why_tests_cant": "unbounded headers and field lists", "anchors": ["cloudini_lib/src/pcl_conversion.cpp: PCLPointCloudEncode(std::filesystem::path), ReadEncodingInfoFromPCD"]}
{"id": "C74", "title": "Thinning for visualisation leaves no gap", "statement": "When a cloud is thinned for visualisation (geometry triple with a usable resolution, finite coordinates up to 2^20-1 steps from the origin), every point with finite coordinates has, among the points kept, an unmodified earlier-or-same point at most one step away along each axis (plus float rounding), and no two points kept have the same coordinates. Through the recording converter with the viz option and back, every finite point of the original message has a decoded point at most a step and a half away along each axis (plus rounding), and every decoded point is one of the original finite points within the bound of C09; stamp, frame, step and density are kept.", "quantifier": "all clouds, resolutions, profiles, points in the range, two builds", "why_tests_cant": "rounding of every coordinate; every cloud", "anchors": ["cloudini_lib/src/ros_msg_utils.cpp: applyVizLossyPreprocessing, packVoxelKey21, applyResolutionProfile", "cloudini_lib/tools/src/mcap_converter.cpp: encodePointClouds, decodePointClouds"]}
{"id": "C75", "title": "Resolutions in the text header", "statement": "A resolution written with at most six significant digits (0.001, 2.5e-4, ...) survives the YAML header exactly: what the reader gets is the very float the writer had, for every such number in the range of normal floats. Any other resolution from 2^-125 to 2^126 changes by at most one part in 2^17 and what comes back is stable through further generations. The whole header decodes to the info it was made of, respectively to it with the resolutions so rounded. A seventh digit is lost (counterexample).", "quantifier": "all resolutions in the range, all headers of printable names; existence for the negative part", "why_tests_cant": "two billion floats through decimal text; unbounded headers", "anchors": ["cloudini_lib/src/cloudini.cpp: EncodingInfoToYAML, EncodingInfoFromYAML, EncodeHeader, DecodeHeader", "cloudini_lib/include/cloudini_lib/yaml_parser.hpp"]}
{"id": "C76", "title": "Streams with a rounded resolution", "statement": "The encoder quantises with the caller's resolution, the decoder multiplies with the one it reads from the text header. Encoding a cloud with the YAML header and decoding the stream with the header it carries restores it: if every resolution has at most six significant digits, exactly as if the decoder had been told the resolution; for any other resolutions from 2^-125 to 2^126 every finite sample of a field with a usable resolution is within the bound of C09 plus 2^-16 (|x| + r) of the original, NaN stays NaN, all other fields keep their bytes, and nothing but an expanding compressed chunk (C17) makes the decoder refuse. The extra error is real: with resolution 1.000004 the sample 200000 comes back as 199999 (counterexample to C09's bound).", "quantifier": "all clouds, layouts, encoder histories, resolutions in the range, two builds; existence for the negative part", "why_tests_cant": "all floats and resolutions through text and stream", "anchors": ["cloudini_lib/src/cloudini.cpp: EncodingInfoToYAML, PointcloudEncoder::encode, DecodeHeader, PointcloudDecoder::decode", "cloudini_lib/src/field_encoder.cpp", "cloudini_lib/src/field_decoder.cpp"]}
{"id": "C77", "title": "The Foxglove converter", "statement": "A message the ROS publisher plugin made, given to the Foxglove converter with the module loaded and memory available, comes back as a cloud with the same header, dimensions, fields and density, FLOAT32 fields within the bound of C09 and all other fields exact, or the converter throws (never when the scratch buffer takes the worst chunk). Whatever the message, both heap blocks are freed exactly once on every path, exceptions included; before the module is loaded it throws; an empty cloud is returned without decoding. Not true: a stream made for more points than the message declares overruns the output block; for fewer points a cloud with too little data is returned; bytes that belong to no field are uninitialised memory (the same message gives different clouds).", "quantifier": "all clouds, messages, heaps and allocators; existence for the negative parts", "why_tests_cant": "every allocator behaviour and exception path", "anchors": ["cloudini_foxglove/src/PointCloudConverter.tsx: convertPointCloudWasm", "cloudini_lib/src/wasm_functions.cpp: cldn_DecodeCompressedData", "cloudini_ros/src/cloudini_publisher_plugin.cpp"]}
{"id": "C78", "title": "The compression estimate of the web page", "statement": "For a recording whose PointCloud2 channels have topics of their own, the page's original size is the sum of the sizes of exactly the messages of those channels, and its compressed size the sum, over those not too large for the module, of what an encoding with a resolution of 1 mm takes (0 for messages that cannot be read); the two ways of building the module give the same numbers; no memory is lost with the build that catches exceptions. Not true: with two channels of one topic every message is counted twice; messages too large for the module count as compressed to nothing; with the page's own build each unreadable message leaks its block.", "quantifier": "all recordings, messages, heaps; existence for the negative parts", "why_tests_cant": "unbounded recordings and messages", "anchors": ["cloudini_web/main.js: analyzeFile", "cloudini_lib/src/wasm_functions.cpp: cldn_ComputeCompressedSize", "cloudini_lib/CMakeLists.txt"]}
{"id": "C79", "title": "The hash set behind the thinning", "statement": "The hash set of voxel keys answers as a set: from a new set, for every hash function and every sequence of clear, reserve (up to 2^30) and insert calls with at most 2^24-2 different keys at a time, no call reads outside its tables, throws or fails to return, and insert says true exactly when the key was not inserted since the last clear. So any number of thinning passes on one thread, each starting from the set the previous one left behind, keep exactly the points that a fresh, ideal set would keep.", "quantifier": "all hash functions, histories of calls, key sets up to the limit, sequences of passes", "why_tests_cant": "growth, collisions and displacement chains of every length", "anchors": ["cloudini_lib/include/cloudini_lib/contrib/ankerl/unordered_dense.h: set::insert, reserve, clear, next, place_and_shift_up, clear_and_fill_buckets_from_values, increase_size", "cloudini_lib/src/ros_msg_utils.cpp: applyVizLossyPreprocessing"]}
{"id": "C80", "title": "The desktop application", "statement": "However a user clicks - load dialogs answered or failing, saves begun, refused or failing halfway, clicks arriving while a save runs - as long as the open dialog is not cancelled before a first file is loaded and no second save is started inside a running one, the window does not crash, Encode and Decode are offered only for a loaded recording with such a topic, the recording being saved is not replaced, and every file written holds the messages of a recording the user had opened, in order, with topics, times and payloads unchanged, all of them unless a write failed. Not true: a second save started inside the first makes loading possible under it, which frees the reader in use or mixes two recordings; cancelling the open dialog of a new window dereferences a null pointer; cancelling the save dialog leaves loading disabled; what Encode and Decode write is only relabelled, its payloads are not converted, and the schema text after Decode is the schema's name (counterexamples).", "quantifier": "all histories of clicks, dialogs, interleavings of saves and clicks, recordings; existence for the negative parts", "why_tests_cant": "every interleaving of user and saving loop", "anchors": ["cloudini_lib/tools/qt_app/mainwindow.cpp: on_toolButtonLoad_clicked, processMCAP"]}
{"id": "C81", "title": "The header inspector", "statement": "For every well-formed recording the inspector describes the first message, in reading order, on a compressed topic, and only that; its exit status is 0 exactly if no topic is compressed or that message's header can be read. For a message the converter wrote, it prints the dimensions, options, names, offsets, types and resolutions the cloud was encoded with, and its true number of points and bytes when these are below 2^32. Not true: larger byte counts are printed modulo 2^32; a field without resolution is shown as one with resolution 1; an empty first cloud makes it fail; a message shorter than four bytes is read beyond its end (counterexamples).", "quantifier": "all recordings, messages, headers; existence for the negative parts", "why_tests_cant": "unbounded recordings and messages", "anchors": ["cloudini_lib/tools/src/mcap_header_inspector.cpp: main", "cloudini_lib/src/cloudini.cpp: DecodeHeader, EncodingInfoToYAML", "cloudini_lib/src/ros_msg_utils.cpp: getDeserializedPointCloudMessage"]}
{"id": "C82", "title": "32-bit builds", "statement": "The WebAssembly build, whose size_t has 32 bits, decodes every byte string exactly as a 64-bit build does whenever the declared number of points and of bytes is below 2^32, so a cloud encoded natively is restored in the browser; and it encodes exactly as a 64-bit build does whenever the working memory of one chunk and the worst-case output, computed without wrapping, are below 2^32. If no thread can be started, every encoding function returns 0 and leaves the output alone, unless no compression is asked for. Not true: a single point of 128 KiB (a legal cloud of 128 KiB) makes the 32-bit encoder write behind its working memory, and a stream of fewer than 256 bytes that a 64-bit build rejects makes the 32-bit decoder write behind the output (counterexamples).", "quantifier": "all inputs, clouds, headers, sizes of size_t; existence for the negative parts", "why_tests_cant": "sizes range over all 32-bit words and the faulty ones need several gigabytes in a 64-bit test", "anchors": ["cloudini_lib/src/cloudini.cpp: MaxCompressedSize, PointcloudEncoder::encode, PointcloudDecoder::decode", "cloudini_lib/src/v5_codec.cpp: V5StageBufferSize, DecodeV5Stage1Chunk", "cloudini_lib/src/wasm_functions.cpp: cldn_EncodePointcloudMessage, cldn_DecodeCompressedData", "cloudini_lib/CMakeLists.txt: cloudini_wasm"]}
{"id": "C83", "title": "Schema texts describe the recorded messages", "statement": "A recording the converter writes can be read by a program that knows nothing of this library, from the schema stored with each message. For every compressed message the converter writes (little-endian, below 4 GiB) and for every decompressed one (whatever was in the payload, either byte order), decoding the message by the ROS message definition text stored with its schema consumes every byte and yields, member by member, the stamp, frame, dimensions, fields (name, offset, datatype, count), point step, density and format of the cloud, and a data member that is the encoder's payload or has the declared size; all other messages read by their schema as before. Conversely, whenever a message can be read by those texts, the library parses it, to the same values. The datatype codes written are the constants of the same name in the texts; the two 64-bit integer types have none.", "quantifier": "all messages, clouds, payloads, recordings, profiles", "why_tests_cant": "unbounded clouds and recordings; the reader is a separate program", "anchors": ["cloudini_lib/include/cloudini_lib/ros_message_definitions.hpp: pointcloud_schema_data, compressed_schema_data", "cloudini_lib/src/ros_msg_utils.cpp: getDeserializedPointCloudMessage, convertPointCloud2ToCompressedCloud, convertCompressedCloudToPointCloud2", "cloudini_lib/tools/src/mcap_converter.cpp: encodePointClouds, decodePointClouds"]}
{"id": "C84", "title": "Decoding a recording in Python", "statement": "The Python program reports every message of a recording whose schema name contains CompressedPointCloud2, up to a positive --max-messages, once and in order, and counts exactly these; a message that fails is reported as failed and does not stop or alter the following ones. If each such message was encoded by this library, or is rejected by the decoder, the run ends normally and every table of the former holds, for each point and field, exactly the value the codec restores from the cloud it was made of, whatever earlier messages left in the shared output buffer. Not provided: --max-messages 0 decodes everything; a recording without a finished summary yields nothing; a message type whose name merely contains CompressedPointCloud2 is taken for a cloud.", "quantifier": "all recordings, limits, clouds, contents of the reused buffers; existence for the negative parts", "why_tests_cant": "unbounded recordings and all contents of the reused memory", "anchors": ["cloudini_py/decode_mcap.py: decode_mcap_file, main", "cloudini_py/cloudini_decoder.py: CloudiniDecoder.decode_message", "cloudini_lib/src/wasm_functions.cpp: cldn_DecodeCompressedMessage"]}
{"id": "C85", "title": "Lossy coding keeps order and sign", "statement": "Within one field of one decoded cloud, lossy coding never swaps two values: if one finite sample is at most another (both within 2^30 steps of zero for FLOAT32, 2^62 for FLOAT64), the decoded samples are in the same order, equal samples decode equal, opposite samples decode to opposite values, zero decodes to zero and no sample changes sign; so a box or plane test on decoded data never separates points the wrong way round. Not true outside the range (at 1 mm, 3000 km decodes to a negative coordinate in the vector group) nor between builds (half a step is 0 with SSE and one step without).", "quantifier": "all clouds, fields, pairs of points, resolutions; existence for the negative parts", "why_tests_cant": "all pairs of floats and resolutions, with the rounding of every float operation", "anchors": ["cloudini_lib/src/field_encoder.cpp: FieldEncoderFloat_Lossy, FieldEncoderFloatN_Lossy", "cloudini_lib/src/field_decoder.cpp: FieldDecoderFloat_Lossy, FieldDecoderFloatN_Lossy", "cloudini_lib/src/cloudini.cpp: PointcloudEncoder::encode, PointcloudDecoder::decode"]}
{"id": "C86", "title": "How short the integer fields become", "statement": "With the default encoder (version 5, no general-purpose compression after it), the space the 16- to 64-bit integer fields take follows the shape of their values. A field whose values form an arithmetic progression (counter, constant column, regular time stamp) takes at most 31 bytes per chunk of 32768 points, however many points the cloud has. In a cloud of at most 4096 points each integer field takes no more than the cheapest of: 3 bytes plus its distinct values plus log2 of their number in bits per point; 5 bytes plus 3 bytes and the value per change of value; 5 bytes plus 13 per change of step; 10 bytes plus one byte per point if all steps are below 64 in size. Beyond 4096 points this is false: the choice is made on the first 4096 points, and a field of two distinct values, for which 4115 bytes would do, takes more than 300000.", "quantifier": "all clouds, field layouts, numbers of points, chunk and probe sizes; existence for the negative part", "why_tests_cant": "unbounded clouds and all shapes of columns", "anchors": ["cloudini_lib/src/v5_codec.cpp: analyzeAdaptiveIntField, selectBestAdaptiveIntMode, appendDeltaRleSection, appendRleSection, appendPaletteSection, appendDeltaVarintSection", "cloudini_lib/src/cloudini.cpp: PointcloudEncoder::encode"]}
{"id": "C87", "title": "What each value costs", "statement": "Without general-purpose compression the size of an encoded cloud is predictable. If no adaptive integer coding is in use (other versions or options, or no 16- to 64-bit integer fields), the bytes after the header are exactly 4 per chunk plus, for every value: its own size for raw and XOR coded fields; for integers and quantised floats the number of 7-bit groups of its step from the same field of the point before (from 0 at the start of a chunk and after NaN; one byte for steps of at most 63), and one byte for NaN. FLOAT64 fields without resolution (version 4 on) take 8 bytes for the first value of a chunk, 1 for a repeated one and otherwise the changed bits: 2 bits plus the window of the last change if they lie in it, else 13 bits plus a new window from the highest changed bit (at least bit 32) to the lowest, rounded up to bytes. Hence if all steps are of at most 63, a point takes one byte per integer or quantised field. With adaptive integer coding the same count bounds the other fields, beside the integers of the property on integer fields. A coarser resolution does not always give a shorter stream.", "quantifier": "all clouds, field layouts, versions, options, numbers of points, chunk sizes; existence for the negative part", "why_tests_cant": "unbounded clouds and all values", "anchors": ["cloudini_lib/src/field_encoder.cpp: FieldEncoderInt, FieldEncoderFloat_Lossy, FieldEncoderFloatN_Lossy, FieldEncoderFloat_XOR, FieldEncoderFloat_Gorilla", "cloudini_lib/src/v4_codec.cpp: EncodeV4Stage1Chunk", "cloudini_lib/src/codec_common.cpp: CreateCompatibleEncoder", "cloudini_lib/src/cloudini.cpp: PointcloudEncoder::encode"]}
{"id": "C88", "title": "A buffer that is always large enough, and clouds for which none is", "statement": "The size MaxCompressedSize returns is what encode() insists on but is not always enough (C26). If the output buffer has that size and also room, after the header, for each chunk's 4-byte length and the compressor's bound on the longest chunk its field layout allows (per value: 1 byte for 8-bit integers, 11 for longer integers, 5 for leading quantised float groups, 10 for other floats; plus 5 per integer field), encode() never throws for lack of room, whatever the values, provided at most 64 INT64/UINT64 fields are adaptively coded, a chunk is at most about 2.1 GB and, for LZ4, the buffer at most 2 GB. Beyond 64 such fields no buffer helps: there is a well-formed cloud of 65 INT64 columns and 65536 points for which both encode() overloads throw whatever the buffer, because the encoder's own scratch buffer is too small.", "quantifier": "all clouds, field layouts, versions, compressions, buffers, encoder histories; existence for the negative part", "why_tests_cant": "all values of unbounded clouds; the failing cloud needs 65536 points of one particular shape", "anchors": ["cloudini_lib/src/v5_codec.cpp: EncodeV5Stage1, appendCommittedAdaptiveIntSection", "cloudini_lib/src/cloudini.cpp: MaxCompressedSize, PointcloudEncoder::encode"]}
{"id": "C89", "title": "Joining and cutting encoded clouds", "statement": "Encoded clouds can be joined and cut without decoding them. If several clouds with the same fields, encodings, version and compression were encoded (by any encoder objects, with any width and height) and each but the last fills its chunks (a multiple of the points per chunk), the streams after their headers put one after the other decode, with a header declaring the total number of points, to the clouds put one after the other (under the conditions of C17 on room, deltas and the size of the scratch buffer). Any run of consecutive chunks of a stream, cut out, decodes to the points of those chunks. Without general-purpose compression and without the version 5 columns, joining the streams gives byte for byte the stream of the joined cloud, so encoding in pieces of whole chunks is unobservable. With the version 5 columns it does not: for 32768 equal values followed by two different ones the streams always differ, because the coding of a column is chosen from the first points of the cloud.", "quantifier": "all lists of clouds, encoder histories, field layouts, versions, compressions, chunk sizes, runs of chunks, buffers; existence for the negative part", "why_tests_cant": "unbounded numbers of clouds and points and all ways to cut them", "anchors": ["cloudini_lib/src/cloudini.cpp: PointcloudEncoder::encode, PointcloudDecoder::decode, PointcloudDecoder::decodeChunk", "cloudini_lib/src/chunk_writer.cpp: WriteChunk", "cloudini_lib/src/v4_codec.cpp: EncodeV4Stage1Chunk, DecodeV4Stage1Chunk", "cloudini_lib/src/v5_codec.cpp: EncodeV5Stage1, DecodeV5Stage1Chunk, selectBestAdaptiveIntMode"]}
{"id": "C90", "title": "What the codec benchmark measures and what its fingerprint says", "statement": "The benchmark measures exactly those PointCloud2 messages whose number of earlier messages on the same topic is a multiple of --sample-every and below --max-messages (0: no limit), and that parse to a cloud with points; no message, however broken, ends this pass with an exception; what it encodes is the cloud in the message with the resolution of the command line on every 32-bit float field, thinned in the viz modes. The fingerprint of --decode-replay --hash is FNV-1a over the decoded bytes of all samples in order. It does not depend on the version of the format (V4 or V5) or on --zstd, if both runs encode and decode every measured message; one wrong byte anywhere in the decoded output always changes it. It is not a proof of equality (a run that decodes one more cloud can have the same fingerprint), and it is not always printed: a decoding error, possible with --zstd for small clouds of large values, ends the program.", "quantifier": "all recordings, options, clouds, versions, compression libraries; existence for the negative parts", "why_tests_cant": "unbounded recordings and all positions of a wrong byte", "anchors": ["cloudini_lib/tools/src/mcap_codec_benchmark.cpp: main, fnv1a, configureMode", "cloudini_lib/src/cloudini.cpp: MaxCompressedSize, PointcloudEncoder::encode, PointcloudDecoder::decode", "cloudini_lib/src/ros_msg_utils.cpp: getDeserializedPointCloudMessage, applyResolutionProfile, applyVizLossyPreprocessing"]}
{"id": "C91", "title": "Comparing encoded clouds", "statement": "Encoded clouds can be compared, deduplicated or cached by their bytes. Encoding a cloud gives the same compressed points whichever overload of encode() is called, into whatever buffer (any size that is accepted, any content), on whichever encoder object with the same settings and after whatever other calls; with a general-purpose compressor this needs the compressor's output not to depend on the room it is given, and fails for some compressor that meets every other requirement. Two clouds of equal size encoded with the same settings, by builds with or without SSE4.1, whose finite samples lie within 2^20 resolution steps of zero (2^49 for doubles), have the same compressed points exactly when they decode to the same cloud; beyond that range two clouds can decode alike and still have different compressed points. Two clouds with the same compressed points are equal in every field that is not quantised, and in a quantised field two finite samples in range differ by at most the sum of their two error bounds.", "quantifier": "all pairs of clouds, field layouts, versions, compressions, buffers, encoder histories, builds; existence for the negative parts", "why_tests_cant": "all pairs of clouds and all buffers", "anchors": ["cloudini_lib/src/cloudini.cpp: PointcloudEncoder::encode, PointcloudDecoder::decode", "cloudini_lib/src/chunk_writer.cpp: WriteChunk", "cloudini_lib/src/codec_common.cpp: CompressChunk", "cloudini_lib/src/field_encoder.cpp: FieldEncoderFloat_Lossy, FieldEncoderFloatN_Lossy"]}
{"id": "C92", "title": "Renaming fields and reshaping a cloud need only a new header", "statement": "The compressed points depend on the field names and on width and height in no way. Two settings that agree on offset, type and resolution of every field in order, the point step, the encoding, the compression and the version (names, width, height, threading and the header text may differ) need the same buffer size, and encode(view) without a header gives the same result and leaves the same bytes, for every cloud and buffer, whatever was encoded before with either encoder; with their headers and through either overload the streams differ in their header only (for a compressor whose output does not depend on the room it is given). If also width times height agree (as 64-bit product), decode() does the same with every input, hostile ones included. So a stored stream is renamed, or a row of points turned into an image of as many points, by putting the header EncodeHeader writes for the new settings (YAML or binary) before the old body: it is read back as the new names, width and height, and the points decode as before.", "quantifier": "all pairs of such settings, clouds, encoder histories, buffers, inputs (hostile ones too), compression libraries, both header formats", "why_tests_cant": "all pairs of settings, all inputs", "anchors": ["cloudini_lib/src/cloudini.cpp: MaxCompressedSize, EncodeHeader, DecodeHeader, PointcloudEncoder::encode, PointcloudDecoder::decode", "cloudini_lib/src/v4_codec.cpp: BuildV4Encoders, BuildV4Decoders", "cloudini_lib/src/v5_codec.cpp: BuildV5Plan, BuildV5Decoders, UsesV5Codec"]}
{"id": "C93", "title": "Damage to a stored cloud stays in the chunks it hits, and may go unnoticed", "statement": "Take two streams of equally many chunks, from anywhere, and decode both into the same output buffer. If both decodings return normally, the results agree on every byte outside the fields of the points of those chunks that differ (whatever the scratch buffers were). So when a stream encode() produced is damaged in some chunks (other bytes, other lengths of these chunks, framing intact) and decode() reports no error, every stored field of every point in an intact chunk is restored exactly as from the undamaged stream (under the conditions of C17 and C89). But nothing guarantees an error: there is no checksum, and a flipped bit in a chunk, or two chunks exchanged, can decode normally to other points.", "quantifier": "all streams, all sets of damaged chunks and all damage with intact framing, field layouts, versions, compressions, buffers; existence for the negative parts", "why_tests_cant": "unbounded streams and all possible damage", "anchors": ["cloudini_lib/src/cloudini.cpp: PointcloudDecoder::decode, PointcloudDecoder::decodeChunk", "cloudini_lib/src/v4_codec.cpp: DecodeV4Stage1Chunk", "cloudini_lib/src/v5_codec.cpp: DecodeV5Stage1Chunk", "cloudini_lib/src/codec_common.cpp: DecompressChunk"]}
{"id": "C94", "title": "A decode that throws: what is in the output buffer", "statement": "When decode() throws, whatever the data, it has changed no byte of the output buffer other than those of the stored fields of the declared points (formats 1 and 2: of any points), just as when it returns. The points of the chunks before the one that fails are already there: if only the first k chunks of a stream encode() produced have survived and anything at all stands behind them, every stored field of every point of these chunks is in the buffer as C17 says, however decoding ends. Of a stream of which only the first t bytes are there, when decoding throws, exactly the points of the complete chunks are restored and every other byte is as before. Of an uncompressed stream, nothing is written past the points of the first chunk that fails; under any compression, if the first k chunks of a stream that decodes are replaced by others and decoding then throws, nothing is written past the points of these k chunks. But an exception does not mean an untouched buffer, and the failing chunk may be half written.", "quantifier": "all data, layouts, versions, compressions, buffers; all streams of encode(), all numbers of surviving chunks and all continuations; all lengths a stream can be cut to; all replacements of first chunks", "why_tests_cant": "all inputs and all cut points", "anchors": ["cloudini_lib/src/cloudini.cpp: PointcloudDecoder::decode, decodeChunk", "cloudini_lib/src/v4_codec.cpp: DecodeV4Stage1Chunk", "cloudini_lib/src/v5_codec.cpp: DecodeV5Stage1Chunk, decodeV5AdaptiveIntSection", "cloudini_lib/src/field_decoder.cpp: FieldDecoderFloatN_Lossy::decode"]}
{"id": "C95", "title": "Several encodings in a row", "statement": "A cloud that is compressed and decompressed several times, each time with settings of its own (encoding, resolutions, compression, version, threading, width and height, build), keeps every integer field and every field no generation quantises byte for byte, and every NaN stays a NaN. In a quantised field the errors at most add up: a finite sample x ends finite and within the sum of the bounds of C09 of the generations, taken at A, which is less than the sum of their resolutions, whenever |x| plus that sum is at most A and A is at most 2^20 steps of each generation (2^49 for FLOAT64). It is not true that the error stays within the bound of the coarsest resolution: x = 1 at resolution 2 and then 3 ends at 3.", "quantifier": "all clouds, all numbers of generations, all settings, encoders and builds of each, all fields", "why_tests_cant": "all histories of settings, and rounding in each", "anchors": ["cloudini_lib/src/cloudini.cpp: PointcloudEncoder::encode, PointcloudDecoder::decode", "cloudini_lib/include/cloudini_lib/field_encoder.hpp: FieldEncoderFloatN_Lossy::encode", "cloudini_lib/include/cloudini_lib/field_decoder.hpp: FieldDecoderFloatN_Lossy::decode"]}
{"id": "C96", "title": "A point decodes to the same whatever is around it", "statement": "What a stored field of a point decodes to depends on the bytes of that field, the list of fields, whether the encoding is lossy, and the encoder's build only. So the same cloud encoded in two ways (version, compression, threads, chunk size, width and height, encoder history, and the build and library of the decoder may differ) decodes to the same buffer; and picking points (filtering, reordering, repeating) before compression or after decompression is the same, field for field; so is dropping, adding, moving or renaming other fields, for a field that before and after is in the leading group of three or four FLOAT32 fields with a resolution, or outside it. For fields outside this group the encoder's build does not matter either. Whether a field is in this group does matter: a FLOAT32 field at resolution 1 with the sample 0.5 decodes to 1 on its own and to 0 beside two more such fields.", "quantifier": "all pairs of clouds, settings, encoders and decoders; all points and fields; all selections of points", "why_tests_cant": "all pairs of encodings and all selections", "anchors": ["cloudini_lib/src/cloudini.cpp: PointcloudEncoder::encode, PointcloudDecoder::decode", "cloudini_lib/include/cloudini_lib/field_encoder.hpp: FieldEncoderFloatN_Lossy::encode, FieldEncoderFloat_Lossy", "cloudini_lib/include/cloudini_lib/field_decoder.hpp: FieldDecoderFloatN_Lossy::decode"]}
