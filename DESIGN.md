# Formal model of cloudini in Coq 8.16.1 — design

The first version of this file was written before the proofs; it is kept current.
`properties.jsonl` has the English properties, `MANIFEST.json` maps them to theorems,
`seeded/LOG.jsonl` records the edits of the model the theorems were tested against.

## Trusted base

* Coq 8.16.1's kernel, including its virtual machine (`vm_compute` is used in the
  counter-examples and in the concrete cases beside the theorems; `native_compute` is not used).
* What `Print Assumptions` prints, printed during the build under every theorem of the `Props*.v` files:
  * every theorem except those of C09, C72, C74, C75, C76 and C85, `C68_same_stream`, `C91_compare`, `C91_equal_streams`, `C73_pcd_roundtrip`, `C77_values`, `C95_drift32`, `C95_drift64` and `C95_coarsest_refuted`: "Closed under the global context";
  * the theorems of C09 (`PropsError.v`, error bound over the real numbers), C72 (`PropsEntry.v`), C74 (`PropsVizNear.v`, except `C74_no_duplicates`: closed), C75 (`PropsResText.v`), C76 (`PropsRounded.v`), C85 (`PropsOrder.v`), `C68_same_stream` (`PropsRecode.v`), `C91_compare` and `C91_equal_streams` (`PropsCompare.v`), `C73_pcd_roundtrip` (`PropsPcdFile.v`), `C77_values` (`PropsBrowser.v`), `C95_drift32`, `C95_drift64` and `C95_coarsest_refuted` (`PropsDrift.v`):
    `ClassicalDedekindReals.sig_not_dec`, `ClassicalDedekindReals.sig_forall_dec`,
    `FunctionalExtensionality.functional_extensionality_dep`, `Classical_Prop.classic` —
    the standard library's axioms of the real numbers and of classical logic, nothing else.
* The checker `coqchk` also lists seven entries `Coq.ssr.ssrunder.Under_rel.*` for the loaded libraries: fields of an
  opaque module of Coq's own ssreflect library, on which no theorem here depends (`Print Assumptions` shows none of them).
* Flocq is used in `FloatReal.v`, `FloatAgain.v`, `FloatTextFacts.v`, `FloatOther.v` and the `Props*.v` files of C09, C68, C72..C76, C95 and others as a library of proved theorems; it adds no axiom.
  No other library outside the standard library is used. No plugin, no functor, no module type.
* The hand-made reading of the C++ source: the code was not built or run. Every model
  definition cites file and lines; simplifications are stated in the same comments.
* The hypotheses written in the statements, in particular `libs_ok` (what liblz4 and libzstd
  document; `LibSpec.v`), which `store_libs` shows can be met.

## Modelling conventions

* A byte is a `Z` in [0,256); a buffer or view is a `list Z`; a memory written through a view is a
  list that the function returns changed.
* Outcomes are `Ok v | Throw | UB`. `Throw` is any C++ exception. `UB` is an access outside the
  buffer the code was given, a shift by 64 or more, a use after free, or a data race.
* Signed overflow and out-of-range float-to-integer conversion are modelled as x86-64 executes them
  (wrap around; the "integer indefinite" value). Where such a value is reached, theorems say what
  comes out (C01, C04, C07) instead of calling it `UB`.
* `size_t` arithmetic is on unbounded integers, and wraps where the code depends on it (written out,
  for instance RLE run lengths C36, message sizes C42; C82 shows when the difference cannot matter).
* Floating point: bit patterns in `Z`; arithmetic by the standard library's executable IEEE-754
  specification `SpecFloat` (round to nearest even). `float_ops` selects the two compiled variants of
  the vector code (SSE4.1/NEON rounding ties to even, and the scalar fallback); theorems hold for every `float_ops`
  unless they name one.
* Loops are structural recursion or take fuel whose exhaustion is an error outcome proved unreachable
  (`uvarint_eq`, `C14_palette`, `C49_terminates`, ...).
* `kPointsPerChunk` and `kAdaptiveModeProbePoints` are parameters `ppc`, `probe` of the model, the theorems hold
  for all values in the stated range, in particular the real 32768 and 4096.

## Model files and the code they model

| model | code (under /repo/cloudini_lib unless noted) |
|-------|------|
| `Base`, `Varint` | include/cloudini_lib/encoding_utils.hpp; src/v5_codec.cpp (uvarint) |
| `Types` | basic_types.hpp, cloudini.hpp (data types) |
| `Floats` | intrinsics.hpp, float arithmetic of field_encoder/decoder |
| `Fields` | field_encoder.{hpp,cpp}, field_decoder.{hpp,cpp}: copy, integer, lossy float, XOR, Gorilla, grouped XYZ(I) |
| `Codec` | src/codec_common.cpp (dispatch, sizes), src/v4_codec.cpp |
| `V5` | src/v5_codec.cpp (modes, palette, bit packing, streaming writer, chunk codec) |
| `Api` | src/chunk_writer.cpp, src/cloudini.cpp:249-292, 430-684 (encoder and decoder objects, framing, LZ4/ZSTD calls) |
| `Header`, `FloatText` | src/cloudini.cpp:48-428, yaml_parser.hpp; the text form of floats |
| `Worker` | src/cloudini.cpp:430-499, 535-623: caller and compression worker as a transition system |
| `Cdr` | include/cloudini_lib/contrib/nanocdr.hpp |
| `Ros`, `RosViz`, `RosObj` | src/ros_msg_utils.cpp, ros_msg_utils.hpp (conversion, preprocessing and profiles, object copies/moves with a heap) |
| `Mcap` | tools/src/mcap_converter.cpp, tools/src/mcap_cutter.cpp, profile texts |
| `Pcl` | src/pcl_conversion.cpp, pcl_conversion.hpp |
| `Transport` | cloudini_ros: conversion_utils.cpp, publisher and subscriber plugins, topic_converter.cpp (callback, adapt_request_to_offers) |
| `Pool` | /repo/cloudini_ros/src/cloudini_subscriber_pcl.cpp |
| `Wasm` | src/wasm_functions.cpp |
| `Browser` | /repo/cloudini_foxglove/src/PointCloudConverter.tsx; /repo/cloudini_web/main.js:86-222 (the numbers) |
| `HashSet` | include/cloudini_lib/contrib/ankerl/unordered_dense.h (construction, clear, reserve, insert of a set of 64-bit keys) and src/ros_msg_utils.cpp:296-324 with it |
| `QtApp` | tools/qt_app/mainwindow.cpp (desktop configuration; its build target is commented out) |
| `Inspector` | tools/src/mcap_header_inspector.cpp |
| `Size32` | the size_t expressions of src/cloudini.cpp, src/v5_codec.cpp and src/wasm_functions.cpp, modulo a word size |
| `SchemaText` | include/cloudini_lib/ros_message_definitions.hpp: the two message definition texts, character by character |
| `SchemaSpec` | (specification, no code) a reader of ROS message definitions and of CDR messages described by them |
| `PyTool` | cloudini_py/decode_mcap.py: the loop over a recording with one decoder and one output buffer |
| `Left` | the decoder of Codec, V5 and Api once more, returning the output buffer at the point where it ends or throws |
| `Bench` | tools/src/mcap_codec_benchmark.cpp with --mode and --decode-replay --hash |
| `Bag` | tools/src/cloudini_rosbag_converter.cpp:29-74 (metadata.yaml) |
| `FileSys`, `Tools` | std::filesystem as used; main of cloudini_rosbag_converter.cpp, mcap_cutter.cpp, pcd_to_cloudini_converter.cpp (file handling) |
| `Python` | /repo/cloudini_py/cloudini_decoder.py (header parser, data extraction, dtype) |

Specification vocabulary, independent of the model's helpers: `Spec`, `LibSpec`, `SeqSpec`,
`ErrorSpec`, and the definitions at the head of each `Props*.v`. `*Facts.v`, `RoundTrip.v`, `CloudRT.v`, `CloudApi.v`,
`BuildFacts.v`, `YamlRT.v`, `FloatReal.v` are proofs. `Cases.v` has the concrete clouds used to show that hypotheses are met.

## Not modelled, and simplifications

* LZ4, ZSTD, the mcap library, PCL, rclcpp, the C++ allocator (allocation always succeeds), stack depth.
  Compressors are arbitrary functions satisfying `libs_ok`; a recording is what the mcap reader delivers.
* The text form of floats in headers is a parameter (`float_text`) in the positive theorems with its needed properties
  as hypotheses; `gnu_text` (what glibc does for `%g` and `strtof`) is the instance used by the concrete cases and
  counter-examples.
* Threads: one step is a critical section, a notification, a join or a stretch of unlocked code; memory
  model sequentially consistent, which is justified for race-free executions, and C53 proves race freedom.
* Python: `decode('utf-8')` and `float()` are parameters; header values that are not integers where integers are used
  raise; numpy structured arrays are their dtype and bytes.
* WebAssembly: size_t has 64 bits in `Wasm.v` and 32 in `Size32.v` (C82 relates them); `catch` blocks are taken to be active, as in the source; after a failed decode the output memory is unchanged in the model;
  a view larger than the caller's memory is `UB` at once.
* V5 theorems: at most 65535 points per chunk (the code uses 32768) and at most 64 columns of 64-bit integers
  (the stage-1 buffer has 64 spare bytes per point; a delta-RLE section of such a column can take 11 bytes per point where
  10 are counted, so with more of them a section can overflow the buffer and encode throws).
* PCL subscriber pool: exceptions of the allocator inside the lock.
* Not modelled: console output and statistics, file contents on disk (the tools' choice of files is modelled, C70/C71, without symbolic links, permissions or concurrent processes), the parsing of option texts by cxxopts, the desktop application's WebAssembly configuration, settings and labels (C80),
  the RViz/rosbag plugin registration.

## Per-property plan

How each property is modelled and proved. "Sim." is a simulation between encoder and decoder states by
induction over the points; "cex" is a concrete counter-example checked by computation
(theorems ending in `_refuted`, for the parts of a claim that are false of the code).

| id | what is modelled | how it is proved |
|----|------------------|------------------|
| C01 | zig-zag, +1, 7-bit groups on 64-bit words | induction on the groups, number theory mod 2^64; cex for INT64_MIN |
| C02 | decodeVarint's fast paths and loop, byte accesses explicit | induction on the loop; reads through `rd` which is `UB` outside |
| C03 | appendUVarint/readUVarint | induction on the groups |
| C04 | integer field encoder/decoder objects | Sim., with two's complement lemmas; cex for 64-bit steps of 2^63 |
| C05 | XOR encoder/decoder | Sim. |
| C06 | Gorilla bit writer/reader, window reuse | Sim. over the bit stream with an invariant on the window |
| C07 | lossy scalar encoder/decoder, NaN marker | Sim.; quantised image stated in `Spec.recon`; cex beyond int64 |
| C08 | grouped vector encoder/decoder | lane-wise Sim. |
| C09 | SpecFloat arithmetic of quantise/dequantise, related to the reals | Flocq relative-error lemmas; cex for the plain r/2 bound |
| C10 | V4 chunk encoder/decoder | Sim. over points and fields |
| C11 | the four section modes | one round trip per mode, induction over runs/indexes |
| C12 | V5 chunk encoder/decoder | C11 for each column plus the regular-field Sim. |
| C13 | streaming writer against batch encoders | induction, invariant on the pending run |
| C14 | the open-addressing table with generation stamps | table invariant; a free slot exists, so probing ends |
| C15 | bit packing accumulator | invariant on accumulator and emitted bits |
| C16 | size estimates and the choice | estimate = length by induction; case analysis |
| C17 | whole encode and decode | C10/C12 per chunk, framing induction, write-set reasoning |
| C18 | decompression buffer size | characterisation from the same model and cex |
| C19 | encoder/decoder objects with their state kept between calls | state after any history produces the same bytes as fresh state |
| C20 | chunk decoding from chunk boundaries | field reset lemma plus C10/C12 |
| C21 | two clouds agreeing on fields | relational induction over encode |
| C22 | framing of encode, framing loop of decode | induction on chunks |
| C23 | worker transition system | inductive invariant over all reachable states (ghost: chunks done) |
| C24 | same | progress lemma, decreasing measure, per-call invariant |
| C25 | MaxCompressedSize and per-field bounds | induction over points with per-encoder bounds |
| C26 | same for V5 | exact bound proved; cex |
| C27 | output view tracking in encode | write-set lemmas |
| C28, C29 | binary header | inversion of the printer; cex width 10, long names |
| C30, C31 | YAML writer and the subset parser | parser-inverts-printer lemmas line by line; cex |
| C32 | DecodeHeader on arbitrary bytes | prefix invariant; lines of the text determined |
| C33-C37 | decoder on arbitrary bytes | safety invariants; cex for the unsafe paths |
| C38 | dispatch functions | case analysis |
| C39 | version 2 path | cex |
| C40 | zero points | computation on symbolic layouts |
| C41 | nanocdr encoder/decoder | induction over the sequence of values with the alignment position |
| C42, C43 | PointCloud2 and compressed messages | C41-style inversion plus C17; cex |
| C44, C45 | voxel key and filter | bit-field lemmas; loop invariant on the seen set |
| C46, C55 | profiles and their texts | induction on fields / on characters |
| C47 | RosPointCloud2 objects over a heap | invariant over all programs of copies, moves, assignments |
| C48, C54 | recording tools | induction over messages |
| C49 | PCD header parser | induction over lines |
| C50 | subscriber pool | invariant over all histories |
| C51 | V5 chunk layout | relational reasoning |
| C52, C58 | WebAssembly entry points | from C17, C22, C28-C32; cex |
| C53 | worker transition system with access sets | invariant; cex for reuse after an exception |
| C56, C57 | PCL conversions | from C17 and C30; cex |
| C59, C60 | decode on arbitrary data, output memory before and after | write sets of every decoder and section (`ConfineFacts`), relational induction over two memories (`SyncFacts`) |
| C61, C64 | publisher, subscriber, converter node and SerializeCompressedPointCloud2 on message records; the middleware's serialisation is C41's CDR | C17, C30, C42 with an equality between the two conversion paths' encoding infos; cex |
| C62 | decodeTyped on arbitrary messages | case analysis; C59 for the size |
| C63 | the node's callback on serialised messages | C42; cex |
| C65 | adapt_request_to_offers on endpoint lists | counting lemma; cex |
| C66 | CloudiniDecoder on top of the Wasm model; int(), strip(), split(), numpy's dtype rules and frombuffer | line-by-line simulation of the header parser, permutation argument for the sorted columns; cex |
| C67 | the two float back ends (SSE4.1: ties to even; portable: ties away) as parameters of the same codec | relational induction over encode ("codes" of fields), dequantisers coincide; cex for a tie |
| C68 | decode after encode, then encode again | C17 gives the restored bytes; error analysis (Flocq) shows quantise(dequantise v) = v for small v; relational induction over encode; cex |
| C69 | replaceAll as the loop over a position in the edited text; generateMetadataYaml | independent relation "substituted" (leftmost, non-overlapping) and "lists"; line decomposition; inverse by unborderedness; cex by computation |
| C70 | file system as sets of directories and files; std::filesystem calls (libstdc++); main from option checks to writes | path walking is lexical without ".."; case analysis of main; cex by computation |
| C71 | mains of the cutter and of the PCD converter on the same file system | as C70; induction over the directory entries |
| C72 | the entry points of Pcl.v, Wasm.v, Transport.v, Mcap.v, each from the caller's cloud to the decoded one | the round trips C42, C52, C56, C57, C61, C64 give `restored`; per field, C09's bound or equality |
| C73 | `encode_pcd` of Pcl.v (the cloud PCL loaded is a parameter) and the header reader of C49 | induction over the fields; then as C72; cex for I 8 |
| C74 | as C44 and C72; coordinates as reals | error of the float product and of lround bounded over the reals (Flocq), equal voxel indices give the distance; with C44_every_voxel_kept, C72's `message_again` |
| C75 | `print_g6`, `parse_f32`, `round_f32` of FloatText.v (`operator<<(float)` with six digits and `std::stof`), the YAML header | decimal exponent and digits of the printer specified over the reals, the reader is the correct rounding (Flocq `round`), 6 digits are further apart than the float error; with C30 |
| C76 | the stream of C17 with the header of C75 | the decoder uses a resolution only in its last multiplication, so decoding with changed resolutions is decoding with changed float operations (`RenameFacts.decode_ren`), to which C17 applies; error of the changed product over the reals (`FloatOther.v`); cex by computation |
| C77 | `Browser.v`: the Foxglove converter with an explicit heap of live blocks and an arbitrary allocator | case analysis of every path gives the heap back; C61's stream through C52_decode_data; counterexamples computed |
| C78 | `Browser.v`: channels, messages and running totals of the web page, module with and without exception catching | the totals are a sum over channels of sums over messages; exchange of the sums, each message counted once; C52_compute_size for one message |
| C79 | `HashSet.v`: the buckets, probing, displacement, growth and rebuild of `ankerl::unordered_dense::set`, hash function arbitrary | invariant: every stored value has exactly one bucket at its recorded distance from its home, and along the ring a distance grows by at most one step (Robin Hood order); preserved by placing, by induction over the rebuild; so a probe cannot stop before a key that is there; the 32-bit distances do not overflow because a distance is at most the number of values |
| C80 | `QtApp.v`: the window as a state machine over clicks, dialog results and steps of the saving loop, which lets clicks in at its processEvents calls, so that saves nest | invariant over all careful histories (`C80_sessions`): the loop in progress reads the loaded, unreplaced recording, what it wrote so far is the relabelled prefix; `C80_save`: one undisturbed save, by induction on the messages left; crashes, mixing, stuck button and missing conversion: counterexample histories, computed, and `C80_stuck_refuted` for every window |
| C81 | `Inspector.v`: the channel scan, the search for the first message, the values printed, the exit status | induction over channels and messages (`C81_inspect`, `C81_status`); `C81_report` composes with the message and header round trips of C42 and C30; counterexamples computed |
| C82 | `Size32.v`: encoder, decoder and WebAssembly entry points with every size_t expression reduced modulo W, thread creation that may fail | equality with the models of Api.v and Wasm.v when no expression reaches W, induction over chunks; composition with C17; counterexamples computed with the real chunk size |
| C83 | `SchemaText.v` and the message and recording models; independent reader in `SchemaSpec.v` | the parsed schema types are computed once; induction over the type relates the schema-driven reader to the serialiser (written messages) and to the library parser (read messages); a length invariant of the whole decoder; lifted to recordings through C54 |
| C84 | `PyTool.v`; buffers reused between messages have arbitrary contents | induction over the messages with the limit; every message is related to a run of `decode_message` on some buffer of the same size, then C66_round_trip and the uniqueness of the restored values |
| C85 | `Floats.v` quantisers, `FloatOrder.v` (facts), whole clouds through C17 | the decoded value is exactly rnd(rnd(q)·r) with q the nearest integer to rnd(x·m); each step is monotone and odd (equal values give equal integers whatever the tie rule), hence the composition; zero by oddness |
| C86 | `V5.v` sections and mode choice, `ShortSpec.v`, `ShortFacts.v` (facts), whole clouds through the chunk relation of C17 | the chosen mode minimises the exact section size over the probed points; the size of each kind of section is bounded by the number of runs, changes or distinct values, by induction on the column; for a progression the size at the probe already fixes the mode; beyond the probe refuted by a column of 4096 zeros followed by alternating values (size computed symbolically) |
| C87 | the per-point encoders of `Fields.v` and `Codec.v`, specification `BytesSpec.v`, facts `BytesFacts.v` | each encoder object's state is related to the points before (the window coder's to the window of the last change); per step the bytes written equal the specified cost; sums over points and chunks by induction; the coarser-resolution claim refuted by computation |
| C88 | `V5.v`, `Api.v`; facts `WideFacts.v` | every chunk is at most its tight bound (C17's cost function), so the room each write needs is at most the specified one; the refutation shows a chunk's bytes do not depend on the scratch capacity and that 65 columns of C26's cloud exceed it in the second chunk |
| C89 | `Api.v`, `V5.v`, `Codec.v`; facts `JoinFacts.v` | bytes before and behind the points of a chunk do not change its coding, so the chunks of the parts are chunks of the whole; the decoder's loop takes each chunk with its own coding modes; the refutation by the mode chosen for 4096 equal values |
| C90 | `Bench.v` over `Mcap.v`, `Ros.v`, `RosViz.v`, `Header.v`, `Api.v`; facts `BenchFacts.v`, vocabulary `BenchSpec.v` | induction over the messages with the per-topic counters; both runs restore the same bytes over the same buffer (C17, C30, uniqueness of the restored output), by induction over the samples; a step of FNV-1a is injective in the state and in the byte (the multiplier is odd); cex: eight bytes whose hash is 0 |
| C91 | `Api.v`, `Codec.v`, `V5.v`; facts `StreamFacts.v`, `CodeFacts.v`, vocabulary `StreamSpec.v` | the stage-1 chunks depend on the cloud only and each frame is what the compressor makes of its chunk, so the stream is one; small samples quantise again to the same integers (C68), so equal decoded clouds have equal codes and equal streams; C09 twice for the distance |
| C92 | `Api.v`, `Header.v`; facts `ShapeFacts.v`, vocabulary `RenameSpec.v` | every builder of encoders and decoders, the size bounds and the loops read the fields through offset, type and resolution only, by lemmas over the two field lists in step (`like`); the headers by C28 and C30; closed under the global context |
| C93 | `Api.v`; facts `DamageFacts.v` on `ConfineFacts.v` (C59), `SyncFacts.v` (C60), `PropsFrame.v` (C22) | both decoding loops in step: an equal chunk copies agreement of the buffers and restores it at its own points, a differing one spoils only its own points; then C89 for what the undamaged stream gives; closed under the global context |
| C94 | `Left.v` (the memory when decoding stops) beside `Codec.v`, `V5.v`, `Api.v`; facts `LeftFacts.v` on `ConfineFacts.v` (C59) | the same inductions as for C59 with the failing step as one more case; both loops in step through the surviving chunks, after which each touches later points only; a cut stream is its complete chunks and an incomplete one, at which the loop stops before writing; a stream that decodes beside one that differs in its first chunks: whether a chunk decodes depends neither on the output nor on the scratch buffer (C19, C60), so the failure lies in these; cex: the second chunk shortened |
| C95 | as C09, C17: an inductive relation for any number of generations, each an encode and a decode of the public API | induction on the generations; one generation is C09_cloud or, for a field it does not quantise and for NaN, C17; the triangle inequality, with C09_one_step keeping every intermediate sample in reach; cex: 1 at resolutions 2 and 3 |
| C96 | the model of C17; a relation: one encode and one decode of the public API into a given buffer | C17 gives every stored field as a function of the field's bytes and its kind, and the kinds are a function of the fields and the lossiness; what the buffer holds after a restore is unique (C51); cex: 0.5 alone and in a group of three |
