# Formal model of VapourSynth in Rocq — design

The subject is the C++ source in `/repo` (read as text, never built).  The model
is a set of small, total, computable Gallina functions, one group per source
file, each definition carrying a comment with the file and lines it models and
what it leaves out.  Theorems live in `theories/P_*.v` ("property files", nothing
but `Theorem … Proof. exact … Qed. Print Assumptions …`, and the `Example`s that
show the hypotheses are satisfiable); the models and lemmas live in the other
files.  Specifications (what a property *says*) are written with plain list /
integer vocabulary, not with the helpers of the model.

## Trusted base

* The Coq 8.16.1 kernel (`coqc`, re-checked by `coqchk`).  `vm_compute` is used
  for closed finite computations, so the VM is part of the trusted base of those
  lemmas; `native_compute` is not used.
* Axioms: each property file prints the assumptions of each of its theorems.
  Unless the per-property note below says otherwise it is
  `Closed under the global context`.
* The reading of the C++ code: there is no mechanical link between `/repo` and
  the model.  Every model definition cites its source.
* Unless noted otherwise the model does not cover: SIMD variants of the kernels
  (only the portable C++ ones are modelled), floating point pixel paths, the
  operating system, the C++ memory model (threads are interleaved at the
  granularity of critical sections), allocation failure, and plugins'
  own behaviour.

## Conventions

* Integers are `Z`.  Where C++ arithmetic could overflow, either the wrap is
  explicit (`wrap32`, `wrapu32`, `wrap64` …) or the absence of overflow is a
  theorem.  Undefined behaviour is a distinct outcome, never a default value.
* A clip is `numFrames` plus a function/list of frames; a plane is a
  width, a height and a function or list of rows.
* `…_partial`: a strictly weaker statement than the property.
  `…_refuted`: the faithful model violates the property text; the witness is the
  finding, recorded in "Findings" below.

## Properties: what is modelled and how it is proved

* **C01 — Property maps are value types under copy.** Heap of storages with reference counts, handles holding storage ids (`VSMap`'s intrusive pointer); operations detach when shared. Simulation (induction over operation sequences) against a state in which every handle owns a pure map.
* **C02 — Array set / append semantics of map keys.** Executable `propSet`/`propGet` on the same model; per-operation specifications and sequence-of-appends law.
* **C03 — An error map is exactly an error map.** Model carries the error flag separately from the reserved key as the code does; invariant for sequences that avoid the reserved key, refutation for sequences that name it.
* **C04 — Legacy colour range property is a consistent alias.** Model of the alias remapping in each accessor; round trip for the two legal values, refutation elsewhere.
* **C05 — Writing to a frame never changes another frame.** Heap of plane buffers with reference counts, frames as arrays of buffer ids; simulation against frames that own their pixels.
* **C06 — Plane buffers are freed exactly once and accounted exactly.** Same heap; invariant `refcount = number of frame slots pointing at the buffer`, `allocated = sum of live sizes`, plus a model of the pooled allocator.
* **C07 — Frame plane geometry.** Arithmetic on the frame constructor; `lia`/bit-mask lemmas.
* **C08 — Video format identifiers are a bijection on valid formats.** `queryVideoFormatID`/`getVideoFormatByID` as Z arithmetic with shifts and masks; injectivity and round trip.
* **C09 — The frame cache returns only what was inserted.** The doubly linked list with `first/weakpoint/last` pointers and the hash map as a heap of nodes, exactly as coded; representation invariant; abstract list `frames ++ history`.
* **C10 — The frame cache evicts in least recently used order.** Refinement of the pointer model to a two-segment LRU list for every operation sequence.
* **C11 — Cache size adaptation stays bounded and sane.** `recommendSize`/`adjustSize`/`dropLRUFrames` as functions on the statistics; invariant by induction.
* **C12 — A node caches exactly when caching can pay off.** `addConsumer/removeConsumer/updateCacheState/setCacheMode` as a state machine.
* **C13 — Rational helpers compute exact reduced fractions.** Euclid's algorithm as coded (on Z with explicit range hypotheses), `Z.gcd` as the specification.
* **C14 — Trim returns the requested frame interval.** Create function (argument checks, length with 32/64-bit arithmetic) and frame index function as coded; compared with a list specification for all lengths by induction.
* **C15 — Splice is clip concatenation.** Create function (argument checks, length with 32/64-bit arithmetic) and frame index function as coded; compared with a list specification for all lengths by induction.
* **C16 — Reverse is list reversal and an involution.** Create function (argument checks, length with 32/64-bit arithmetic) and frame index function as coded; compared with a list specification for all lengths by induction.
* **C17 — Loop is repetition.** Create function (argument checks, length with 32/64-bit arithmetic) and frame index function as coded; compared with a list specification for all lengths by induction.
* **C18 — Interleave round-robins its inputs.** Create function (argument checks, length with 32/64-bit arithmetic) and frame index function as coded; compared with a list specification for all lengths by induction.
* **C19 — SelectEvery picks exactly the offsets of each cycle.** Create function (argument checks, length with 32/64-bit arithmetic) and frame index function as coded; compared with a list specification for all lengths by induction.
* **C20 — DuplicateFrames and DeleteFrames are inverse edits.** Create function (argument checks, length with 32/64-bit arithmetic) and frame index function as coded; compared with a list specification for all lengths by induction.
* **C21 — FreezeFrames replaces exactly the listed ranges.** Create function (argument checks, length with 32/64-bit arithmetic) and frame index function as coded; compared with a list specification for all lengths by induction.
* **C22 — Declared request patterns are honest.** Each modelled filter's request function and declared pattern; honesty stated for all pairs of output frames.
* **C23 — AudioTrim returns the requested sample interval.** Frame-level model (which source frames are requested, which bytes are copied where) flattened to the sample stream.
* **C24 — AudioSplice is sample concatenation.** Same, with the while-loop over source clips.
* **C25 — AudioLoop repeats the sample stream.** Same.
* **C26 — AudioReverse reverses the sample stream.** Same.
* **C27 — Audio frames have the length the container promises.** Length arithmetic of the node constructor and the frame check.
* **C28 — Audio generator is seekable.** Phase accumulator modulo 2^64.
* **C29 — Crop and AddBorders are inverse.** Byte buffers with bounds (an access outside is UB); the copy and fill loops of both filters shown to produce the crop/pad of the picture; creation-time checks with int overflow as UB.
* **C30 — Flips, turns and transposes obey the dihedral group laws.** All loops on byte buffers, for every frame; group laws as corollaries of the coordinate maps.
* **C31 — Stacking concatenates planes.** Creation folds and copy loops by induction on the list of clips.
* **C32 — Field separation and weaving are inverse.** Row selection by parity, weave loop, field order decisions and properties.
* **C33 — Plane shuffling selects the requested planes.** Creation checks, plane selection, subsampling search, SplitPlanes as a composition.
* **C34 — Merge is a correctly rounded convex combination.** Wrap-around unsigned arithmetic of the kernel; `nia`.
* **C35 — MaskedMerge divides exactly.** Magic multiplication tables for every depth; exactness by a general reciprocal lemma.
* **C36 — Difference clips reconstruct the source.** Clamp arithmetic.
* **C37 — Lookup tables are applied to every pixel and only in bounds.** Tables are partial maps (uninitialised entries are UB); creation shown to accept exactly tables of legal values and to pad them to the storage size. Row kernels on byte buffers: packed groups (OR of shifted values), the VBMI permutation pair and the gather kernel all store the table applied to the clamped sample, in bounds including row padding. LutNeon.v has the NEON kernel with its two loops, wrapping indices and doubled tail; LutNeonFacts.v proves an invariant of both loops, so that frames made on ARM64 are the same and at most seven bytes behind a row are written. Frames follow from a generic theorem on plane loops (Pixel, PixelLemmas).
* **C38 — Limiter, Binarize, Invert meet their pointwise specification.** Generic.v (singlePixel, invertOp, limitOp, binarizeOp, rangeArgs), GenericSingle.v: creation and frame as a map of the specified function over the planes; arguments are doubles in exact IEEE arithmetic (Soft.v on top of the standard library's SpecFloat).
* **C39 — Median selects the true median.** GenericMedian.v: the exchange network commutes with upward closed predicates (0-1 principle proved in Coq), 512 boolean inputs checked by computation, so the result is of rank five for every strict weak order; GenericFacts.v lifts it to whole frames.
* **C40 — Minimum/Maximum/Deflate/Inflate are bounded by threshold and neighbourhood.** GenericOps.v relates the kernels' unsigned 16 bit arithmetic to the specified extremes and means, GenericPlanes.v the three-row walk to the mirrored neighbourhood, GenericFacts.v whole frames and laws.
* **C41 — Convolution borders mirror and never index outside.** GenericLemmas.v (mirroring, tap indices), GenericPlanes.v (columns once, kernels), GenericOps.v (accumulator bounds), GenericFrames.v/GenericFacts.v (creation, frames, refutations).
* **C42 — Fast division in BoxBlur is exact.** BoxBlur.v: `makeFastDivU32`/`fastDivU32` with 32/64-bit wrap. BoxBlurDiv.v: exact for all divisors and dividends (the three cases power of two, 33-bit magic number rounded up, and the add variant).
* **C43 — BoxBlur computes the clamped window mean.** BoxBlurSpec.v states the clamped window mean. BoxBlur.v models blurH, blurH_inplace with its ring, blurHR1, processPlane(R1), the getframe function and the chain ShufflePlanes / BoxBlur / Transpose / BoxBlur / Transpose / ShufflePlanes for integer formats. BoxBlurRows.v: loop invariants; BoxBlurPlanes.v: planes and passes; BoxBlurFrames.v: whole frames and arguments.
* **C44 — AverageFrames weights.** Average.v models averageframesfilter.cpp for integer formats (create, frame fetching, scene change redistribution, kernel with UB on int32 overflow, lrintf of float products in SpecFloat). AverageSpec.v states weighted sums, the quotient up to 1/2 + 2^-21 relative, and scenes independently. SoftErr.v proves relative error bounds for rounding, products and quotients of normal floats; AverageNear.v applies them; AverageFrames.v lifts to frames.
* **C45 — PlaneStats reports exact statistics.** PlaneStats.v models the C, SSE2 and AVX2 kernels lane by lane (masks, horizontal reductions, biased 16-bit lanes, 32-bit accumulators spilled every 32768 groups), proved equal to the folds of PlaneStatsSpec.v by invariants over groups and rows (PlaneStatsLemmas/Vec/Word/Avx/AvxWord.v); PlaneStatsFrames.v bounds the rounding error of the quotients and states the theorem for whole frames.
* **C46 — Expr parsing accepts exactly well-formed postfix expressions.** `Expr.v` (`tokenize`, `decodeToken`, `parseOp`) against `ExprSpec.v` (`written`, `vocabulary`, `itemOf`, `result`): the parser's stack of trees is kept in step with a stack of values by induction on the words; both accept the same words and the tree has the value. Numbers are recognised by a parameter.
* **C47 — Expr code generation and register allocation preserve meaning.** `number`, `emit`, `rename`, `compile` in `Expr.v`; `eval` and `run` in `ExprSpec.v`. Invariant of numbering: number i denotes the i-th distinct tree, children are numbered before parents (`inv`), and emission produces exactly one instruction per number (`number_emit`). Renaming is a simulation (`rinv`): live values sit in distinct registers outside the free list.
* **C48 — Expr algebraic rewriting preserves the value.** Trees, arithmetic of constants and equality in `RwSyntax.v`; values over the reals in `RwSpec.v` (None where not defined, the branch not taken need not be); every pass and both loops of `compile` in `Rw.v`, generic in the arithmetic, with a flag for the one-line correction of the empty sum. `RwSound.v`/`RwSound2.v` prove each rule a refinement, `RwPow.v` has the laws of powers with their side conditions. For the algebraic pass (`RwAlg.v`): value of a list of factors (`pv`) and of terms (`tsum`), preserved by expansion, merging, sorting and emission; `covered` (in `RwSpec.v`) says by the place of a subexpression what the laws need, and is itself preserved by all passes of the first loop (`RwDriver.v`), so that the loop is an induction. `RwRat.v` runs the optimiser on rationals, for the refutations in `RwFacts.v` and for comparing with the repository's own reference outputs (68 of 69 equal, one differs in the last digit of a rounded constant). Rounding is out of scope.
* **C49 — Every asynchronous frame request is answered exactly once.** `Sched.v`: the pool as a state machine over contexts (key, order, waiters, outstanding count, frames, error, requests), the task lists, running threads with phases, node locks and thread counts; steps are the critical sections of `runTasks`, `start`, `startInternalRequest`. `SchedInv.v`/`SchedStep.v`: structural invariant (`ginv`) by induction over steps; `SchedHist.v`: history of results; ghost fields record what was finished, told and called. P_Sched.v.
* **C50 — Concurrent requests for one frame are computed once.** Same machine: `one_production`, `attaches`, `all_told`; concrete run for the refutation (`twice_ex`).
* **C51 — Filter mode concurrency contracts.** Same machine, `SchedSerial.v`: node lock held iff a locked call runs, serial frame owner; concrete run for the refutation (`beside_ex`).
* **C52 — Errors reach every waiter and only failing dependants.** Same machine, `SchedHist.v`: result of a context determined by the first failure in what it received.
* **C53 — The thread pool always makes progress.** Same machine, `SchedThreads.v`: `scan_progress` (by induction on the rank of nodes), thread accounting `tinv`.
* **C54 — Task priority is request order.** Same machine, `SchedOrder.v`: task list sorted at every step; what `scan` passes over; concrete run for the inversion.
* **C55 — Sequential access wrapper requests every frame in order.** `Linear.v`: `linearThreshold` (MakeLinear), `getFrame` (the wrapper around a filter given as a state transformer, its cache the model of C09-C12). `LinearSpec.v`: strictly increasing gapless calls. Proof by induction over the fill loop; `C55_refuted` by a filter that fails once.
* **C56 — Function signature strings and argument checking.** `Args.v`: parseArgString and the checks of invoke on byte strings; `ArgsSpec.v`: an independent grammar (fields, identifier, type name, modifiers). Acceptance iff grammar; text written by getV3ArgString/getV4ArgString reads back. `_refuted` for distinct names.
* **C57 — Frame number handling at the API boundary.** `ApiFrames.v`: request, fetch, early release on association lists; uses startInternal of the pool model for the fatal case; the caller's error buffer as bytes.
* **C58 — Log handler bookkeeping.** `Log.v`: core with handlers by identity, retained messages, callbacks that may log themselves; trace of deliveries and frees compared with `LogSpec.v` (what each handler hears, computed from the operations alone) for every operation sequence. API 3 log likewise.
* **C59 — vspipe writes frames in order, all of them, before finishing.** `Pipe.v`: machine of frame requests, callbacks (with the write loop split off so that the main thread can run in between) and the waiting main thread; invariants by induction over all reachable states, frames with and without alpha, write failures, any completion order.
* **C60 — vspipe numeric options.** `Opt.v`: from_chars on byte strings, svToInt/svToInt64, the whole option loop; exact characterisation against an independent reading of decimals, round trip through a renderer of command lines.
* **C61 — JSON output is well formed and lossless.** `Json.v`: escapeJSONString, doubleToString, convertVSMapToJSON and the whole file on byte lists; `JsonSpec.v` is an independent JSON parser with the intended meaning of a map; the text is parsed back to that meaning, and is UTF-8 if the inputs are. std::to_chars of a double is abstract (a numeral or a text of a non-number).
* **C62 — Wave headers and sample packing.** `Wave.v`: both headers byte by byte, the packing loops and whole files; `WaveSpec.v` is an independent reader of RIFF and Wave64 and of interleaved samples; written files read back to the clip, or are refused.
* **C63 — Half precision conversion.** `Half.v`: the portable branch bit by bit, float multiplication and subtraction by the standard library specification of IEEE arithmetic; `HalfSpec.v` gives the numbers as integers. Exactness of widening, round trip, nearest result against every half, threshold of overflow, ties.
* **C64 — API 3 format registry.** Registry state machine (sorted list + counter); invariant by induction over queries; pigeonhole bound on the counter.
* **C65 — Audio formats.** Total functions, acceptance characterised.
* **C66 — Vector merge kernels agree with the scalar ones and stay inside the row.** Lane-level model of every intrinsic used (Simd.v); each vector kernel shown equal to a per-lane function, each lane function to the scalar kernel on in-range samples; row loops with UB for accesses past the row.
* **C67 — PreMultiply and premultiplied MaskedMerge.** Scalar kernels with explicit unsigned wrap-around; result characterised as the nearest integer.
* **C68 — Merge weight list is validated before it is stored.** mergeCreate as a partial function with UB for the store past fweight[3].
* **C69 — MaskedMerge accepts only masks its kernels can read.** The acceptance test over abstract formats.
* **C70 — Channel routing.** Channel sets as 64-bit layouts; insertion sort for std::sort; every output plane shown to serve the padded source stream; acceptance characterised; split/shuffle round trip.
* **C71 — Integer audio quantisation.** Doubles as rationals plus infinities and NaN; rounding, clamp, scale and cast modelled; nearest grid value proved over the rationals; NaN refutation.
* **C72 — Declared request patterns of audio filters.** Request functions against the meaning of each pattern (ReqPat.v).
* **C73 — Clip reports name the right samples.** The int arithmetic of the report with overflow as UB.
* **C74 — Vector transposition kernels equal the scalar ones.** Both kernels on byte buffers; the SSE2 unpack sequences as byte permutations; each block and edge loop shown to store the transposed samples.
* **C75 — Levels tables.** GenericLevels.v: each entry is either undefined exactly when its sum is NaN or in range; table total under finite ranges; frame theorem through the lookup kernels.
* **C76 — Gradient operators.** GenericFacts.v: the kernel is G(gx, gy) with G symmetric and zero at the origin; symmetry of the gradient picture under flips and transposition.
* **C77 — BoxBlur honours the list of planes.** BoxBlurFrames.v: whole frame theorem for three planes; witness for single plane clips.
* **C78 — Video files written by vspipe.** Y4m.v models the header, the row copies through the buffer and the order of the planes over byte lists with strides; Y4mSpec.v has an independent reader of y4m files. Round trip by a decoder theorem; Gray clips with floats get the same header as integer ones, proved as a refutation.
* **C79 — Timecodes written by vspipe.** Time.v models the map of durations with counts and the binary64 arithmetic of getCurrentTimecode; SoftAdd.v has the error analysis (n roundings keep the value within (1-u)^n both ways). Invariant: the map holds the number of occurrences of each duration.
* **C80 — Text drawn on frames.** Text.v models sanitise_text, split_text, the three character painters, the blanking of chroma, scrawl_text and textGetFrame with the planes as byte buffers; TextSpec.v says which glyph point belongs to a pixel. TextDraw.v proves rectangles, lines and blocks by induction over the loops (fill and store inside the buffer), TextFrame.v planes, TextFacts.v frames and the placement facts.
* **C81 — Filters that change frame properties.** Props.v models the five filters over the property map of SMap.v/MapAlias.v, with the translation of patterns into regular expressions, a parser for the expressions produced (ECMAScript: groups, stars, escapes, errors for stray syntax) and a backtracking matcher; PropsSpec.v says which texts a pattern stands for without regular expressions. Proved: creation rules, the entry of every name after each filter, that reading gives back what was set, that a pattern always compiles and matches exactly its texts (identifiers have no line ends, the only characters a dot does not match), and that the results are again legal maps. Refuted: invalid names are accepted and ignored, the old name of the range in RemoveFrameProps and CopyFrameProps.
* **C82 — Clips stored in frame properties.** ClipProp.v models creation and one frame of ClipToProp and PropToClip with frames as numbers whose kind, format and size a store gives, on top of the property maps of C81. Proved: planes, other properties and length of the result, the round trip, that returned frames have the declared format and size, that the request patterns are honest in the sense of ReqPat.v. Refuted: a name that is no identifier is accepted and the clip lost; an audio frame in the property is taken for a video frame.
* **C83 — Descriptions of clips, BlankClip and AssumeFPS.** Blank.v models the check of descriptions, the conversion of colours with exact doubles, creation and frames of BlankClip on the frames of C05 to C07, and AssumeFPS. BlankNum.v proves that adding one half never leaves 32 bits and is exact for whole numbers; BlankLemmas.v proves what creation returns, which arguments can overflow, and that fill covers every sample of every plane. Refuted: rates 24/0 and 0/1 are accepted, a rate above 2^63/10 overflows when the length is computed, the largest number below one half becomes 1, numbers above 32 bits are accepted for 32 bit formats.
* **C84 — Changing the sample rate and the channels of audio.** `Resample.v` models the greatest common divisor, the size of the filter (in exact binary64 via SpecFloat), the range of input samples of a frame, gathering, mixing, filtering with its running position, and the length of the result; reading, storing and the coefficient table are parameters. `ResampleSpec.v` states every output sample as a function of the whole stream. `ResampleLemmas.v` proves the refinement by loop invariants, `ResampleBank.v` the numbers (error bounds of the two divisions show that the rounded-up quotient is right or one too large).
* **C85 — AudioResample converts samples between formats to the nearest representable level.** Convert.v models ditherMix, ditherValue, convertPlane for one sample, the scale factors, needsDither and resolveDither and the frame function, with doubles as IEEE values (SpecFloat) and the cast to int16_t or int32_t undefined when the value does not fit. ConvertSpec.v states the meaning in integers: a sample is a fraction of full scale, the result is a rounded and limited step of the grid. SoftVal.v gives doubles exact values in units of 2^-1074 and proves comparison, scaling by powers of two and addition (correctly rounded, exact when 53 digits suffice) on them; ConvertLemmas.v follows a sample through scaling, rounding, clamping and the cast; ConvertFacts.v adds the dither, infinities, not-a-number and the injectivity of the hash (xor shifts and odd multipliers are undone); ConvertRound.v has conversion to floats, the round trips and the frames.
* **C86 — AudioResample mixes channels by one table, without losing, doubling or overloading them.** Mix.v models layoutChannels, groundEquivalent, has, add, foldSurround, the switch over the channel, the normalisation and the silent rows, as stores into a vector with bounds checks and with double arithmetic (SpecFloat). MixSpec.v holds the table as data (lines of targets with levels) and the weight as a function of layouts. MixLemmas.v proves that the nested conditions choose the first fitting line of the table and the facts of the table by case analysis on the position; MixBuild.v follows the loops (column invariants); MixLoud.v proves division correctly rounded on exact values and bounds the accumulated rounding of row sums; MixFinal.v combines them.
* **C87 — The SSE2, AVX2 and AVX-512 kernels of the 3x3 filters give the picture of the scalar kernels.** GenericSimd.v models the kernels as functions on lists of lanes with the instructions of Simd.v: unpacking, packing with saturation per 128 bit block, the biased word domain, conversions to and from float with the out of range value of cvtps2dq, the byte shifts across blocks that insert the border sample, and the driver with aligned loads and stores that fault. GenericSimdLanes.v reduces every kernel to a function of one lane; SoftLe.v and GenericSimdFloat.v bound float results; GenericSimdOps.v proves each lane function equal to the operation of Generic.v; GenericSimdEdges.v and GenericSimdRows.v prove the border registers and the driver; GenericSimdPlanes.v and GenericSimdFacts.v combine them and give the counterexamples. Float and half kernels are not modelled (the source does not claim equality there).
* **C88 — The resize filters record the colour description of the pictures they make.** ResizeSpec.v states the documented precedence (inputColour, outputColour), what records a description (describes) and the documented name tables. Resize.v models the filter function by function: translation of formats, import and export of frame properties, the enum options, creation, the identity test and the conversion through an abstract conversion library (a parameter: a partial function from two descriptions to a function on lists of pictures). ResizeColour.v and ResizeColour2.v prove the description of results, the copying case, the error for bad ranges, the facts known after creation and the tables.
* **C89 — Resizing keeps the shape of the picture on the display.** propagateSar of Resize.v uses the exact double arithmetic of Soft.v for the region (llround of sixteen times the size) and the overflow-checked muldivRational of Rational.v. ResizeSar.v proves the equation of display shapes by following the two multiplications with their reductions, and computes the counterexamples.
* **C90 — Interlaced frames are resized field by field and others as a whole.** Resize.v models planes as byte buffers, reading and writing pictures with a row distance and start per field, the three cache slots, operator== on descriptions, and arbitrary interference of other threads with the cache between the two lookups. ResizeFields.v proves which bytes writing a field changes, lifts it to planes and frames, proves that getGraph returns a conversion that does the same as a fresh one and never one that could not be built, and combines them. Assumed of the conversion library (goodZimg, satisfied by an example converter): pictures of the asked size with samples that fit, equal pictures for equal pictures, and no difference between descriptions that operator== identifies.
* **C91 — Plugins and their functions are registered once and stay.** PluginSpec.v defines the lines of a text. Plugin.v models configPlugin, registerFunction (with the argument parser of Args.v), the constructors for libraries and for the plugins of the core, the register as the ordered map of SMap.v, lookups, iteration, loadPlugin, sequences of loads and registrations, the splitting of manifests with the positions of std::string, and the choice of a processor level. PluginLemmas.v proves an invariant (ordered, filed under its identifier, namespaces distinct, functions filed under their names) for every reachable register and derives the rest.
* **C92 — Filter instances are freed exactly once, after their users, and the core goes last.** Lifetime.v is a machine of threads, each with the rest of its call stack as a list of actions, its freeDepth and its nodeFreeList; nodes with reference counts, dependencies and the references their instance data holds; cores with the count of instances. LifetimeLemmas.v proves an invariant by counting: the reference count of a node is what users, live nodes, unfreed instances and pending releases hold; every dead node is in exactly one phase (destructor, list, call, done); the count of a core is its handle, its live nodes and its pending instances; stacks have one of five shapes. LifetimeFacts.v derives the theorems, termination by a potential that every step lowers.
* **C93 — The AVX2, AVX-512 and VNNI kernels of the 5x5 to 11x11 convolutions give the picture of the scalar kernel.** SquareSimd.v models the kernels register by register: loads with the bias of words, pmaddwd of pairs of taps, 32 or 64 bit sums, the conversion of 64 bit integers to double by bit tricks (AVX2) or directly (AVX-512), the fused scaling, saturating packs, the groups of blocks, the overlapping last block, and for VNNI the masked loads, byte permutation and vpdpbusd. SquareSimdFloat.v proves the float facts (the bit trick is exact below 2^51, when a fused multiplication equals two operations), SquareSimdLanes.v that every lane holds the sum of its own column, SquareSimdPlanes.v the rows and planes, SquareSimdFacts.v the comparison with the scalar kernel of Generic.v and the counterexamples, derived from the general theorem on pictures of one value.
* **C94 — The SSE2, AVX2 and AVX-512 kernels of the horizontal, vertical and separable convolutions stay inside their buffers and give the picture of the scalar kernels.** ConvSimd.v models the kernels register by register: widening loads, the bias of words, pmaddwd of pairs of taps, passes that spill their accumulators to memory, scaling and saturating packs, the padded copies of both ends of a row with their mirrored samples, the bounce buffer of narrow rows, the clamped row pointers of the vertical pass and the row buffer of the separable filter; every access is checked against its buffer. ConvSimdLanes.v proves that each lane holds the sum of its own column whatever the split into passes, ConvSimdScan.v the scan lines, ConvSimdPlanes.v rows and planes for the three directions, ConvSimdRoom.v that the separable kernel needs the room it needs, ConvSimdFacts.v the comparison with the scalar kernels of Generic.v and the counterexamples.
* **C95 — FrameEval and ModifyFrame deliver, for every frame and in every order of service, what the function answered for that frame, and keep nothing between frames.** Eval.v models frameEvalGetFrameWithProps, frameEvalGetFrameNoProps and modifyFrameGetFrame with every activation reason: the two instance maps, frameData, references to nodes and frames as tallies (giving back what is not owned is undefined), the user function as an arbitrary function of the call number, the argument map and the result map it is handed, and the checks of size and format, which are undefined on audio frames; and a driver that starts, serves and fails any number of contexts in any order. EvalSpec.v says what is owed for an answer. EvalLemmas.v treats single calls, EvalRun.v proves the invariant over all runs (empty maps, references equal to the contexts holding them, calls made for the frame, a balance of starts, calls, waiting and finished frames), EvalFacts.v draws the consequences, among them that with a pure function no frame depends on the order of events. Creation (reading arguments, the declared request patterns) is not modelled.
* **C96 — vspipe prints the filter graph with exactly the nodes and edges the output depends on, each once and readable, and one row of times per node.** Graph.v models the two recursive helpers as one walk with a visited set and two recording actions, std::set and std::map of strings as ordered lists with insertion, replaceAll and escapeDotString as scans, printVSMap with its limit of five elements, the labels and lines of nodes and edges and the printing itself; a node without a call record is undefined behaviour (null pointers). GraphWalk.v proves that every walk performs the actions of the recording walk, and that this meets each reachable node once and each edge into those, by induction over the layers of the graph with sets closed below a layer. GraphLemmas.v proves the sets and maps, that the four replacements are one pass over the text, and what stays inside quotes of the DOT language; GraphFacts.v puts the graph, the table and the labels together. The written form of floating point numbers, clips and times is a parameter.
* **C97 — Memory admission control measures filter calls exactly, never stalls the pool, keeps correctly predicted allocations within five quarters of the limit, and takes frames from the least valuable caches first.** Admission.v models the thread local counters with begin_call_tracking and end_call_tracking over programs of allocations, frees and nested calls; updateTransientAllocEstimate and expectedTransientAllocation, with overflow of int64_t as undefined behaviour; the decision of the thread pool with its counters over events of starting, allocating, freeing and ending calls; and the sweep of notifyCaches over the sorted entries, with a cache as the list of its frames from the least recently used on. AdmissionSpec.v says what these are for: the high water mark of a list of changes, the estimate as a maximum of aged measurements, the bytes of a frame, calls that keep to predictions. AdmissionFacts.v proves the measurement by induction over programs, the estimate by induction over histories, the bound as an invariant of runs (memory outside the calls plus all estimates), and the sweep by its shape: caches emptied, one cut short, caches untouched. The events are atomic, as starting a call happens under the lock of the pool; that the counters go down outside it only makes the estimate of what runs larger or a call seen as ended that no longer allocates.
* **C98 — Pictures for Video for Windows have exactly the announced size, layout and bits per pixel.** Fourcc.v models the table with all its fields, find_traits, GetFourCC, the three row sizes with int overflow as undefined behaviour and unsigned arithmetic where the program has it, BMPSize, BitsPerPixel, and PackOutputFrame as the blocks of rows it writes: planar copies with the running pointer, semiplanar and interleaved layouts with the strides given to the p2p library, whose writes per row are a contract since the library is not in the repository. FourccSpec.v has the documented row sizes of the codes, the bytes of planes, and what it means for blocks to be inside a buffer and not to overlap. FourccFacts.v proves that blocks one after the other tile the buffer, each kind of entry by arithmetic, and what depends on the table by going through its entries. The semiplanar layout and the direction of interleaved rows (upwards only for DIB) are stated exactly as well.
* **C99 — Expr accepts exactly the documented calls and applies each expression to every pixel of its plane, on every processor.** ExprFilter.v models exprCreate with its order of checks, the choice of the operation for each plane, the choice between interpreter and compiled lines from the processor's features, and exprGetFrame over byte buffers. The compiler and the value of a program are parameters, being the subject of C46 to C48; the compiled line is taken to do the same in each lane. ExprFilterSpec.v states the documented rules. ExprFilterFacts.v proves acceptance in both directions, that groups of 8 or 16 pixels of any sample size divide the alignment of the processor and so stay within the stride, and the frames from the generic theorem on plane loops.
* **C100 — The Python configured for a vsscript library is the one vsscript finds.** EnvConfig.v models the writer (mangling of the key, escaping, the line format, assignment to the dictionary) and the reader (getline, the search for quotes with offsets, unescaping, atoll) byte by byte. EnvConfigSpec.v says what a lookup should answer for a list of installations. The proof is a round trip for one string at any offset, then for a line, then for the file. What tomllib gets out of the old file is an argument; Windows paths, lexically_normal and the sub-second part of modification times are not modelled.
* **C101 — Callers of vsscript are told the result, error and exit code of the script just evaluated, and its outputs.** ScriptEval.v models the handle with its error string as a reference into a list of counted strings, the three places that set it and the two that release it; what Python does with a script is given by its outcome. ScriptEvalSpec.v says which message and exit code belong to a call. The proof keeps the invariant that the error of the handle is a string with a reference, so it can be read and released; the outputs are proved with an insertion sort in place of std::sort.
* **C102 — Variables set in a script through vsscript are read back unchanged.** PyMap.v models mapToDict, dictToMap, the two range filters and the two functions on variables over maps as lists of keys and properties; the validity of UTF-8 and of keys are parameters. PyMapSpec.v has the values on both sides and when a property counts as the same. Proved as a round trip element by element, then property by property, with the usual lemmas on dictionaries.
* **C103 — The arguments of a call from Python reach the parameters they are meant for.** PyCall.v models the removal of underscores and the loop over the signature with its three containers, values being of any type. PyCallSpec.v says without the loop which parameters are open, what a parameter's value is and which names are left. Proved by induction over the signature for any state of the containers.
* **C104 — Slices of clips in Python are slices of the sequence of frames.** PySlice.v models __getitem__ with slice.indices of Python and the models of Trim, Reverse and SelectEvery from Reorder.v. PySliceSpec.v says by clamping which item the i-th of a slice is and when the slice ends. Each filter is shown to yield a list with given length and items, and the three are composed.

## Findings

Places where the faithful model violates the property one would expect; each has a
`_refuted` theorem with a concrete witness unless marked "not modelled".

* **addRational (C13).** The equal-denominator branch adds numerators without reducing
  (`1/4 + 1/4` gives `2/4`). `VSHelper4.h`, `addRational`.
* **Trim at INT_MAX (C14).** Saturating 64 to 32 bit conversion accepts a request that
  points one past the end when the clip has exactly INT_MAX frames.
* **Loop (C17).** A one frame clip looped more than INT_MAX times is silently shortened to INT_MAX.
* **Interleave extend (C18).** `numFrames * numclips` is computed in `int`; overflow is undefined.
* **Cache counters (C09–C11, not modelled).** Fixed-size caches never clear their hit
  statistics, so the `int` counters would overflow after 2^31 lookups.
* **Error map (C03).** The error flag and the `_Error` key are independent: deleting or
  overwriting the key on an error map leaves the flag set and `mapGetError` then
  dereferences null or reinterprets an array of another type. `copyMap` from an error map
  copies the key but not the flag.
* **Colour range alias (C04).** `mapGetIntArray("_ColorRange")` returns 0 for every stored
  value other than 0 and 1, and returns unflipped values when there are several.
  Floats and data stored under `_ColorRange` are not remapped, while
  `mapNumElements`/`mapGetType` always remap, so such a property is reported as absent.
* **Plane sharing (C07).** `newVideoFrame2` checks the dimensions of a source plane but not its
  sample size, so an 8 bit plane can become a plane of a 16 bit frame; rows of the new frame
  then reach beyond the buffer.  Likewise `newAudioFrame2` for channels of another sample size.
* **Long audio frames (C07).** `newAudioFrame` only rejects `numSamples <= 0`; more than 3072
  samples are accepted while the buffer always holds 3072 per channel.
* **Kept write pointers (C05).** A pointer obtained from `getWritePtr` before `copyFrame` stays
  valid and writes into the plane now shared with the copy.
* **Merge weights (C68).** `mergeCreate` stores every given weight into `fweight[3]` before comparing
  the count with the number of planes: a fourth weight is written past the array.
* **MaskedMerge mask type (C69).** Only `bitsPerSample` is compared for a Gray (or `first_plane`) mask,
  so a half float mask is accepted with 16 bit integer clips (and a 32 bit integer one with float
  clips) and its bits are read as the wrong type.
* **AudioTrim (C23).** `first + length` is computed in 64 bit signed arithmetic before being compared
  with the clip length; large arguments overflow.
* **AudioSplice (C24).** The total length is summed in `int64_t` without a check; the limit check on the
  partial sums comes later.  Needs about 1.4 million clips of maximal length.
* **BlankAudio keep (C27).** With `keep=1` the frame kept is the one of the first request, whatever its
  length; with a length that is not a multiple of 3072 the last frame then has the wrong length, which
  the core answers with a fatal error.
* **AudioGain and AudioMix (C71).** A gain of infinity (accepted) times a zero sample is NaN, `std::clamp`
  returns it and the cast to an integer is undefined.
* **ShuffleChannels pattern (C72).** The test for `rpStrictSpatial` compares with the frame count of the
  source of the lowest output channel, not with that of the output, so a shorter source is declared
  strictly spatial and then requested past its end.
* **Clip reports (C73).** `n * VS_AUDIO_FRAME_SAMPLES` is computed in `int`: undefined from frame 699051
  (about 12 hours at 48 kHz).
* **Crop and AddBorders arguments (C29).** `width + x`, `height + y` (cropVerify), `vi.height - y - bottom`
  (CropRel) and `left + right` (AddBorders) are computed in `int` from saturated script arguments without
  a check.  CropAbs with left=2147483647, width=640 is undefined; with wrapping arithmetic the window is
  accepted and the copy reads far outside the plane.
* **Stacks of odd subsampled clips (C31).** Node creation does not check that the dimensions are multiples
  of the subsampling.  If a plugin produces such a clip, StackVertical leaves chroma rows uninitialised.
* **DoubleWeave, last frame (C32).** The second field of the last frame is the last field again; without
  `tff` the frame is an error ("field order could not be determined"), so a separated and rewoven clip
  cannot be read to the end without SelectEvery.
* **ShufflePlanes with ratio 32 (C33).** findSubSampling tries shifts 0 to 5, the maximal subsampling is
  4; queryVideoFormat fails, its result is ignored and a node of undefined format with zero planes is
  created.
* **Lut with a function that fails silently (C37).** `funcToLut` uses an empty `errstr` to mean success, so a native function that calls `mapSetError(out, "")` stops the fill and the filter is created with an uninitialised table (`C37_silent_error_refuted`). Python exceptions always have text, so only C functions reach this.
* **Lut with fewer planes and another depth (C37).** `Lut(clip, planes=[0], bits=16, ...)` on an 8 bit YUV clip shares the 8 bit chroma buffers in a 16 bit frame; their rows are shorter than the format says and later readers run past the buffer (`C37_unprocessed_planes_refuted`). The same applies to Lut2.
* **Lut2 with a one plane second clip (C37).** Subsampling, size and sample type are compared but not the number of planes: a 4:4:4 or RGB first clip with a gray second clip dereferences a null plane pointer (`C37_lut2_missing_plane_refuted`).
* **Range arguments are rounded before they are checked (C38).** `getRangeArg` style limits of `-1.25` for an integer clip become `(int64)(−1.25 + 0.5) = 0` and are accepted; NaN and values of 2^63 and more reach the double to int64 cast, which is undefined.
* **Tiny divisors (C41).** `divisor=2^-140` is accepted (only 0 is replaced), its reciprocal is infinite in single precision, and a black neighbourhood gives 0·inf = NaN, which is passed to `lrint`.
* **Mirroring overflows (C41).** The square convolutions compute `2*len - 1 - pos`-like expressions in `int`; a plane of 2^30 columns or rows overflows.
* **Levels with a huge output range (C75).** `max_out - min_out` of `FLT_MAX - -FLT_MAX` is infinite; 0·inf = NaN passes the clamp and is cast to an integer while the table is built.
* **BoxBlur ignores `planes` on single plane clips (C77).** `boxBlurCreate` consults `process` only when the clip has several planes; `BoxBlur(gray, planes=[1])` blurs plane 0.
* **AverageFrames scale 2^31 (C44).** `floatToIntS` compares with `(float)INT_MAX = 2^31`, so exactly 2147483648.0 passes the saturation test, `lround` gives 2^31 and the cast to `int` wraps to `INT_MIN`: the scale is rejected as not positive while larger ones saturate and are accepted (shown in `C44_arguments_ex`; harmless, the accepted values all satisfy the bounds).
* **External requests are not merged (C50, C51).** `VSThreadPool::startExternal` queues a new context without looking in `allContexts`, and only internal contexts are entered there. Two `getFrameAsync` calls for one frame, or one beside a filter's request for it, run the filter for the same frame in two threads at once when its mode is parallel.
* **Admission control and nested requests (C53).** A thread in which a filter blocks in a synchronous `getFrame` still counts as processing, so every task whose expected allocation does not fit is passed over; if the task it waits for is among them the pool stops. With no nested requests the scan is shown never to come up empty.
* **Priority inversion (C54).** When a production is shared with an earlier external request only its own order is lowered; its dependencies already queued keep the order of the later request.
* **Linear wrapper after a failure (C55).** When the wrapped filter returns no frame on the way to frame n the wrapper returns without advancing `lastFrame`, though the filter has already produced the frames before the failing one; the next request calls it again from the old position, so a filter that relies on strictly increasing calls sees some frames twice (`C55_refuted`). `lastFrame` is also unsynchronised; only modes that serialise calls are safe.
* **Duplicate argument names (C56).** `VSPluginFunction::parseArgString` does not compare names: `a:int;a:data;` registers, and no argument map can satisfy it (`C56_distinct_names_refuted`, `C56_uncallable`). "any" is accepted anywhere in the string and empty fields are skipped.
* **Early release past the end (C57).** `requestFrameFilter` and `getFrameFilter` clamp the frame number, `releaseFrameEarly` does not: a filter that requests and gets n ≥ numFrames and then releases n releases nothing (`C57_release_refuted`).
* **Free callback of a log handler (C58).** `removeLogHandler` deletes the handle, which runs the free callback, before erasing it from the set of handlers; a callback that logs is answered through the handler being freed (`C58_nothing_after_refuted`).
* **vspipe may leave before the last write (C59).** `completedFrames` is increased at the start of the callback and the main thread's predicate looks only at the counts, so it can be true while the last frame is still being written; outputNode then returns and the file is closed (`C59_refuted`). The counts are also read and written by different threads without the mutex. Elsewhere in vspipe.cpp: after a failing Trim of the alpha clip the result map is freed twice, and the untrimmed alpha node is never freed.
* **Numbers out of range on the command line (C60).** svToInt and svToInt64 compare only the end pointer of `from_chars`: `-s 99999999999999999999` and `-r ""` are accepted and leave the default (`C60_refuted`).
* **JSON that is none (C61).** Properties holding clips, frames or functions give no value at all, and NaN or infinite doubles are written as `nan`/`inf` (`C61_wellformed_refuted`); data marked UTF-8 is cut at its first NUL (`C61_nul_refuted`); a double needing more than 100 characters in fixed notation, e.g. 1e100, makes `to_chars` fail, whose result is not looked at (`C61_long_refuted`); `--json` of an audio clip writes objects without the surrounding brackets (`C61_audio_refuted`).
* **Wave headers (C62).** The data chunk is not padded to an even size (`C62_padding_refuted`), and nAvgBytesPerSec wraps for enormous sample rates (`C62_rate_refuted`).
* **Half floats (C63).** The portable conversion rounds ties away from zero: 1 + 2^-11 becomes 0x3C01, with F16C 0x3C00, although generic.cpp and merge.cpp say that floatToHalf rounds to nearest-even, so the filters differ between builds and between the C and the vector kernels (`C63_ties_even_refuted`). `isInfHalf` is true for NaN as well (`C63_isInf_refuted`).
* **The optimiser of Expr loses constants (C48).** AdditiveSequence::emit returns 0 when no term is left, without looking at the scalar: `x x - 5 +` and `x 5 + x -` compile to the constant 0 (`C48_lost_constant_refuted`). combinePowerTerms turns `x 2 pow x *` into x to the power 2+1, its variable `changed` is shadowed so that no constant folding comes first, and the algebraic pass then makes the exponent 0: `x 2 pow x *` and `x sqrt x *` compile to the constant 1 (`C48_power_refuted`).
* **Roots of products (C48).** Below a product, the square root of a product is taken apart factor by factor: `y x x * sqrt *` becomes x*y, which has the wrong sign for negative x (`C48_sign_refuted`), and `z x y * sqrt *` becomes NaN where x and y are both negative (`C48_domain_refuted`). The same expansion computes `pow(-2, 0.5)` for `y x -2 * sqrt *`.
* **0 to the power x (C48).** `0 x pow` becomes 0, also at x = 0 where the C library gives 1 (`C48_zero_power_refuted`). Exponents outside the range of int reach `static_cast<int>` in applyLocalOptimizations and emitIntegerPow, which is undefined behaviour in C++.
* **Gray float clips in y4m files (C78).** initializeVideoOutput names Gray formats `mono` + bits without asking for the sample type, so GrayH and GrayS clips are written as mono16 and mono32; the file is byte for byte the one of an integer clip (`C78_gray_float_always`), while float YUV clips get a letter. A reader cannot tell them apart (`C78_gray_float_refuted`).
* **Colour left under centred text (C80).** scrawl_text blanks the chroma samples from `dest_x >> subSamplingW` on, `(8 * scale) >> subSamplingW` of them. When the text is centred, `start_x = (width - length * 8 * scale) / 2` need not be a multiple of the subsampling: on 4:2:0 clips whose width is 2 modulo 4 (854 for instance) the last column of every line keeps its colour while the first sample blanked belongs half to the picture (`C80_gray_refuted`). With alignment 1, 3, 7 or 9 this cannot happen (`C80_gray_partial`).
* **SetFrameProp ignores bad names (C81).** `setFramePropCreate` checks only that the name is not empty. With a name such as `my prop` the filter is created, and every frame passes unchanged because `mapSetInt` refuses the name and its result is not looked at.
* **RemoveFrameProps does not know the old range name (C81).** The loop compares the patterns with the names in the map, which holds `_Range`. A clip whose `_ColorRange` can be read keeps it after `RemoveFrameProps(props="_ColorRange")`, although `mapDeleteKey` would remove it.
* **CopyFrameProps of `_ColorRange` (C81).** `mapGetIntArray` converts the range through a single stored value and `mapSetIntArray` flips every element, so a `_Range` of 2 arrives as 1. If `_Range` holds floats or data, `mapGetType` reports that type under the old name while the getters convert, and reading it is a fatal error.
* **ClipToProp ignores bad names (C82).** The name of the property is not checked, not even for being empty; with a name that is no identifier the second clip is silently lost and PropToClip later reports that no frame is stored.
* **PropToClip and audio frames (C82).** `mapGetFrame` also returns audio frames, and `propToClipCreate` calls `getVideoFrameFormat` on the result without looking at its type: an assertion fails, or without assertions the audio format is read as a video format.
* **Rates with one zero part (C83).** `isValidVideoInfo` compares the rate with `reduceRational` of it, which leaves 24/0 and 0/1 alone; both are accepted although the documentation allows only reduced fractions and 0/0.
* **BlankClip with an enormous rate (C83).** Without length and clip the number of frames is `int64ToIntS((fpsNum * 10) / fpsDen)`, evaluated before anything limits fpsNum: `fpsnum=10**18` overflows a signed integer.
* **Colours of BlankClip and AddBorders (C83).** `doubleToUInt32S` adds 0.5 and truncates, so 0.49999999999999994 becomes 1; and it saturates at 2^32-1 before the limit of the format is looked at, so for 32 bit integer clips a colour of 10^12 is not refused but taken as 2^32-1.
* **The filter length of AudioResample is converted to int before it is checked (C84).** `buildResampleBank` computes `static_cast<int>(std::ceil(64 / ratio))` and doubles it in `int` before comparing with the limit of 8192 taps (audioresampling.cpp:268-271). Rates are only checked to be at least 1, so a clip with a rate above 2^24 times the requested one makes the cast or the doubling overflow: `C84_defined_refuted` (2147483647 Hz to 1 Hz). Below that ratio creation is proved defined. Also, because the two divisions round, the filter is one sample longer per side than needed for ratios such as 1/49 (`C84_one_more`: 3137 instead of 3136); this is harmless and within what C84 states.
* **Converting not-a-number (C85).** `convertPlane` limits with `std::clamp`, which returns a NaN unchanged because both comparisons are false, and then casts it to `int16_t` or `int32_t`: undefined behaviour for any float clip that contains a NaN and is converted to integers (audioresampling.cpp:106-112). The same happens at the end of the mixing and rate conversion path, where one NaN in the input reaches all samples within the filter.
* **Vector kernels of Sobel, Prewitt and Convolution turn white into black (C87).** The comment at generic_impl.h:32-34 calls the kernels bit-exact with the scalar ones. They convert the scaled result with cvtps2dq, which yields INT_MIN for values of 2^31 and above; packing then gives 0 where the scalar kernel clamps to the maximum first. 8 bit clips need a scale above about two million, 16 bit clips with AVX2 or AVX-512 one above about 5800 (SSE2 wraps once more and is right), convolutions a divisor below about 1e-7. Proved: C87_scale_refuted, C87_word_scale_refuted, C87_divisor_refuted. Also, samples above the maximum of the format are limited by the scalar kernels only (C87_samples_refuted).
* **A colour property of the wrong type ends the process (C88).** import_frame_props (vsresize.cpp:253-297) tests with mapNumElements and then calls mapGetInt without an error argument, which is a fatal error when `_Matrix`, `_Range`, … is data or float. std.SetFrameProp can make such a property. Proved: C88_wrong_type_refuted.
* **The documented primaries name jedec-p22 is not accepted (C88).** resize.rst lists `jedec-p22`, the table of vsresize.cpp has `ebu3213-e` for code 22. Proved: C88_names_refuted.
* **Bob changes the shape of the picture and leaves `_Field` behind (C89).** SeparateFields leaves `_SARNum`/`_SARDen` alone, so fields of a 1:1 clip are marked 1:1. resize.Bob doubles the height and propagate_sar therefore doubles the ratio: the full height frame is marked 2:1. `_Field` stays too, so the next resize filter treats the frame as a field and interlaced marks are ignored. Proved: C89_bob_refuted.
* **src_height of interlaced frames doubles the sample aspect ratio (C89).** import_frame_props halves active_region.height for interlaced frames, but propagate_sar compares and divides it with the full height. Asking for the whole height of an interlaced frame gives 2:1 instead of 1:1. Proved: C89_interlaced_refuted. Ratios whose products leave int64, and a src_height below 1/32, are undefined behaviour (C89_overflow_refuted).
* **Interlaced frames of odd height get an uninitialised last row (C90).** The fields are converted with height / 2 rows each; with an odd output height (or, with vertical subsampling, one not divisible by four) the last row of the new frame is never written and holds whatever the allocator left. Proved: C90_odd_height_refuted.
* **The resize and text plugins accept new functions (C91).** Both are configured with flags 0, i.e. not modifiable, but only the constructor for libraries applies readOnlySet and only the std plugin is locked (vscore.cpp:2059-2069). A caller can add functions to the namespaces `resize` and `text`. Proved: C91_locked_refuted.
* **A manifest of nothing but line ends ends the process (C91).** In loadPluginManifest lastPos is npos, `lastPos + 1` wraps to 0, find_first_of finds the first line end and substr(npos, …) throws std::out_of_range, which is not caught on the way out of the core's constructor. Proved for all such texts: C91_manifest_refuted. A manifest longer than 10000 bytes is silently cut, possibly within a name (C91_long_manifest_refuted).
* **Freeing a clip of another core inside a free function damages both cores (C92).** nodeFreeList and freeDepth in destroyFilterInstance (vscore.cpp:1942-1971) are thread_local but shared by all cores. When a free function running for core A drops the last reference to a node of core B (a Python callback of FrameEval in one environment keeping a clip of another), B's instance is put on the list and then freed with A as its core, and A's counter is decremented for it: A is deleted while in use and B is never deleted. Proved: C92_two_cores_refuted.
* **A refused filter creation leaks its instance data (C92).** When the node constructor throws (invalid video or audio info), createVideoFilter and createAudioFilter report the error but never call the free function, although the documentation says that the instance data is freed by it and callers hand over ownership (`d.release()`). The clips the instance data holds, and with them the core, stay alive for ever. Proved: C92_refused_refuted.
* **7x7 convolution of 16 bit clips wraps around on AVX2 and AVX-512 (C93).** square_impl.h sums 49 products in 32 bit lanes; the scalar kernel uses int64_t. 49 coefficients of 1023 (a plain box blur with the default divisor) on white give black in the middle of the picture and white along its border. Proved for every level: C93_sum_wraps_refuted.
* **Results beyond int32 turn black in the vector convolutions (C93).** cvtps_epi32 gives INT_MIN for values of 2^31 and more, which the packs saturate to 0; the scalar code clamps before converting. A 9x9 matrix of 1023s with divisor 1 makes white black inside and leaves it white along the border. Proved: C93_conversion_refuted.
* **The fused multiplication of the vector convolutions is not the scalar one (C93).** scale_bias_sat uses fmadd where the scalar code rounds the product first. With a weight of 257, divisor 6 and bias -128, samples of value 3 become 1 inside and 0 along the border (the exact result is one half). Proved: C93_fused_refuted.
* **The AVX-512 separable convolution reads past its row buffer (C94).** conv_plane_x allocates width + 64 samples and starts the row at 32, leaving 32 after it; the horizontal pass with 32 samples per vector reads up to 31 samples beyond the row plus half the matrix plus one for the odd pair. With a width of 33, 65, 97 and so on (1 modulo 32) every matrix size reads past the allocation, larger ones up to 11 modulo 32. The lanes concerned are discarded, so pictures are right. SSE2 and AVX2 have room. Proved: C94_past_the_row_refuted, C94_room (exact condition), C94_always_room.
* **One-dimensional vector convolutions differ from the scalar ones with a bias or a small divisor (C94).** AVX2 and AVX-512 use a fused multiplication and addition (weight 257, divisor 6, bias -128: samples of value 3 give 1, scalar and SSE2 give 0), and all three convert results of 2^31 or more to INT_MIN, so that white becomes black where the scalar code saturates (divisor 2^-12). Proved: C94_fused_refuted, C94_conversion_refuted.
* **FrameEval and ModifyFrame accept audio from their function (C95).** Neither checks the kind of the node or frame found under "val". With a clip of constant size or format getFrameWidth or getVideoFrameFormat is then called on an audio frame, which only an assertion forbids; with a clip of variable size and format the frame is returned to the core, which stops the process because a video node returned audio. Proved: C95_audio_clip_refuted, C95_audio_frame_refuted, C95_audio_delivered_refuted.
* **vspipe --graph does not escape quotes (C96).** escapeDotString handles backslashes and line breaks but not the double quote, so that a text argument such as core.text.Text(clip, 'say "hello"') ends the label early and gives a file that is not valid DOT. Proved: C96_quote_refuted, C96_quoted_partial.
* **The simple graph shows arguments of the wrong call (C96).** In the simple mode printNodeGraphHelper names a box after the outermost call but prints the arguments of the innermost one; a function that makes two nodes by calls of its own gets two label lines, of which a reader of DOT keeps the last, and its own arguments appear nowhere. Proved: C96_simple_labels_refuted; in the full modes C96_full_labels.
* **A node created outside a function call crashes the graph (C96).** getNodeCreationFunctionArguments gives a null pointer for it at level 0, which printVSMap passes to mapNumKeys, and a null name goes to std::string. Scripts run by vspipe create nodes through plugin functions, so this needs a filter made directly with createVideoFilter by an embedding program or by a frame evaluator. Proved: C96_orphan_refuted.
* **Admission control can overshoot because measurements are net (C97).** A call's use is counted net of what its thread frees. A call that releases memory allocated before it and then allocates as much again has a measurement of nothing, while in between the pool sees the room and admits another call into it; both keep to their estimates and memory passes five quarters of the limit by what was released. Proved: C97_net_refuted; the excess is at most that amount: C97_overshoot_partial.
* **The pressure sweep counts frames that stay in memory (C97).** evictCacheBytes counts the bytes of every frame it drops, also of frames a filter or the user still holds, and notifyCaches stops when the count reaches the excess. Memory can then still be above the target while other caches hold frames that could go. The next sweep, 150 ms later at the earliest, continues. Proved: C97_sweep_shared_refuted, C97_sweep_reaches_partial.
* **The first estimate overflows for absurd dimensions (C97).** isValidVideoInfo accepts any positive int as width and height, and expectedTransientAllocation multiplies them and the sample size in int64_t: 2147483647 by 2147483647 samples of four bytes overflow, which is undefined, before the frame could fail to be allocated. Proved: C97_first_refuted, C97_first_partial.
* **Gray clips are announced with 24 bits per pixel (C98).** The generic algorithm of BitsPerPixel adds two chroma planes also for Y800, which has none: biBitCount is 24 while the picture has 8 bits per pixel, and a reader that computes sizes from it expects three times the data. Proved: C98_gray_bits_refuted, C98_bits_partial.
* **The picture size overflows for large frames (C98).** BMPSize multiplies row size and height as int; an RGB clip of 32768 by 32768 has 2^32 bytes, for which the product, undefined, comes to 0 on usual machines. VapourSynthStream::Read2 then finds any buffer large enough, and PackOutputFrame writes 4 GB through 64 bit pointers. Proved: C98_size_refuted, C98_pack_partial.
* **The output mode is not part of the check at opening (C98).** DelayInit asks HasSupportedFourCC, which is about mode 0, and reads alt_output afterwards: a clip such as RGB24 with alt_output=1 opens without an error message and then fails in Info and ReadFormat. Proved: C98_mode_refuted.
* **Configuration of vsscript (C100).** `_escape_toml_string` doubles backslashes but writes quotes as they are, and `getTOMLString` ends a string at the first quote whatever stands before it, so an installation below a directory with a quote in its name is configured without complaint and never found (`C100_quote_refuted`). `_mangle_vsscript_key` replaces every `/lib64/` by `/lib/` while `getLibraryPath` replaces the first only, so an installation such as `/opt/lib64/env/lib64/python3` is never found either (`C100_lib64_refuted`). In both cases vsscript reports that the Python path could not be determined and advises to run the command again. Read but not modelled: the file with the quote is no valid TOML, so the next run of the command starts from an empty dictionary and drops the entries of all other installations.
* **Errors of scripts (C101).** The exit code of a handle is never set back: after a script that calls `sys.exit(5)`, a script failing for another reason leaves 5 where the documentation promises 0 (`C101_exit_refuted`). `_vpy_evaluate` releases the old message only once the script has been compiled, and the other places that set a message not at all, so errors before that on a handle with an error leak the old string, as does a failing `os.chdir` on the way back from a failed script (`C101_leak_refuted`). The header declares calls on handles in the error state undefined, which covers all but the last; the documentation of evaluateBuffer says it may be called several times. Read but not modelled: `__file__` is set to the name as passed although documented to be absolute, and a failing createScript with a NULL core passes NULL to freeCore.
* **Empty variables (C102).** `dictToMap` writes nothing for an empty list, so a property without elements passed by `setVariables` is reported as found by `getVariable` and missing from the map (`C102_empty_refuted`); `typedDictToMap`, used for arguments, has the missing branch. Read but not modelled: `getVariable` appends to a key already in the map given and leaves the elements before a bad one in it.
* **Names with underscore (C103).** `f(x=1, x_=2)` is accepted and passes 2 only, although Python itself refuses a name given twice (`C103_twice_refuted`).
* **Empty slices (C104).** `clip[3:3]` is an error of Trim and not an empty clip, as there are none (`C104_empty`).
