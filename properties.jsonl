{"id": "C01", "title": "Property maps are value types under copy", "statement": "After copyMap / a map copy, any later set, append, delete or clear performed through one handle is never visible through any other handle: every handle always reads exactly what a private, deep copied map would contain.", "quantifier": "all sequences of map operations over any number of handles, all keys and values", "why_tests_cant": "copy-on-write aliasing bugs only show for particular interleavings of copies and writes; tests sample a few", "anchors": ["src/core/vscore.h: VSMap::detach, VSMap::insert, VSMap::erase, VSMap::copy, VSMap::clear", "src/core/vscore.h: VSMapStorage", "src/core/vsapi.cpp: copyMap, clearMap, mapDeleteKey"]}
{"id": "C02", "title": "Array set / append semantics of map keys", "statement": "mapSet* with maReplace leaves exactly the one given value under the key; maAppend adds it at the end when the key is absent or has the same type and otherwise reports failure leaving the map unchanged; mapGet* returns the i-th value exactly when the key exists with that type and 0 <= i < count and otherwise reports the documented error.", "quantifier": "all maps, keys, types, indices and sequences of set/append calls", "why_tests_cant": "the state space of key contents and types is infinite", "anchors": ["src/core/vsapi.cpp: propSetShared, propGetShared", "src/core/vscore.h: VSArray::push_back, VSArray::at"]}
{"id": "C03", "title": "An error map is exactly an error map", "statement": "mapSetError makes mapGetError return the message and makes the error key the only content; clearing removes the error; a map that never received mapSetError reports no error; reading the error never fails.", "quantifier": "all sequences of map operations including operations naming the error key itself", "why_tests_cant": "the failing sequences name a reserved key and are never written by ordinary tests", "anchors": ["src/core/vscore.h: VSMap::setError, VSMap::getErrorMessage, VSMap::hasError", "src/core/vsapi.cpp: mapSetError, mapGetError"]}
{"id": "C04", "title": "Legacy colour range property is a consistent alias", "statement": "The old property name for colour range and the new one are two consistent views of one value: a value written through one name and read back through the same name is unchanged, and the two views are always flipped versions of each other.", "quantifier": "all values and all accessor functions", "why_tests_cant": "tests use the two legal values and the scalar accessors only", "anchors": ["src/core/vsapi.cpp: mapGetInt, mapGetIntArray, mapSetInt, mapSetFloat, mapGetType, mapNumElements"]}
{"id": "C05", "title": "Writing to a frame never changes another frame", "statement": "Obtaining a write pointer to a plane of one frame and writing through it changes the pixels of that plane of that frame only; every other frame, including frames created as copies or by plane sharing, keeps its contents.", "quantifier": "all sequences of frame creation, copy, plane sharing, write pointer and free operations", "why_tests_cant": "aliasing bugs need particular sharing histories", "anchors": ["src/core/vscore.cpp: VSFrame::getWritePtr, VSFrame::VSFrame", "src/core/vscore.h: VSPlaneData", "src/core/vsapi.cpp: copyFrame, newVideoFrame2, getWritePtr"]}
{"id": "C06", "title": "Plane buffers are freed exactly once and accounted exactly", "statement": "Every plane buffer is released exactly when the last frame using it is released; the core's reported used memory equals the sum of the sizes of the live buffers and returns to zero.", "quantifier": "all sequences of frame creation, copying, sharing, writing and freeing", "why_tests_cant": "leaks and double frees depend on the history of sharing", "anchors": ["src/core/vscore.cpp: VSPlaneData::VSPlaneData, VSPlaneData::~VSPlaneData", "src/core/memoryuse.cpp: MemoryUse::allocate, MemoryUse::deallocate, MemoryUse::allocate_from_freelist, MemoryUse::deallocate_to_freelist"]}
{"id": "C07", "title": "Frame plane geometry", "statement": "For every plane of a video frame the stride is a multiple of the alignment, at least the row size, minimal with that property, every pixel of the plane lies inside the allocated buffer, and two frames of equal format and dimensions have equal strides.", "quantifier": "all valid formats, dimensions and alignments", "why_tests_cant": "unbounded dimensions; off-by-one only at special widths", "anchors": ["src/core/vscore.cpp: VSFrame::VSFrame", "include/VSHelper4.h: bitblt"]}
{"id": "C08", "title": "Video format identifiers are a bijection on valid formats", "statement": "queryVideoFormatID followed by getVideoFormatByID returns the same format for every valid format, distinct valid formats have distinct identifiers, and every identifier that is accepted denotes a valid format.", "quantifier": "all parameter combinations accepted by queryVideoFormat and all 32 bit identifiers", "why_tests_cant": "2^32 identifiers", "anchors": ["src/core/vscore.cpp: VSCore::queryVideoFormat, VSCore::queryVideoFormatID, VSCore::getVideoFormatByID, isValidVideoFormat"]}
{"id": "C09", "title": "The frame cache returns only what was inserted", "statement": "A cache lookup for frame n returns the frame most recently inserted for n or nothing, never another frame; the number of frames held never exceeds the current maximum and the number of remembered history entries never exceeds the history maximum.", "quantifier": "all sequences of insert, lookup, remove, clear, resize operations", "why_tests_cant": "linked-list + hash implementation with a moving weak point: bugs need long histories", "anchors": ["src/core/vscore.cpp: VSCache::insert, VSCache::object, VSCache::evictFrames", "src/core/vscore.h: VSCache, relink, unlink"]}
{"id": "C10", "title": "The frame cache evicts in least recently used order", "statement": "The cache behaves exactly as an abstract two-segment LRU list: live frames in recency order followed by evicted history in eviction order; hits move to the front, history hits (near misses) are counted, and trimming drops strong references from the least recently used end.", "quantifier": "all operation sequences and all capacities", "why_tests_cant": "refinement over unbounded histories", "anchors": ["src/core/vscore.cpp: VSCache::object, VSCache::insert, VSCache::evictFrames", "src/core/vscore.h: VSCache, relink, unlink"]}
{"id": "C11", "title": "Cache size adaptation stays bounded and sane", "statement": "Automatic cache resizing never makes the capacity negative, only grows it on near misses, only shrinks it when it is unused or under memory pressure, and a fixed-size cache is never resized.", "quantifier": "all hit/miss/near-miss statistics and memory pressure states, all sequences of adjustments", "why_tests_cant": "needs particular statistics that arise only in long runs", "anchors": ["src/core/vscore.cpp: VSCache::recommendSize, VSCache::adjustSize, VSNode::notifyCache"]}
{"id": "C12", "title": "A node caches exactly when caching can pay off", "statement": "In automatic mode a filter's cache is disabled exactly when its only consumer declared a request pattern that never reuses a frame (strict spatial or no reuse), restricted to the last frame exactly when its only consumer declared reuse of the last frame only, and enabled otherwise (also with no consumers); a disabled cache holds nothing; adding then removing a consumer restores the earlier decision.", "quantifier": "all sequences of consumer additions/removals and cache mode changes", "why_tests_cant": "histories of graph edits", "anchors": ["src/core/vscore.cpp: VSNode::addConsumer, VSNode::removeConsumer, VSNode::updateCacheState, VSNode::setCacheMode"]}
{"id": "C13", "title": "Rational helpers compute exact reduced fractions", "statement": "reduceRational preserves the value and yields lowest terms; muldivRational yields the exact product/quotient; addRational yields the exact sum, each in lowest terms, whenever the intermediate products fit 64 bits.", "quantifier": "all 64 bit numerators and positive denominators whose products do not overflow", "why_tests_cant": "128-bit input space", "anchors": ["include/VSHelper4.h: vsh::reduceRational, vsh::muldivRational, vsh::addRational"]}
{"id": "C14", "title": "Trim returns the requested frame interval", "statement": "Trim(first,last|length) succeeds exactly when the interval is non-empty and inside the clip, and output frame n is input frame first+n with length last-first+1.", "quantifier": "all clip lengths and all arguments", "why_tests_cant": "unbounded lengths and argument combinations", "anchors": ["src/core/reorderfilters.cpp: trimCreate, trimGetframe"]}
{"id": "C15", "title": "Splice is clip concatenation", "statement": "The spliced clip's frames are exactly the frames of the clips in order; lengths add; an overflowing total length is rejected.", "quantifier": "all numbers of clips and all lengths", "why_tests_cant": "number of clips and lengths unbounded", "anchors": ["src/core/reorderfilters.cpp: spliceCreate, spliceGetframe"]}
{"id": "C16", "title": "Reverse is list reversal and an involution", "statement": "Output frame n is input frame N-1-n; reversing twice gives the clip back.", "quantifier": "all clip lengths", "why_tests_cant": "unbounded", "anchors": ["src/core/reorderfilters.cpp: reverseCreate, reverseGetframe"]}
{"id": "C17", "title": "Loop is repetition", "statement": "Loop(times=k) is the k-fold concatenation of the clip; frame n is input frame n mod N; an over-long result is rejected.", "quantifier": "all lengths and times", "why_tests_cant": "unbounded", "anchors": ["src/core/reorderfilters.cpp: loopCreate, loopGetframe"]}
{"id": "C18", "title": "Interleave round-robins its inputs", "statement": "Without extend, Interleave outputs frame n/k of clip n mod k for every n up to the last available frame; each input frame of every clip appears exactly once at the expected place; with extend short clips repeat their last frame.", "quantifier": "all numbers of clips and all lengths", "why_tests_cant": "unbounded", "anchors": ["src/core/reorderfilters.cpp: interleaveCreate, interleaveGetframe"]}
{"id": "C19", "title": "SelectEvery picks exactly the offsets of each cycle", "statement": "SelectEvery(cycle,offsets) outputs, cycle after cycle, the frames cycle*i+offset that exist, in order, and nothing else; the announced length equals the number of existing frames.", "quantifier": "all lengths, cycles, offset lists", "why_tests_cant": "partial last cycles with unordered offsets", "anchors": ["src/core/reorderfilters.cpp: selectEveryCreate, selectEveryGetframe"]}
{"id": "C20", "title": "DuplicateFrames and DeleteFrames are inverse edits", "statement": "DuplicateFrames repeats exactly the listed frames (with multiplicity), DeleteFrames removes exactly the listed frames; all other frames appear once in order; deleting the inserted duplicates restores the clip.", "quantifier": "all clips and index lists", "why_tests_cant": "unbounded lists, order and multiplicity", "anchors": ["src/core/reorderfilters.cpp: duplicateFramesCreate, duplicateFramesGetFrame, deleteFramesCreate, deleteFramesGetFrame"]}
{"id": "C21", "title": "FreezeFrames replaces exactly the listed ranges", "statement": "Every frame inside a (non-overlapping) range is the replacement frame, all others are unchanged; overlapping or out-of-range ranges are rejected.", "quantifier": "all clips and range lists", "why_tests_cant": "unbounded", "anchors": ["src/core/reorderfilters.cpp: freezeFramesCreate, freezeFramesGetFrame"]}
{"id": "C22", "title": "Declared request patterns are honest", "statement": "A filter that declares the no-reuse pattern for an input never requests the same input frame for two different output frames; one that declares strict spatial requests only frame n for output n; one that declares last-frame reuse repeats only the last frame.", "quantifier": "all clip lengths, arguments and pairs of output frames", "why_tests_cant": "quantifies over pairs of frames of arbitrary clips; a violation only costs caching and is invisible to output tests", "anchors": ["src/core/reorderfilters.cpp: trimCreate, interleaveCreate, selectEveryCreate, spliceCreate, deleteFramesCreate", "include/VapourSynth4.h: VSRequestPattern", "src/core/audiofilters.cpp: shuffleChannelsCreate", "src/core/simplefilters.cpp: shufflePlanesCreate"]}
{"id": "C23", "title": "AudioTrim returns the requested sample interval", "statement": "Output sample i of the trimmed audio is input sample first+i, across all 3072-sample frame boundaries, and invalid ranges are rejected.", "quantifier": "all lengths, ranges, sample positions", "why_tests_cant": "frame boundary arithmetic over 64-bit lengths", "anchors": ["src/core/audiofilters.cpp: audioTrimCreate, audioTrimGetframe"]}
{"id": "C24", "title": "AudioSplice is sample concatenation", "statement": "The sample stream of the output is the concatenation of the sample streams of the inputs for any alignment of frame boundaries.", "quantifier": "all numbers and lengths of clips", "why_tests_cant": "alignment cases are many and depend on lengths modulo 3072", "anchors": ["src/core/audiofilters.cpp: audioSpliceCreate, audioSpliceGetframe"]}
{"id": "C25", "title": "AudioLoop repeats the sample stream", "statement": "Output sample i is input sample i mod L.", "quantifier": "all lengths and repeat counts", "why_tests_cant": "boundary alignment", "anchors": ["src/core/audiofilters.cpp: audioLoopCreate, audioLoopGetFrame"]}
{"id": "C26", "title": "AudioReverse reverses the sample stream", "statement": "Output sample i is input sample L-1-i; twice is the identity.", "quantifier": "all lengths", "why_tests_cant": "boundary alignment", "anchors": ["src/core/audiofilters.cpp: audioReverseCreate, audioReverseGetFrame"]}
{"id": "C27", "title": "Audio frames have the length the container promises", "statement": "For an audio clip of L samples frame n holds min(3072, L-3072n) samples; the number of frames is ceil(L/3072); all built-in generators and editors return frames of that length.", "quantifier": "all lengths", "why_tests_cant": "last-frame handling", "anchors": ["src/core/vscore.cpp: VSNode::getFrameInternal, VSNode::VSNode", "src/core/audiofilters.cpp: blankAudioGetframe"]}
{"id": "C28", "title": "Audio generator is seekable", "statement": "A generated waveform's samples depend only on the sample position, not on which frames were requested before or in what order.", "quantifier": "all request orders, frequencies and positions (64-bit wrap-around included)", "why_tests_cant": "phase accumulation drift appears after long playback", "anchors": ["src/core/audiofilters.cpp: blankAudioGetframe"]}
{"id": "C29", "title": "Crop and AddBorders are inverse", "statement": "Crop returns exactly the requested window and rejects windows not inside the frame; AddBorders places the source at the offset and fills the rest with the border colour; cropping the borders again returns the source.", "quantifier": "all sizes, subsamplings, offsets", "why_tests_cant": "unbounded dimensions and overflowing arguments", "anchors": ["src/core/simplefilters.cpp: cropVerify, cropGetframe, addBordersGetframe, cropAbsCreate, cropRelCreate"]}
{"id": "C30", "title": "Flips, turns and transposes obey the dihedral group laws", "statement": "FlipVertical, FlipHorizontal, Turn180 and Transpose are involutions, Turn180 = FlipVertical after FlipHorizontal, Turn90 four times is the identity, Turn90 after Turn270 is the identity, and each maps pixel coordinates as documented.", "quantifier": "all plane dimensions and contents", "why_tests_cant": "all sizes", "anchors": ["src/core/simplefilters.cpp: flipVerticalGetframe, flipHorizontalGetframe, transposeGetFrame"]}
{"id": "C31", "title": "Stacking concatenates planes", "statement": "StackVertical/StackHorizontal output contains each input at its offset and nothing else; cropping recovers each input.", "quantifier": "all numbers of clips and sizes", "why_tests_cant": "unbounded", "anchors": ["src/core/simplefilters.cpp: stackGetframe, stackCreate"]}
{"id": "C32", "title": "Field separation and weaving are inverse", "statement": "SeparateFields yields 2N half-height fields alternating parity in the declared order; weaving consecutive fields of a separated clip restores the original frames with the right field order flag.", "quantifier": "all frame heights, contents, field orders", "why_tests_cant": "parity mistakes cancel on symmetric content", "anchors": ["src/core/simplefilters.cpp: separateFieldsGetframe, doubleWeaveGetframe"]}
{"id": "C33", "title": "Plane shuffling selects the requested planes", "statement": "ShufflePlanes output plane i is the selected plane of the selected clip (last clip repeated); SplitPlanes followed by ShufflePlanes restores the clip; subsampling of the result is derived from the plane sizes.", "quantifier": "all formats and plane selections", "why_tests_cant": "combinatorial", "anchors": ["src/core/simplefilters.cpp: shufflePlanesCreate, shufflePlanesGetframe, splitPlanesCreate, findSubSampling"]}
{"id": "C34", "title": "Merge is a correctly rounded convex combination", "statement": "Integer Merge with weight w returns a value between its inputs, equals the first input at weight 0, and equals the rounded exact combination; no wrap-around is visible.", "quantifier": "all sample values of all bit depths and all weights", "why_tests_cant": "2^47 combinations", "anchors": ["src/core/kernel/merge.cpp: vs_merge_byte_c, vs_merge_word_c", "src/core/mergefilters.cpp: mergeCreate"]}
{"id": "C35", "title": "MaskedMerge divides exactly", "statement": "Integer MaskedMerge returns round(((max-m)*a + m*b)/max) for every sample and bit depth: mask 0 selects the first clip exactly, a full mask selects the second exactly, results stay between the inputs.", "quantifier": "all samples and mask values for bit depths 8 to 16", "why_tests_cant": "2^48 combinations per depth; reciprocal multiplication tables", "anchors": ["src/core/kernel/merge.cpp: vs_mask_merge_byte_c, vs_mask_merge_word_c, div_table, shift_table"]}
{"id": "C36", "title": "Difference clips reconstruct the source", "statement": "MergeFullDiff(b, MakeFullDiff(a,b)) = a always; MergeDiff(b, MakeDiff(a,b)) = a whenever the difference is representable, and otherwise saturates to the nearest representable result.", "quantifier": "all sample values and depths", "why_tests_cant": "2^32 pairs per depth", "anchors": ["src/core/kernel/merge.cpp: vs_makediff_*, vs_mergediff_*", "src/core/mergefilters.cpp: makeFullDiffCreate, mergeFullDiffCreate"]}
{"id": "C37", "title": "Lookup tables are applied to every pixel and only in bounds", "statement": "Lut/Lut2 output equals the table applied to each (clamped) input pixel; the batched inner loop never reads or writes outside the padded rows or the table.", "quantifier": "all widths, strides, pixel values", "why_tests_cant": "padding dependent", "anchors": ["src/core/lutfilters.cpp: lutGetframe, lut2Getframe"]}
{"id": "C38", "title": "Limiter, Binarize, Invert meet their pointwise specification", "statement": "Invert is an involution on legal values and maps into range; Limiter is idempotent and clamps into [min,max]; Binarize yields only the two given values.", "quantifier": "all values, depths, parameters", "why_tests_cant": "large value space", "anchors": ["src/core/genericfilters.cpp: invertCreate, limitCreate, binarizeCreate"]}
{"id": "C39", "title": "Median selects the true median", "statement": "The 3x3 median returns the fifth smallest of the nine neighbourhood samples.", "quantifier": "all nine sample values of any ordered type", "why_tests_cant": "9! orderings with duplicates times values", "anchors": ["src/core/kernel/generic.cpp: MedianOp"]}
{"id": "C40", "title": "Minimum/Maximum/Deflate/Inflate are bounded by threshold and neighbourhood", "statement": "Maximum returns the largest selected neighbour-or-centre value but at most centre+threshold (dually Minimum); Inflate never lowers and Deflate never raises a pixel and they stay within the threshold and range.", "quantifier": "all neighbourhoods, masks and thresholds", "why_tests_cant": "large space", "anchors": ["src/core/kernel/generic.cpp: MinMaxOp, DeflateInflateOp"]}
{"id": "C41", "title": "Convolution borders mirror and never index outside", "statement": "Every tap of every convolution at every pixel reads the mirrored in-range pixel, all columns are computed exactly once, and integer accumulation never overflows for legal coefficients.", "quantifier": "all plane sizes >= the legal minimum, radii, positions, coefficients", "why_tests_cant": "size dependent edges; overflow needs extreme inputs", "anchors": ["src/core/kernel/generic.cpp: conv_plane_h, conv_plane_v, conv_plane_square, mirror_index"]}
{"id": "C42", "title": "Fast division in BoxBlur is exact", "statement": "The multiply-shift division used by box blur equals integer division for every 32-bit dividend and every divisor.", "quantifier": "all 2^32 dividends and all divisors", "why_tests_cant": "2^64 pairs", "anchors": ["src/core/boxblurfilter.cpp: makeFastDivU32, fastDivU32"]}
{"id": "C43", "title": "BoxBlur computes the clamped window mean", "statement": "Each pass outputs (sum of the 2r+1 clamped-neighbourhood samples + rounding)/(2r+1); the in-place variant and the radius-1 fast path agree with it; the accumulator never overflows.", "quantifier": "all row contents, widths, radii", "why_tests_cant": "unbounded widths, radii larger than width", "anchors": ["src/core/boxblurfilter.cpp: blurH, blurH_inplace, blurHR1, processPlane"]}
{"id": "C44", "title": "AverageFrames weights", "statement": "The integer accumulator cannot overflow; at scene changes the total weight is preserved and only frames of the same scene contribute; identical inputs with weights summing to the scale give the input back.", "quantifier": "all weights, pixel values, scene change positions", "why_tests_cant": "large space", "anchors": ["src/core/averageframesfilter.cpp: averageFramesI, averageFramesGetFrame"]}
{"id": "C45", "title": "PlaneStats reports exact statistics", "statement": "Reported minimum, maximum and sums are those of the plane; difference sum is the exact L1 distance; accumulators cannot overflow for legal frame sizes.", "quantifier": "all plane contents and sizes", "why_tests_cant": "unbounded", "anchors": ["src/core/kernel/planestats.cpp", "src/core/simplefilters.cpp: planeStatsGetFrame"]}
{"id": "C46", "title": "Expr parsing accepts exactly well-formed postfix expressions", "statement": "A token list is accepted exactly when it never underflows the stack and leaves exactly one value; the tree built evaluates to what direct stack evaluation of the tokens yields, including dup and swap at any depth.", "quantifier": "all token lists", "why_tests_cant": "unbounded programs", "anchors": ["src/core/expr/expr.cpp: tokenize, decodeToken, parseExpr"]}
{"id": "C47", "title": "Expr code generation and register allocation preserve meaning", "statement": "The generated instruction sequence, after common subexpression elimination and register renaming, computes for every input the value of the expression tree.", "quantifier": "all expression trees and all inputs", "why_tests_cant": "register reuse bugs need particular live ranges", "anchors": ["src/core/expr/expr.cpp: applyValueNumbering, compile, renameRegisters", "src/core/expr/expr.h"]}
{"id": "C48", "title": "Expr algebraic rewriting preserves the value", "statement": "Optimised expressions evaluate to the same value as the unoptimised expression wherever the latter is defined (up to floating point rounding).", "quantifier": "all expressions and all real inputs", "why_tests_cant": "rewrite system over infinite set of trees", "anchors": ["src/core/expr/expr.cpp: applyLocalOptimizations, applyAlgebraicOptimizations, applyComparisonOptimizations, applyStrengthReduction, applyOpFusion, AdditiveSequence, ExponentMap"]}
{"id": "C49", "title": "Every asynchronous frame request is answered exactly once", "statement": "Each getFrameAsync whose request was accepted leads to exactly one callback with either the frame or an error, and to no more than one.", "quantifier": "all graphs, thread counts, schedules", "why_tests_cant": "interleavings", "anchors": ["src/core/vsthreadpool.cpp: VSThreadPool::startExternal, VSThreadPool::returnFrame, VSThreadPool::runTasks"]}
{"id": "C50", "title": "Concurrent requests for one frame are computed once", "statement": "While a frame of a node is being produced, further requests for the same frame attach to the production in progress: at most one production per (node, frame) is active at any time and all waiters get the result.", "quantifier": "all schedules and request patterns", "why_tests_cant": "interleavings", "anchors": ["src/core/vsthreadpool.cpp: VSThreadPool::startInternalRequest, VSThreadPool::runTasks"]}
{"id": "C51", "title": "Filter mode concurrency contracts", "statement": "A filter in serial mode (frame state) is never entered by two threads and processes one frame to completion before the next; unordered mode never has two concurrent entries; parallel-requests mode never has two concurrent all-frames-ready entries; parallel mode runs a given frame on one thread at a time.", "quantifier": "all schedules, all thread counts", "why_tests_cant": "interleavings", "anchors": ["src/core/vsthreadpool.cpp: VSThreadPool::runTasks"]}
{"id": "C52", "title": "Errors reach every waiter and only failing dependants", "statement": "If producing a frame fails, every request waiting for it fails, with the message of the first failing dependency; requests that do not depend on a failing frame are unaffected.", "quantifier": "all DAGs, failure patterns and schedules", "why_tests_cant": "interleavings x failure positions", "anchors": ["src/core/vsthreadpool.cpp: VSThreadPool::runTasks, VSThreadPool::returnFrame"]}
{"id": "C53", "title": "The thread pool always makes progress", "statement": "As long as an accepted request is unanswered and filters return, some worker can run a task: no task is lost, no wake-up is lost, memory admission control never stops everything, and every request is eventually answered.", "quantifier": "all finite acyclic graphs, thread counts, memory limits and schedules", "why_tests_cant": "deadlocks are schedule dependent", "anchors": ["src/core/vsthreadpool.cpp: VSThreadPool::runTasks, VSThreadPool::wakeThread, VSThreadPool::reserveThread, VSThreadPool::waitForDone"]}
{"id": "C54", "title": "Task priority is request order", "statement": "Runnable tasks are considered in the order of their external request and, within it, frame order; adding an internal request never overtakes an earlier external request's tasks.", "quantifier": "all task sets", "why_tests_cant": "interleavings", "anchors": ["src/core/vsthreadpool.cpp: taskCmp, VSThreadPool::queueTask"]}
{"id": "C55", "title": "Sequential access wrapper requests every frame in order", "statement": "A linear filter wrapped by the core sees requests in strictly increasing order without gaps inside a bounded look-back window, restarts only when documented, and returns the right frame.", "quantifier": "all request orders", "why_tests_cant": "histories", "anchors": ["src/core/vscore.cpp: MakeLinearWrapper, setLinear"]}
{"id": "C56", "title": "Function signature strings and argument checking", "statement": "A signature string is accepted exactly when every argument entry is well formed with distinct names; invoke accepts an argument map exactly when all mandatory arguments are present, no unknown argument is passed, types match and arrays obey the array/empty flags.", "quantifier": "all signature strings and argument maps", "why_tests_cant": "infinite string space", "anchors": ["src/core/vscore.cpp: VSPluginFunction::parseArgString, VSPluginFunction::invoke, checkValues"]}
{"id": "C57", "title": "Frame number handling at the API boundary", "statement": "Requests for negative frames are refused; requests past the end of a finite clip are served the last frame; the frame a filter obtains for (node,n) is the one it requested.", "quantifier": "all frame numbers and filters", "why_tests_cant": "boundary values", "anchors": ["src/core/vsapi.cpp: requestFrameFilter, getFrameFilter, releaseFrameEarly, getFrameAsync", "src/core/vscore.cpp: VSNode::getFrameInternal"]}
{"id": "C58", "title": "Log handler bookkeeping", "statement": "Messages logged before any handler exists are delivered in order to the first handler added (up to the retained maximum), afterwards each message is delivered exactly once to each live handler; a removed handler receives nothing more and its free callback runs exactly once.", "quantifier": "all sequences of add/remove/log", "why_tests_cant": "histories", "anchors": ["src/core/vscore.cpp: VSCore::logMessage, VSCore::addLogHandler, VSCore::removeLogHandler"]}
{"id": "C59", "title": "vspipe writes frames in order, all of them, before finishing", "statement": "vspipe writes every requested frame exactly once in increasing order whatever order frames complete in, stops requesting after an error, and returns only after the last write is done.", "quantifier": "all completion orders, alpha or not, all request depths", "why_tests_cant": "completion order is nondeterministic", "anchors": ["src/vspipe/vspipe.cpp: frameDoneCallback, outputNode, outputFrame"]}
{"id": "C60", "title": "vspipe numeric options", "statement": "A numeric command line option is accepted exactly when it is a complete decimal number that fits the target type, and then has that value.", "quantifier": "all option strings", "why_tests_cant": "infinite", "anchors": ["src/vspipe/vspipe.cpp: svToInt, svToInt64, parseOptions"]}
{"id": "C61", "title": "JSON output is well formed and lossless", "statement": "Every string written to JSON parses back to the original bytes and every property map produces well-formed JSON.", "quantifier": "all byte strings and property maps", "why_tests_cant": "infinite", "anchors": ["src/vspipe/vsjson.cpp: escapeJSONString, convertVSMapToJSON, doubleToString"]}
{"id": "C62", "title": "Wave headers and sample packing", "statement": "WAV/Wave64 headers carry sizes consistent with the data that follows or are refused; packing interleaves channels so that unpacking returns the channels.", "quantifier": "all channel counts, depths, lengths", "why_tests_cant": "size overflow only at > 4 GB", "anchors": ["src/common/wave.cpp: CreateWaveHeader, CreateWave64Header, PackChannels16to16le, PackChannels32to32le, PackChannels32to24le"]}
{"id": "C63", "title": "Half precision conversion", "statement": "Converting half to float and back is the identity on all non-NaN values, preserves NaN-ness, and float to half rounds to nearest.", "quantifier": "all 2^16 half and 2^32 float bit patterns", "why_tests_cant": "rounding ties", "anchors": ["src/core/float16_helper.h: halfToFloat, floatToHalf"]}
{"id": "C64", "title": "API 3 format registry", "statement": "Asking the registry twice for the same description returns the same identifier, registered identifiers are never reassigned, distinct descriptions have distinct identifiers, and converting an API 4 format to API 3 and back gives the same format; the identifier never collides with an API 4 identifier.", "quantifier": "all sequences of registrations", "why_tests_cant": "the registry is global history dependent state", "anchors": ["src/core/vscore.cpp: VSCore::queryVideoFormat3, VSCore::registerFormats, VSCore::VideoFormatToV3, VSCore::VideoFormatFromV3, VSCore::getVideoFormatByID"]}
{"id": "C65", "title": "Audio formats", "statement": "An audio format query succeeds exactly for the documented sample types, depths and non-empty channel layouts, and then fills in the storage size and the number of channels of the layout.", "quantifier": "all parameters and 64 bit channel layouts", "why_tests_cant": "2^64 layouts", "anchors": ["src/core/vscore.cpp: VSCore::queryAudioFormat, isValidAudioFormat"]}
{"id": "C66", "title": "Vector merge kernels agree with the scalar ones and stay inside the row", "statement": "For every instruction set the vector kernels of Merge, MaskedMerge (plain and premultiplied), MakeDiff and MergeDiff produce, for every visible sample of integer rows, exactly what the scalar C kernels produce, independently of the padding contents, and never load or store outside the aligned row.", "quantifier": "all integer depths, rows, weights, masks, offsets, padding and three instruction sets", "why_tests_cant": "2^48 inputs per lane and one machine only ever runs one instruction set", "anchors": ["src/core/kernel/x86/merge_sse2.cpp", "src/core/kernel/x86/merge_avx2.cpp", "src/core/kernel/x86/merge_avx512.cpp", "src/core/kernel/merge.cpp", "src/core/mergefilters.cpp: mergeGetFrame, maskedMergeGetFrame"]}
{"id": "C67", "title": "PreMultiply and premultiplied MaskedMerge", "statement": "Integer PreMultiply returns the rounded product of the distance from the neutral value and the alpha, stays between the neutral value and the input, is the identity for full alpha and neutral for zero alpha; premultiplying and then merging with premultiplied=True is within one step of the plain masked merge.", "quantifier": "all depths, samples, alphas, offsets", "why_tests_cant": "input space", "anchors": ["src/core/kernel/merge.cpp: premul_u8, premul_u16, vs_premultiply_byte_c, vs_premultiply_word_c, vs_mask_merge_premul_byte_c, vs_mask_merge_premul_word_c", "src/core/mergefilters.cpp: getLimitedRangeOffset"]}
{"id": "C68", "title": "Merge weight list is validated before it is stored", "statement": "Merge accepts a weight list exactly when it has at most as many entries as the clip has planes and all lie in [0,1]; other lists are reported as errors without touching memory outside the filter's data.", "quantifier": "all weight lists", "why_tests_cant": "memory errors are silent", "anchors": ["src/core/mergefilters.cpp: mergeCreate"]}
{"id": "C69", "title": "MaskedMerge accepts only masks its kernels can read", "statement": "MaskedMerge accepts a mask clip only if its samples have the same representation (depth and sample type) as the clips being merged.", "quantifier": "all formats", "why_tests_cant": "format combinations", "anchors": ["src/core/mergefilters.cpp: maskedMergeCreate"]}
{"id": "C70", "title": "Channel routing", "statement": "ShuffleChannels delivers each requested source channel, continued with silence, on the plane its destination has in the new layout, as long as the longest source, and rejects exactly the illegal requests; SplitChannels returns the channels lowest first and shuffling them back gives the original clip; AudioMix writes each matrix row to the plane of its output channel.", "quantifier": "all layouts, channel lists, clip sets, lengths", "why_tests_cant": "2^64 layouts; requests in any order", "anchors": ["src/core/audiofilters.cpp: shuffleChannelsGetFrame, shuffleChannelsCreate, splitChannelsCreate, audioMixCreate"]}
{"id": "C71", "title": "Integer audio quantisation", "statement": "AudioGain, AudioMix and the integer generators store the nearest value of the significant-bit grid (saturating at its ends), flag exactly the samples moved by more than half a step, and a gain of one is the identity; no input makes the conversion undefined.", "quantifier": "all depths, samples and double values", "why_tests_cant": "values between grid points and non-finite gains", "anchors": ["src/core/audiofilters.cpp: intSampleRange, quantizeIntSample, audioGainGetFrame, generateWaveform"]}
{"id": "C72", "title": "Declared request patterns of audio filters", "statement": "The request pattern an audio filter declares for each source describes the requests it makes: AudioSplice never requests a frame of its first clip twice, ShuffleChannels declares strictly spatial access only for sources it never reads past the end.", "quantifier": "all clip lengths and orders", "why_tests_cant": "wrong declarations only cost or corrupt caching", "anchors": ["src/core/audiofilters.cpp: audioSpliceCreate, shuffleChannelsCreate, audioSpliceGetframe, shuffleChannelsGetFrame"]}
{"id": "C73", "title": "Clip reports name the right samples", "statement": "When a gain or mix clips, the reported sample interval is exactly the interval of the frame in the clip.", "quantifier": "all frame numbers a clip can have", "why_tests_cant": "only wrong in very long clips", "anchors": ["src/core/audiofilters.cpp: audioGainGetFrame, audioMixGetFrame"]}
{"id": "C74", "title": "Vector transposition kernels equal the scalar ones", "statement": "For every sample size the SSE2 Transpose/Turn90/Turn270 kernels, which process 8x8, 4x8 or 4x4 blocks with byte shuffles and finish the edges with scalar code, store the same samples as the scalar kernels and touch no byte outside the planes.", "quantifier": "all formats, all dimensions (multiples of the block or not), all plane contents, both frame alignments", "why_tests_cant": "Errors in block edges or shuffles only show for particular dimension residues and sample sizes; out-of-plane writes are often silent.", "anchors": ["src/core/kernel/transpose.cpp", "src/core/kernel/x86/transpose_sse2.c", "src/core/simplefilters.cpp:1640"]}
{"id": "C75", "title": "Levels tables", "statement": "Levels applies one table per processed plane; every entry is defined and a legal sample value, every sample indexes inside the table, and planes that are not processed are unchanged.", "quantifier": "all integer formats, arguments, gamma functions and frames", "why_tests_cant": "non-finite intermediate values appear only for extreme arguments", "anchors": ["src/core/genericfilters.cpp: levelsCreate, levelsGetframe"]}
{"id": "C76", "title": "Gradient operators", "statement": "Prewitt and Sobel return zero on flat areas, a value of the format everywhere, respond to a straight edge in proportion to its height, and commute with mirroring and transposing the picture.", "quantifier": "all integer formats, sizes, scales and frames", "why_tests_cant": "input space; asymmetries only show at borders", "anchors": ["src/core/kernel/generic.cpp: PrewittSobelOp, filter_plane_3x3", "src/core/genericfilters.cpp: genericCreate, genericGetframe"]}
{"id": "C77", "title": "BoxBlur honours the list of planes", "statement": "Planes not listed are returned unchanged by BoxBlur, whatever the number of planes.", "quantifier": "all clips, plane lists and arguments", "why_tests_cant": "needs the combination of single plane clips and plane lists that exclude plane 0", "anchors": ["src/core/boxblurfilter.cpp: boxBlurCreate"]}
{"id": "C78", "title": "Video files written by vspipe", "statement": "A y4m file written by vspipe can be read back to the clip: size, rate, format, number of frames and every byte of every row whatever the strides; a raw file is exactly the rows of the planes in their order (green, blue, red for RGB) each frame followed by its alpha; clips a y4m file cannot describe are refused.", "quantifier": "all clips, strides and row paddings", "why_tests_cant": "readers tolerate wrong headers; paddings and strides of test frames are rarely unusual", "anchors": ["src/vspipe/vspipe.cpp: outputFrame, initializeVideoOutput, floatBitsToLetter", "include/VSHelper4.h: bitblt"]}
{"id": "C79", "title": "Timecodes written by vspipe", "statement": "The timecode of a frame is the sum of the durations of the frames before it, with a relative error that depends on the number of different durations and not on the number of frames; for constant durations the timecodes increase strictly; the first frame without a positive duration ends the output with an error.", "quantifier": "all durations and up to 2^31 frames", "why_tests_cant": "rounding errors accumulate only over very long clips", "anchors": ["src/vspipe/vspipe.cpp: getCurrentTimecode, frameDoneCallback"]}
{"id": "C80", "title": "Text drawn on frames", "statement": "Text is laid out in rows between margins of 16 pixels at the chosen place of the frame, long lines are continued on the next row, every byte has a glyph; in the result every sample in the box of a character is white or black according to the font, chroma samples under the text are colourless, every other sample and all properties are unchanged, and nothing is written outside the planes. Too small frames, unsupported formats and arguments out of range are refused.", "quantifier": "all texts, places, scales, formats, sizes, strides and plane contents", "why_tests_cant": "positions depend on the residues of sizes, scales and text lengths; a write past the end of a row is hidden by the padding", "anchors": ["src/core/textfilter.cpp: sanitise_text, split_text, scrawl_text, scrawl_character_*, textGetFrame, textCreate"]}
{"id": "C81", "title": "Filters that change frame properties", "statement": "SetFrameProp gives the named property the values of its one list and keeps every other property; SetFrameProps does so for every argument but the clip; SetFieldBased sets _FieldBased and removes _Field; RemoveFrameProps removes exactly the properties a pattern (with * and ?) stands for, or all of them; CopyFrameProps makes the listed properties those of the source, all of them without a list, and keeps the others. A name that cannot be a property is refused. The two names of the colour range are treated alike.", "quantifier": "all frames, names, values, patterns and lists", "why_tests_cant": "patterns are translated to regular expressions, property types and list lengths multiply the cases", "anchors": ["src/core/simplefilters.cpp: setFramePropCreate, setFramePropsCreate, setFieldBasedCreate, globToRegex, removeFramePropsCreate, copyFramePropsCreate", "src/core/vsapi.cpp: mapDeleteKey, mapSetEmpty, mapSetIntArray, mapGetIntArray"]}
{"id": "C82", "title": "Clips stored in frame properties", "statement": "ClipToProp keeps the frames of the first clip and their other properties, has the length of the second clip and stores the frame of the second clip in the property; PropToClip gives that clip back with its format and size, and never returns a frame of another format or size. The declared request patterns of both and of CopyFrameProps describe the requests they make.", "quantifier": "all clips, lengths, property names and contents of properties", "why_tests_cant": "clips of different length and frames of another kind in the property are rare in tests", "anchors": ["src/core/simplefilters.cpp: clipToPropGetFrame, clipToPropCreate, propToClipGetFrame, propToClipCreate, copyFramePropsCreate", "src/core/vsapi.cpp: mapGetFrame, mapSetFrame"]}
{"id": "C83", "title": "Descriptions of clips, BlankClip and AssumeFPS", "statement": "A description of a clip is accepted exactly when its format is known or undefined, its size is positive or undefined, it has a frame and its rate is a reduced fraction or 0/0. BlankClip takes every value from its arguments, else from the given clip, else from the defaults, refuses what no clip can have, and all samples of its frames have the given colour, which is exact for whole numbers and always a value of the format; without colours the frames are black. AssumeFPS changes the rate and the durations of frames and nothing else.", "quantifier": "all arguments, clips, formats, sizes, colours and strides", "why_tests_cant": "the arguments interact; colours near the limits of the format and enormous rates are not tried", "anchors": ["src/core/simplefilters.cpp: doubleToUInt32S, doubleToIntPixelValue, blankClipCreate, blankClipGetframe, assumeFPSCreate, assumeFPSGetframe", "src/core/vscore.cpp: VSCore::isValidVideoInfo", "src/core/filtershared.h: setBlack"]}
{"id": "C84", "title": "Changing the sample rate and the channels of audio", "statement": "For every clip of at most INT_MAX frames, every two sample rates, every mixing matrix and every way of reading and storing a sample: each frame AudioResample produces holds, in order, the stored value of sample 3072*n+i of the whole stream, where the value is the weighted sum of the input channels and, when the rate changes, the filter with the coefficients of phase (m*q mod p) applied to the samples around floor(m*q/p), with silence outside the clip, p/q being the reduced ratio of the rates. No position is lost between frames (the running position equals the exact quotient and remainder), no row, window or coefficient is read outside its size, every frame asked for exists, at least one is asked for and each only once, and without a rate change it is exactly frame n. The output has a sample for exactly the positions inside the clip; the filter covers at least 64 samples of the lower rate on each side and at most one more than needed, and the table has at most 2^23 coefficients. Creation never does anything undefined.", "quantifier": "all clips (any length up to INT_MAX frames), all frame numbers, all pairs of rates 1..INT_MAX, all matrices, all coefficient tables", "why_tests_cant": "The window of a frame, the phase and the frames it overlaps depend on n, both rates and the clip length; off-by-one errors appear only at particular combinations (first and last frames, ratios with long periods), and the filter length is computed in floating point.", "anchors": ["src/core/audioresampling.cpp:228-311", "src/core/audioresampling.cpp:580-735", "src/core/audioresampling.cpp:831-860"]}
{"id": "C85", "title": "AudioResample converts samples between formats to the nearest representable level", "statement": "Converting a sample to an integer format gives, without dither, the nearest step of the destination grid (halves away from zero) of the exact level, limited to the range, moved to the top of the container with zero padding, and reports clipping exactly when limiting changed the value; with dither an offset of at most half a step (rectangular) or less than one step (triangular) is added first, only when going from float or to fewer bits, and the offset depends on the absolute position and channel alone, distinct positions of a channel having distinct hashes. Widening is exact, never clips and is undone by the way back. Integers of up to 24 bits survive conversion to float and back. No sample makes the conversion undefined (fails for not-a-number).", "quantifier": "all valid formats, all samples, all positions and channels, all dither types, all frames", "why_tests_cant": "2^32 samples times all positions and formats cannot be tested, and the double arithmetic must be shown exact rather than observed to be; an undefined cast of NaN behaves on the tested machine.", "anchors": ["src/core/audioresampling.cpp:44-190", "src/core/audioresampling.cpp:548-616"]}
{"id": "C86", "title": "AudioResample mixes channels by one table, without losing, doubling or overloading them", "statement": "The mixing matrix is built without leaving its vectors for any pair of layouts, and every weight is the one of a fixed table: a channel that exists in the output goes there alone at full level; otherwise to the ground position it belongs to; otherwise to the first line of the table whose targets all exist. Targets always exist in the output, at most the power of the channel is handed out, bass goes to bass and nothing else does, left and right are treated alike, and every other known position is heard when the output has a front pair. With normalisation all weights are divided by the largest row sum when it exceeds one, the weights into any output then add up to at most one (within a part in 2^23), and an output is marked silent exactly when no channel feeds it.", "quantifier": "all 2^64 input layouts, all output layouts, with and without normalisation", "why_tests_cant": "There are 2^128 pairs of layouts; a table that loses a channel for an unusual pair, or that treats one side differently, is not seen by testing 5.1 to stereo, and the bound on the sum depends on accumulated rounding.", "anchors": ["src/core/audioresampling.cpp:322-516"]}
{"id": "C87", "title": "The SSE2, AVX2 and AVX-512 kernels of the 3x3 filters give the picture of the scalar kernels", "statement": "For 8 to 16 bit integer clips the vector kernels of Prewitt, Sobel, Minimum, Maximum, Median, Deflate, Inflate and 3x3 Convolution finish without touching memory outside their planes or an unaligned address, and every sample they write equals the sample of the scalar kernel, whatever the width and height, on all three instruction sets.", "quantifier": "all three instruction sets; all planes from 1x1 up whose row distance is a multiple of the register; all samples, masks, thresholds, scales, matrices, divisors and biases", "why_tests_cant": "The kernels handle the first, inner and last register of a row in three different ways and words in a biased signed domain on SSE2 only; a wrong lane at one border column shows only for particular widths, and saturation differs only for extreme parameters. A test machine runs only the instruction sets it has.", "anchors": ["src/core/kernel/x86/generic_impl.h:24-1024", "src/core/kernel/x86/generic_sse2.cpp:35-142", "src/core/kernel/x86/generic_avx2.cpp:46-158", "src/core/kernel/x86/generic_avx512.cpp:51-165", "src/core/kernel/generic.cpp:289-338"]}
{"id": "C88", "title": "The resize filters record the colour description of the pictures they make", "statement": "The input description of a frame is taken from its properties first, then from the *_in options, then from the defaults of its colour family; the output description from the options, then from the input, with the documented exceptions for RGB, for another colour family and for chroma that becomes subsampled. The properties of the result record exactly that description, every other property except the sample aspect ratio is kept, a filter with nothing to do copies the planes, and the accepted names of the codes are the documented ones.", "quantifier": "all frames and frame properties, all options, all formats, whatever the conversion does", "why_tests_cant": "The order of precedence has many combinations of set and unset properties and options over three colour families; a wrong default shows as a small colour shift only and in a later filter.", "anchors": ["src/core/vsresize.cpp:52-145", "src/core/vsresize.cpp:196-340", "src/core/vsresize.cpp:500-690", "doc/functions/video/resize.rst"]}
{"id": "C89", "title": "Resizing keeps the shape of the picture on the display", "statement": "When a frame has a sample aspect ratio, the resized frame has one in lowest terms such that the part of the source that is used and the whole result have the same shape on the display, for progressive and interlaced frames, whole pictures and parts of them.", "quantifier": "all ratios, sizes and source regions for which the products fit in 64 bits", "why_tests_cant": "The ratio goes through two divisions in sixteenths of a pixel with reduction; errors show only for odd sizes or fractional regions, and few tests look at the property.", "anchors": ["src/core/vsresize.cpp:340-376", "src/core/vsresize.cpp:766-790"]}
{"id": "C90", "title": "Interlaced frames are resized field by field and others as a whole", "statement": "The rows of every plane of a resized interlaced frame are the woven result of converting the top fields and the bottom fields with the conversions made for those fields; other frames are converted as a whole. No row is left as the allocator gave it, nothing is read or written outside the planes, and the result does not depend on which frames were requested before or meanwhile, although conversions are cached and shared between threads.", "quantifier": "all frames, planes, formats and cached conversions; every interference of other threads with the cache; every conversion library that makes pictures of the size asked for", "why_tests_cant": "A wrong row distance or field offset for one plane needs interlaced material to show; a stale cached conversion needs a clip whose properties change from frame to frame and a particular request order.", "anchors": ["src/core/vsresize.cpp:376-440", "src/core/vsresize.cpp:620-650", "src/core/vsresize.cpp:690-800", "doc/functions/video/resize.rst"]}
{"id": "C91", "title": "Plugins and their functions are registered once and stay", "statement": "Whatever libraries are loaded and whatever functions are registered, an identifier and a namespace each name at most one plugin and the same one; a load succeeds exactly when both names are free, and otherwise changes nothing. The iteration calls visit every plugin and every function once in ascending order. The first acceptable registration of a function name wins, names are identifiers, nothing is ever removed or replaced, and a plugin that was not declared modifiable never changes after loading. A manifest asks for exactly its lines, and the library for the greatest supported processor level is chosen.", "quantifier": "all sequences of loads and registrations, all entry points, all manifest texts, all sets of library files", "why_tests_cant": "Clashes depend on the order in which libraries with equal identifiers, forced namespaces or equal function names are loaded; tests load one or two fixed libraries.", "anchors": ["src/core/vscore.cpp:1843-1930", "src/core/vscore.cpp:2040-2071", "src/core/vscore.cpp:2118-2185", "src/core/vscore.cpp:2226-2460"]}
{"id": "C92", "title": "Filter instances are freed exactly once, after their users, and the core goes last", "statement": "However users take and give back references to clips and however threads interleave, no node or core is touched after it was destroyed; the free function of every filter instance is called exactly once, with its own core, only after every filter that holds the clip has been freed, and never inside another free function of the same thread, so that long chains of filters do not nest. Releasing always comes to an end. Once all references are given back every instance has been freed; a core is deleted exactly once, when it was given back and all its instances have been freed, and not before.", "quantifier": "all graphs of filters, all numbers of threads and cores, all interleavings, all orders of taking and giving back references", "why_tests_cant": "The order of destruction depends on which thread drops the last reference and on how instance data and dependencies overlap; a use after free or a double free shows only under particular interleavings, and leaks only as a log message at exit.", "anchors": ["src/core/vscore.cpp:779-847", "src/core/vscore.cpp:1923-1975", "src/core/vscore.cpp:2091-2107", "src/core/vscore.cpp:2192-2224"]}
{"id": "C93", "title": "The AVX2, AVX-512 and VNNI kernels of the 5x5 to 11x11 convolutions give the picture of the scalar kernel", "statement": "For 8 to 16 bit clips and every processor level the vector kernels of square convolutions with 25, 49, 81 and 121 coefficients read nothing outside the source plane, write every sample of the row and nothing else, and produce exactly the picture of the scalar kernel, whatever the width, so that the columns near the border (scalar code in both) do not stand out.", "quantifier": "all widths and heights, all strides, all pictures, all matrices, divisors and biases, both register sizes, with and without VNNI", "why_tests_cant": "The vector code is chosen from the processor, has a different last block for every remainder of the width, and differs from the scalar code only for sums near the limits of int32 or at exact rounding ties; tests compare a few widths with small coefficients.", "anchors": ["src/core/kernel/x86/square_impl.h:40-314", "src/core/kernel/x86/square_vnni_impl.h:40-149", "src/core/kernel/x86/convolution_avx2.cpp:60-160", "src/core/kernel/x86/convolution_avx512.cpp:60-170", "src/core/genericfilters.cpp:256-420"]}
{"id": "C94", "title": "The SSE2, AVX2 and AVX-512 kernels of the horizontal, vertical and separable convolutions stay inside their buffers and give the picture of the scalar kernels", "statement": "For 8 to 16 bit clips and every processor level the vector kernels of one-dimensional convolutions with 3 to 25 coefficients read and write nothing outside the planes, the padded copies of the row ends, the accumulators and the row buffer of the separable filter, write every sample of every row and produce exactly the picture of the scalar kernels.", "quantifier": "all widths and heights, all aligned strides, all pictures, all matrices, divisors and biases, all initial contents of the scratch buffers, the three register sizes", "why_tests_cant": "The number of passes depends on the matrix size, the last block on the remainder of the width, and the reads past the row buffer happen on AVX-512 only, for particular remainders, into lanes whose results are discarded: the output is right and nothing fails until the allocation ends at a page boundary.", "anchors": ["src/core/kernel/x86/convolution_impl.h:50-725", "src/core/kernel/x86/convolution_sse2.cpp:34-130", "src/core/kernel/x86/convolution_avx2.cpp:37-130", "src/core/kernel/x86/convolution_avx512.cpp:41-140"]}
{"id": "C95", "title": "FrameEval and ModifyFrame deliver, for every frame and in every order of service, what the function answered for that frame, and keep nothing between frames", "statement": "However the core interleaves the starts, arrivals and failures of frames, FrameEval and ModifyFrame call the function at most once per request of a frame, with exactly that frame's number and source frames and an empty result map, deliver the frame of the clip (or the frame) it returned if size and format are the declared ones and an error otherwise, leave the two shared maps empty, own no reference but those to clips whose frame is awaited, and never execute undefined behaviour.", "quantifier": "all functions (depending on their arguments and on the number of the call), all clips and sources, all finite sequences of events over any number of frames in flight", "why_tests_cant": "The maps are shared by all frames of the instance and cleared on each of several exits; a missed clear or a reference kept on one error path shows only in a later frame or as a leak, under particular interleavings of several threads, and only with functions that fail in particular ways.", "anchors": ["src/core/simplefilters.cpp:1372-1639", "src/core/vsthreadpool.cpp:190-191"]}
{"id": "C96", "title": "vspipe prints the filter graph with exactly the nodes and edges the output depends on, each once and readable, and one row of times per node", "statement": "For every graph of nodes the DOT text of vspipe --graph and --filter-time-graph contains the edges into the nodes the output depends on, directly or indirectly, and no others, each once; every such node appears in the box of the function call that made it; labels are quoted strings naming a call with its own arguments; and the table of filter times has one row for every such node, longest time first.", "quantifier": "all acyclic graphs of any size and sharing, all names, arguments and times, the three graph modes", "why_tests_cant": "Nodes reached on several paths, calls nested in calls, and texts with quotes or line breaks meet only in particular scripts; graphs with 2^n paths have to be walked in linear time; and a wrong label or a missing edge in a drawing is noticed by nobody.", "anchors": ["src/vspipe/printgraph.cpp:27-247"]}
{"id": "C97", "title": "Memory admission control measures filter calls exactly, never stalls the pool, keeps correctly predicted allocations within five quarters of the limit, and takes frames from the least valuable caches first", "statement": "For every nesting of filter calls, each call's measurement is the most memory its thread held during the call beyond the start, and measuring it changes nothing for the caller; the estimate of the next call is the largest earlier measurement, each losing a 128th per later call; a task is passed over only while another call runs and only when the memory in use, the estimates of the running calls and its own exceed five quarters of the limit; if every call keeps to its estimate, memory stays below that bound unless a call running alone does not fit; and under pressure the adaptive caches give what is above nine tenths of the limit, no frame more, in the order of their value.", "quantifier": "all programs of allocations, frees and nested calls; all histories of measurements; all interleavings of starts, allocations, frees and ends of calls; all sets of caches and every order std::sort may choose", "why_tests_cant": "The bound is a statement about all interleavings of threads that allocate at the same time, and its violations show only as memory use at particular moments on loaded machines; tests run with memory to spare and never reach the branch.", "anchors": ["src/core/memoryuse.h:55-127", "src/core/vscore.cpp:1056-1068", "src/core/vscore.cpp:1176-1256", "src/core/vsthreadpool.cpp:177-188", "src/core/vsthreadpool.cpp:226-236"]}
{"id": "C98", "title": "Pictures for Video for Windows have exactly the announced size, layout and bits per pixel", "statement": "For every clip format with a code, every output mode and all dimensions: the announced picture size is that of the documented layout of the code; packing a frame writes only inside a buffer of that size, no row over another, and planar and semiplanar pictures fill it with the planes in the order the code stands for; the announced bits per pixel are those of the picture; every accepted clip has a code in the mode asked for; and no format has two codes in one mode.", "quantifier": "all valid formats, all output modes, all dimensions", "why_tests_cant": "The buffer belongs to another program, the sizes are computed twice in different functions, and formats, modes, alignments and dimensions multiply; overflow needs pictures of gigabytes; nothing of it is built or tested outside Windows.", "anchors": ["src/common/fourcc.cpp:30-260", "src/vfw/vsvfw.cpp:447-468", "src/vfw/vsvfw.cpp:700-720", "src/vfw/vsvfw.cpp:786-797", "src/vfw/vsvfw.cpp:894-908", "src/vfw/vsvfw.cpp:955-967"]}
{"id": "C99", "title": "Expr accepts exactly the documented calls and applies each expression to every pixel of its plane, on every processor", "statement": "A call of Expr is accepted exactly if there are at most 26 clips of constant format with the same planes, subsampling and dimensions, of 8 to 16 bit integer or float samples, the output format has the family and subsampling of the first clip and such samples, there are no more expressions than planes and each one used compiles; planes without an expression of their own use that of the previous plane. Every frame then has the format and size announced and the properties of the first clip's frame; each plane is the expression applied to the samples of all clips at every place, or the plane of the first clip if the expression is empty and the samples are of the same kind; interpreter and compiled lines of 8 or 16 pixels give the same and never leave a buffer. A clip is declared strictly spatial exactly if frame n of the output always uses its frame n.", "quantifier": "all formats, dimensions, numbers of clips and expressions, all processors and memory contents", "why_tests_cant": "The path depends on the processor, the depth of each clip and the width modulo 16; accesses behind the row are invisible as long as there is padding, and the acceptance rules multiply.", "anchors": ["src/core/exprfilter.cpp:171-386", "src/core/expr/jitcompiler.cpp:65-88", "src/core/filtershared.h:159-168", "src/core/vscore.cpp:2617-2622", "doc/functions/video/expr.rst"]}
{"id": "C100", "title": "The Python configured for a vsscript library is the one vsscript finds", "statement": "After `vapoursynth config` has written the configuration, vsscript started from the same library finds the interpreter and the Python library that were configured, as long as the interpreter has not changed since; the entries of other installations are found as before. Looking up any library in a file written by the command gives the first entry for it whose interpreter is unchanged, or nothing.", "quantifier": "all paths, including ones with backslashes, all lists of installations and modification times", "why_tests_cant": "The writer is Python and the reader a hand-written C++ scanner; they only have to agree on unusual paths, which no test directory has.", "anchors": ["src/vsscript/vsscript.cpp:63-163", "src/py/_utils.py:239-319"]}
{"id": "C101", "title": "Callers of vsscript are told the result, error and exit code of the script just evaluated, and its outputs", "statement": "After any sequence of evaluations on a handle, the last call returns 0 exactly if it succeeded, getError answers NULL then and otherwise the message of that call, getExitCode answers what the script passed to sys.exit or 0, and freeing the handle releases every error message. getAvailableOutputNodes writes at most the number of indices asked for, in ascending order, all of them set in the script, and answers their total number.", "quantifier": "all sequences of calls of evaluateBuffer and evaluateFile, all ways in which a script can end, all sets of outputs and array sizes", "why_tests_cant": "Applications evaluate one script per handle; leaks of one string and an exit code left from another script have no visible effect in a test that looks at one evaluation.", "anchors": ["src/cython/vapoursynth.pyx:3798-4026", "src/vsscript/vsscript.cpp:241-338", "include/VSScript4.h:63-100", "doc/api/vsscript4.h.rst:141-195"]}
{"id": "C102", "title": "Variables set in a script through vsscript are read back unchanged", "statement": "setVariables of any map succeeds if its texts are UTF-8, and getVariable of each of its keys into an empty map then gives the same property: the same type, number and order of elements and the same values, integers called _Range passing through the enumeration included. Other variables are as before. A range given under the old name _ColorRange or the new name _Range ends up as the same property. Maps with texts that are not UTF-8 are refused and change nothing, and lists of different types are refused when read.", "quantifier": "all maps, numbers of elements, types, data hints and existing variables", "why_tests_cant": "Properties with zero, one and several elements become different kinds of Python objects, and each type takes its own path both ways.", "anchors": ["src/cython/vapoursynth.pyx:1070-1181", "src/cython/vapoursynth.pyx:4048-4069", "src/core/vsapi.cpp:316-330", "src/core/vsapi.cpp:397-413", "src/core/vsapi.cpp:602-606"]}
{"id": "C103", "title": "The arguments of a call from Python reach the parameters they are meant for", "statement": "A call of a filter from Python is matched with its parameters exactly if there are no more values without a name than parameters not given by name and every name belongs to a parameter or the function takes any argument. Then a parameter has the value given by its name, an underscore at the end of a name not counting, and the others have the values without a name in the order of the declaration, the clip of a bound function first. No value gets lost.", "quantifier": "all signatures, numbers of values, names and orders of named arguments", "why_tests_cant": "The matching removes from two containers while walking over a third; mistakes show only for particular mixtures of named and unnamed arguments.", "anchors": ["src/cython/vapoursynth.pyx:3472-3519"]}
{"id": "C104", "title": "Slices of clips in Python are slices of the sequence of frames", "statement": "For a clip of at least one frame, clip[start:stop:step] has exactly the frames of the slice of Python's sequences, in its order, whenever that slice is not empty, for any missing, negative or too big bounds and any step other than 0 that fits 64 bits. An empty slice is an error of Trim, a step of 0 a ValueError and a bigger step an OverflowError. clip[n] is the clip of that one frame, counted from the end for negative n, and an IndexError if there is no such frame.", "quantifier": "all clips up to 2^31-1 frames, all bounds, steps and indices", "why_tests_cant": "The slice is put together from Trim, Reverse and SelectEvery; off-by-one errors show only for some combinations of sign of the step, bounds and remainder, and steps beyond 32 bits are saturated by the filter.", "anchors": ["src/cython/vapoursynth.pyx:2579-2625", "src/core/reorderfilters.cpp:123-174"]}
