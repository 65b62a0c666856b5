{"id": "C01", "title": "iter_slices loses and reorders nothing", "statement": "For any ChunkIncr implementation and any data, after any number of next() calls on iter_slices(data) the slices returned so far, concatenated in order, followed by the remaining slice (into_parts) are exactly data; when the iteration ends the returned slices alone concatenate to data, including a trailing part that is not a complete chunk.", "quantifier": "every chunker implementation (any push function), every starting state of it, every data, every number of next() calls", "why_tests_cant": "quantifies over all implementations of the trait and all prefixes of the iteration", "anchors": ["src/lib.rs: ChunkIncr::iter_slices, IterSlices::next, IterSlices::into_parts"]}
{"id": "C02", "title": "iter_slices ends for every built-in chunker", "statement": "For each built-in algorithm, with any configuration its constructor accepts, iter_slices(data) on a fresh incremental chunker returns None after finitely many next() calls and never panics.", "quantifier": "every algorithm, configuration and data", "why_tests_cant": "termination on every input; a test that hangs only shows one input", "anchors": ["src/lib.rs: IterSlices::next", "src/*.rs: ChunkIncr::push implementations"]}
{"id": "C03", "title": "iter_slices_strict emits only complete chunks and keeps the remainder", "statement": "After any number of next() calls on iter_slices_strict(data): returned slices ++ remainder = data; a call that returns None leaves the remainder untouched; take_rem returns exactly the remainder and leaves an empty one, into_parts returns it too; no returned slice is ever the undecided tail.", "quantifier": "every chunker implementation and state, every data, every interleaving of next and take_rem", "why_tests_cant": "all implementations and all call sequences", "anchors": ["src/lib.rs: ChunkIncr::iter_slices_strict, IterSlicesStrict::next, take_rem, into_parts"]}
{"id": "C04", "title": "Slice iterators stay finished", "statement": "Once next() on iter_slices or iter_slices_strict has returned None it keeps returning None.", "quantifier": "every chunker, data and number of further calls", "why_tests_cant": "the claim is about every later call after every input", "anchors": ["src/lib.rs: IterSlices::next, IterSlicesStrict::next"]}
{"id": "C05", "title": "iter_slices and find_chunk_edge agree", "statement": "For each built-in algorithm, the slices produced by iter_slices(data) on a fresh incremental chunker are the chunks cut out by find_chunk_edge on the same data, followed by the remainder.", "quantifier": "every algorithm, configuration and data", "why_tests_cant": "tests fix one buffer layout or sample a few random ones on short inputs; the claim is about every layout of every input", "anchors": ["src/lib.rs: IterSlices, Chunk::find_chunk_edge", "src/*.rs"]}
{"id": "C06", "title": "find_chunk_edge answers stay inside the buffer", "statement": "For each algorithm and any caller that follows the documented protocol, find_chunk_edge never panics, and in every answer (Some(c), d) or (None, d): 1 <= c <= data.len(), d <= data.len(); so the documented `data = &data[discard_ct..]` never panics.", "quantifier": "every algorithm, configuration, input, schedule of buffer lengths", "why_tests_cant": "must hold for each call of each schedule; the off-by-one only shows when a chunk ends exactly at a buffer end", "anchors": ["src/lib.rs: Chunk::find_chunk_edge", "src/fastcdc.rs: FastCdc::find_chunk_edge"]}
{"id": "C07", "title": "Bounded look-back", "statement": "After find_chunk_edge answers (None, d), the number of bytes the caller has to keep, data.len() - d, is at most the algorithm's window (0 for Mii, Ram, Gear32, PigzRsyncable, FastCdc, Zpaq; the window length for GzipRsyncable, RollSum, BuzHash; 32 for Zstd).", "quantifier": "every configuration, input and schedule", "why_tests_cant": "all schedules", "anchors": ["src/gzip.rs", "src/bup.rs", "src/buzhash.rs", "src/zstd.rs: find_chunk_edge"]}
{"id": "C08", "title": "Mii chunk edges under any buffering", "statement": "With Mii::with_w(w), find_chunk_edge reports, for any buffering, exactly these cuts: a chunk ends at the first byte such that the last w+1 bytes of the chunk are strictly increasing; with w = 0 there is no cut.", "quantifier": "every input, every configuration accepted by the constructor, and every way of handing the input over in pieces (slice sizes, buffer growth, empty slices)", "why_tests_cant": "tests fix one buffer layout or sample a few random ones on short inputs; the claim is about every layout of every input", "anchors": ["src/mii.rs: Mii::find_chunk_edge, MiiIncr::push, MiiIncr::reset"]}
{"id": "C09", "title": "Mii incremental cuts under any buffering", "statement": "MiiIncr::push reports the same cut positions however the stream is sliced; the first chunk follows the rule of C08, a later chunk the same rule with a virtual 0 byte placed before the chunk.", "quantifier": "every input, every configuration accepted by the constructor, and every way of handing the input over in pieces (slice sizes, buffer growth, empty slices)", "why_tests_cant": "tests fix one buffer layout or sample a few random ones on short inputs; the claim is about every layout of every input", "anchors": ["src/mii.rs: MiiIncr::push"]}
{"id": "C10", "title": "Mii: incremental equals all-at-once", "statement": "The cut positions reported by MiiIncr::push equal those reported by Mii::find_chunk_edge.", "quantifier": "every w and every input", "why_tests_cant": "the two agree on most inputs; only particular bytes after a cut separate them", "anchors": ["src/mii.rs: MiiIncr::push (prev = 0 on split), MiiIncr::reset (prev = 0xff)"]}
{"id": "C11", "title": "Mii: parameters that never split, and no overflow", "statement": "For w = 0 and for every w >= 256, Mii never reports a cut, in either API; for every w the increment counter never exceeds 255, so it cannot overflow whatever the length of the stream.", "quantifier": "every w, every input of any length", "why_tests_cant": "unbounded stream length", "anchors": ["src/mii.rs: MiiIncr::push"]}
{"id": "C12", "title": "Ram chunk edges under any buffering", "statement": "With Ram::with_w(w), find_chunk_edge ends a chunk at the first byte that has more than w bytes before it in the chunk and is >= all of them, for any buffering and any stream shorter than 2^64 bytes.", "quantifier": "every input, every configuration accepted by the constructor, and every way of handing the input over in pieces (slice sizes, buffer growth, empty slices)", "why_tests_cant": "tests fix one buffer layout or sample a few random ones on short inputs; the claim is about every layout of every input", "anchors": ["src/ram.rs: Ram::find_chunk_edge, RamState::push"]}
{"id": "C13", "title": "Ram incremental cuts under any buffering", "statement": "RamIncr::push splits immediately before the byte that ends the search of C12 (that byte starts the next chunk), for any slicing; the same push read as 'index of the last byte' gives the cuts of C12.", "quantifier": "every input, every configuration accepted by the constructor, and every way of handing the input over in pieces (slice sizes, buffer growth, empty slices)", "why_tests_cant": "tests fix one buffer layout or sample a few random ones on short inputs; the claim is about every layout of every input", "anchors": ["src/ram.rs: RamIncr::push, RamState::push"]}
{"id": "C14", "title": "Ram minimum chunk size", "statement": "Every complete chunk reported by Ram (either API) has at least w bytes, more precisely at least w+2 with find_chunk_edge and w+1 with iter_slices.", "quantifier": "every w, input, buffering", "why_tests_cant": "tests fix one buffer layout or sample a few random ones on short inputs; the claim is about every layout of every input", "anchors": ["src/ram.rs"]}
{"id": "C15", "title": "Gear32 chunk edges under any buffering", "statement": "With Gear32::with_average_size_log2(n), find_chunk_edge ends a chunk at the first byte where the sum over the chunk's last 32 bytes of GEAR_32[b] * 2^age (age 0 for the newest), modulo 2^32, has its n top bits zero, for any buffering.", "quantifier": "every input, every configuration accepted by the constructor, and every way of handing the input over in pieces (slice sizes, buffer growth, empty slices)", "why_tests_cant": "tests fix one buffer layout or sample a few random ones on short inputs; the claim is about every layout of every input", "anchors": ["src/gear.rs: Gear32::find_chunk_edge, GearState32::push"]}
{"id": "C16", "title": "Gear32 incremental cuts under any buffering", "statement": "GearIncr32::push returns the index of the byte that ends the chunk (one less than find_chunk_edge's cut), for any slicing and any state.", "quantifier": "every input, every configuration accepted by the constructor, and every way of handing the input over in pieces (slice sizes, buffer growth, empty slices)", "why_tests_cant": "tests fix one buffer layout or sample a few random ones on short inputs; the claim is about every layout of every input", "anchors": ["src/gear.rs: GearIncr32::push"]}
{"id": "C17", "title": "Gear32 mask and split probability", "statement": "with_average_size_log2(n) succeeds exactly for 1 <= n <= 31 (it panics otherwise) and then a fingerprint f splits iff f < 2^(32-n): exactly a 2^-n fraction of the fingerprints, as the documented average 2^n needs.", "quantifier": "every n, every 32-bit fingerprint", "why_tests_cant": "2^32 fingerprints times every n; the unit test looks at three masks", "anchors": ["src/gear.rs: msb_mask, with_average_size_log2"]}
{"id": "C18", "title": "PigzRsyncable chunk edges under any buffering", "statement": "With PigzRsyncable::with_bits(b), find_chunk_edge ends a chunk at the first byte where the masked shift-xor hash of the chunk (started from the hit value) equals the hit value 2^(b-1)-1, for any buffering.", "quantifier": "every input, every configuration accepted by the constructor, and every way of handing the input over in pieces (slice sizes, buffer growth, empty slices)", "why_tests_cant": "tests fix one buffer layout or sample a few random ones on short inputs; the claim is about every layout of every input", "anchors": ["src/pigz.rs: find_chunk_edge, PigzRsyncableState::add"]}
{"id": "C19", "title": "PigzRsyncable: incremental equals all-at-once", "statement": "PigzRsyncableIncr::push reports the cuts of C18 for any slicing of the stream.", "quantifier": "every input, every configuration accepted by the constructor, and every way of handing the input over in pieces (slice sizes, buffer growth, empty slices)", "why_tests_cant": "tests fix one buffer layout or sample a few random ones on short inputs; the claim is about every layout of every input", "anchors": ["src/pigz.rs: PigzRsyncableIncr::push"]}
{"id": "C20", "title": "PigzRsyncable constructor", "statement": "with_bits(b) succeeds exactly for b <= 31 and panics for b >= 32 (checked build); mask = 2^b - 1 and hit = mask >> 1.", "quantifier": "every b", "why_tests_cant": "the claim covers each of the 256 arguments and the derived values", "anchors": ["src/pigz.rs: with_bits"]}
{"id": "C21", "title": "GzipRsyncable chunk edges under any buffering", "statement": "With with_window_and_modulus(W, m), m > 0, find_chunk_edge ends a chunk at the first byte where the sum (mod 2^64) of the chunk's last W bytes is divisible by m, for any buffering: discarding bytes never changes a later cut.", "quantifier": "every input, every configuration accepted by the constructor, and every way of handing the input over in pieces (slice sizes, buffer growth, empty slices)", "why_tests_cant": "tests fix one buffer layout or sample a few random ones on short inputs; the claim is about every layout of every input", "anchors": ["src/gzip.rs: find_chunk_edge, GzipRsyncableState::add"]}
{"id": "C22", "title": "GzipRsyncable: incremental equals all-at-once", "statement": "For W > 0 GzipRsyncableIncr::push reports the cuts of C21 for any slicing of the stream and its internal window never holds more than W bytes.", "quantifier": "every input, every configuration accepted by the constructor, and every way of handing the input over in pieces (slice sizes, buffer growth, empty slices)", "why_tests_cant": "tests fix one buffer layout or sample a few random ones on short inputs; the claim is about every layout of every input", "anchors": ["src/gzip.rs: GzipRsyncableIncr::push"]}
{"id": "C23", "title": "GzipRsyncable never panics", "statement": "For every window and every modulus accepted by the constructor, neither find_chunk_edge nor push panics.", "quantifier": "every (window, modulus), input", "why_tests_cant": "the degenerate parameters are not sampled by tests", "anchors": ["src/gzip.rs: with_window_and_modulus, push, add"]}
{"id": "C24", "title": "FastCdc incremental cuts under any buffering", "statement": "For normal_size <= max_size, FastCdcIncr::push splits, for any slicing, at the first offset i of the chunk with i >= min_size where either i >= max_size or the 64-bit gear fingerprint of bytes min_size..=i has all MASK_S bits zero (i < normal_size) or all MASK_L bits zero (i >= normal_size).", "quantifier": "every input, every configuration accepted by the constructor, and every way of handing the input over in pieces (slice sizes, buffer growth, empty slices)", "why_tests_cant": "tests fix one buffer layout or sample a few random ones on short inputs; the claim is about every layout of every input", "anchors": ["src/fastcdc.rs: FastCdcState::push, FastCdcIncr::push"]}
{"id": "C25", "title": "FastCdc buffering independence for every configuration", "statement": "FastCdcIncr::push reports the same cuts for any slicing, for every (min, normal, max) accepted by FastCdc::new.", "quantifier": "every configuration, input and pair of slicings", "why_tests_cant": "depends on configurations tests never use (normal_size > max_size)", "anchors": ["src/fastcdc.rs: FastCdc::new, FastCdcState::push"]}
{"id": "C26", "title": "FastCdc chunk size bounds", "statement": "Every complete chunk reported by FastCdc has between min_size and max_size bytes, with iter_slices and with find_chunk_edge.", "quantifier": "every min <= normal <= max, input, buffering", "why_tests_cant": "tests fix one buffer layout or sample a few random ones on short inputs; the claim is about every layout of every input", "anchors": ["src/fastcdc.rs: FastCdc::find_chunk_edge, FastCdcState::push"]}
{"id": "C27", "title": "FastCdc find_chunk_edge cut rule", "statement": "find_chunk_edge reports the cut one past the offset that push returns and discards the same amount, from any state on any data, and for any buffering.", "quantifier": "every state and data; every buffering", "why_tests_cant": "tests fix one buffer layout or sample a few random ones on short inputs; the claim is about every layout of every input", "anchors": ["src/fastcdc.rs: FastCdc::find_chunk_edge"]}
{"id": "C28", "title": "RollSum digest depends only on the window", "statement": "After any sequence of roll_byte on a RollSumIncr (window a power of two), digest() is (31*W + sum of the last W bytes) in the upper half and (31*W*(W-1) + age-weighted sum of the last W bytes) mod 2^16 in the lower half; bytes older than the window have no influence.", "quantifier": "every power-of-two window, every byte history of any length", "why_tests_cant": "unbounded histories; wrap-around of two accumulators", "anchors": ["src/bup.rs: RollSumIncr::roll_byte, digest, RollSumState::add, From<&RollSum>"]}
{"id": "C29", "title": "RollSum digest for every window length", "statement": "C28 holds for every window length accepted by RollSum::with_window, and roll_byte never panics.", "quantifier": "every window length, every history", "why_tests_cant": "needs window lengths no test uses", "anchors": ["src/bup.rs: RollSum::with_window, RollSumIncr::roll_byte"]}
{"id": "C30", "title": "RollSum chunk edges under any buffering", "statement": "RollSum::find_chunk_edge ends a chunk at the first byte where the age-weighted sum of the chunk's last W bytes plus 31*W*(W-1) is 8191 modulo 8192, for every window length and any buffering.", "quantifier": "every input, every configuration accepted by the constructor, and every way of handing the input over in pieces (slice sizes, buffer growth, empty slices)", "why_tests_cant": "tests fix one buffer layout or sample a few random ones on short inputs; the claim is about every layout of every input", "anchors": ["src/bup.rs: RollSum::find_chunk_edge, RollSumState::at_split"]}
{"id": "C31", "title": "RollSumIncr cuts under any buffering", "statement": "RollSumIncr::push (power-of-two window) reports a cut after exactly the bytes at which the condition of C30, evaluated on the last W bytes of the whole stream, holds, for any slicing.", "quantifier": "every input, every configuration accepted by the constructor, and every way of handing the input over in pieces (slice sizes, buffer growth, empty slices)", "why_tests_cant": "tests fix one buffer layout or sample a few random ones on short inputs; the claim is about every layout of every input", "anchors": ["src/bup.rs: RollSumIncr::push"]}
{"id": "C32", "title": "RollSum: incremental equals all-at-once", "statement": "RollSumIncr::push and RollSum::find_chunk_edge report the same cuts.", "quantifier": "every power-of-two window and input", "why_tests_cant": "they differ only when two cuts lie closer together than a window, which random tests essentially never produce", "anchors": ["src/bup.rs: RollSumIncr::push (no reset), RollSum::find_chunk_edge (reset)"]}
{"id": "C33", "title": "BuzHash chunk edges under any buffering", "statement": "BuzHash::find_chunk_edge ends a chunk at the first byte where all mask bits are set in the cyclic-polynomial hash of the chunk, for any buffering: discarding bytes never changes a later cut.", "quantifier": "every input, every configuration accepted by the constructor, and every way of handing the input over in pieces (slice sizes, buffer growth, empty slices)", "why_tests_cant": "tests fix one buffer layout or sample a few random ones on short inputs; the claim is about every layout of every input", "anchors": ["src/buzhash.rs: find_chunk_edge, BuzHashState::add_buf"]}
{"id": "C34", "title": "BuzHash incremental cuts under any buffering", "statement": "BuzHashIncr::push ends a chunk at the first byte where all mask bits are set in that same hash or where the chunk has more than max_chunk_size bytes, for any slicing of a stream shorter than 2^64 bytes; the stale ring buffer left by a previous chunk has no influence.", "quantifier": "every input, every configuration accepted by the constructor, and every way of handing the input over in pieces (slice sizes, buffer growth, empty slices)", "why_tests_cant": "tests fix one buffer layout or sample a few random ones on short inputs; the claim is about every layout of every input", "anchors": ["src/buzhash.rs: BuzHashIncr::push, push_byte, reset"]}
{"id": "C35", "title": "BuzHash window: the hash takes exactly k bytes into account", "statement": "Once a chunk has at least k bytes, the hash is the xor of the last k bytes' table values rotated by their age, so bytes older than k have no influence.", "quantifier": "every capacity k, every table, every byte history", "why_tests_cant": "unbounded history; fails only for some k", "anchors": ["src/buzhash.rs: BuzHashState::add_overflow (rotate_left(k % 8))", "src/buzhash.rs: BuzHash::new docs"]}
{"id": "C36", "title": "BuzHash maximum chunk size", "statement": "No complete chunk is longer than max_chunk_size + 1 bytes, with push and with find_chunk_edge.", "quantifier": "every configuration, input, buffering", "why_tests_cant": "tests fix one buffer layout or sample a few random ones on short inputs; the claim is about every layout of every input", "anchors": ["src/buzhash.rs: max_chunk_size, BuzHashIncr::push, BuzHash::find_chunk_edge"]}
{"id": "C37", "title": "BuzHash: incremental equals all-at-once up to the size cap", "statement": "As long as no chunk found by find_chunk_edge is longer than max_chunk_size, push and find_chunk_edge report the same cuts.", "quantifier": "every configuration and input", "why_tests_cant": "tests fix one buffer layout or sample a few random ones on short inputs; the claim is about every layout of every input", "anchors": ["src/buzhash.rs"]}
{"id": "C38", "title": "BuzHash byte hashes", "statement": "BuzHashTableHash / BuzHashTableBufHash look up the byte, BuzHashTableByteSaltHash looks up byte xor salt, borg_buzhash_table(seed) is the base table xor seed entry-wise; none of them can index out of bounds.", "quantifier": "every byte, salt, seed and table", "why_tests_cant": "2^32 seeds times 256 entries", "anchors": ["src/buzhash.rs: BuzHashHash impls", "src/buzhash_table.rs: borg_buzhash_table"]}
{"id": "C39", "title": "Zpaq incremental cuts under any buffering", "statement": "ZpaqIncr::push ends a chunk at the first length n where (hash < 2^(32-average) and n is not under the range's minimum) or n exceeds the range's maximum, where hash is the order-1-predictor hash of the chunk, for any slicing of a stream shorter than 2^64 bytes.", "quantifier": "every input, every configuration accepted by the constructor, and every way of handing the input over in pieces (slice sizes, buffer growth, empty slices)", "why_tests_cant": "tests fix one buffer layout or sample a few random ones on short inputs; the claim is about every layout of every input", "anchors": ["src/zpaq.rs: ZpaqIncr::push, Zpaq::split_here, ZpaqHash::feed"]}
{"id": "C40", "title": "Zpaq chunk edges under any buffering", "statement": "Zpaq::find_chunk_edge reports, for any buffering, the cuts of the rule of C39 with n + 1 in place of n.", "quantifier": "every input, every configuration accepted by the constructor, and every way of handing the input over in pieces (slice sizes, buffer growth, empty slices)", "why_tests_cant": "tests fix one buffer layout or sample a few random ones on short inputs; the claim is about every layout of every input", "anchors": ["src/zpaq.rs: Zpaq::find_chunk_edge"]}
{"id": "C41", "title": "Zpaq: incremental equals all-at-once", "statement": "ZpaqIncr::push and Zpaq::find_chunk_edge report the same cuts.", "quantifier": "every configuration and input", "why_tests_cant": "they differ only at chunks that hit the size bounds", "anchors": ["src/zpaq.rs: find_chunk_edge (idx + 1) vs push (idx)"]}
{"id": "C42", "title": "Zpaq chunk sizes respect the range", "statement": "Every complete chunk has a length contained in the range given to with_range / with_average_and_range, in both APIs.", "quantifier": "every range (inclusive, exclusive, unbounded bounds), input, buffering", "why_tests_cant": "tests fix one buffer layout or sample a few random ones on short inputs; the claim is about every layout of every input", "anchors": ["src/zpaq.rs: split_here", "src/range.rs"]}
{"id": "C43", "title": "Zpaq constructors", "statement": "with_average_size_pow_2(f) succeeds exactly for 10 <= f <= 32; the resulting range is 64*2^(f-10) .. 8128*2^f and a hash splits iff it is below 2^(32-f); with_max_size(m) succeeds exactly for 8192 <= m < 2^45; Zpaq::default() has minimum 4096, maximum 520192 and average 65536 as documented.", "quantifier": "every argument", "why_tests_cant": "all u8 / u64 arguments", "anchors": ["src/zpaq.rs: with_average_size_pow_2, with_max_size, with_range, Default"]}
{"id": "C44", "title": "Zpaq hash forgets old data", "statement": "The hash after a run of bytes containing 32 mispredicted bytes does not depend on the hash before the run (given the same predictor state).", "quantifier": "every pair of previous hashes, every run", "why_tests_cant": "unbounded histories", "anchors": ["src/zpaq.rs: ZpaqHash::feed"]}
{"id": "C45", "title": "Range helpers agree with interval semantics", "statement": "For every range, under_min, exceeds_max and contains of RangeExt mean: below the lower bound, above the upper bound, inside both; contains is the negation of the other two and into_tuple preserves all three.", "quantifier": "every combination of bounds and every item", "why_tests_cant": "all bounds and items", "anchors": ["src/range.rs: RangeExt"]}
{"id": "C46", "title": "Zstd rolling hash", "statement": "After at least 32 bytes ZstdIncr's hash is sum of (b + 10) * PRIME^age over the last 32 bytes modulo 2^64, whatever came before.", "quantifier": "every byte history", "why_tests_cant": "unbounded histories, wrap-around arithmetic", "anchors": ["src/zstd.rs: ZstdState::append, rotate, ZstdIncr::push"]}
{"id": "C47", "title": "Zstd incremental cuts under any buffering", "statement": "ZstdIncr::push (index read as the last byte of the chunk) reports a cut after exactly those bytes, from the 33rd on, at which the hash of C46 has all hit-mask bits set, for any slicing.", "quantifier": "every input, every configuration accepted by the constructor, and every way of handing the input over in pieces (slice sizes, buffer growth, empty slices)", "why_tests_cant": "tests fix one buffer layout or sample a few random ones on short inputs; the claim is about every layout of every input", "anchors": ["src/zstd.rs: ZstdIncr::push"]}
{"id": "C48", "title": "Zstd chunk edges under any buffering", "statement": "Zstd::find_chunk_edge reports the cuts of C47 for any buffering.", "quantifier": "every input, every configuration accepted by the constructor, and every way of handing the input over in pieces (slice sizes, buffer growth, empty slices)", "why_tests_cant": "the second cut of a buffer is only reached by data with two synchronisation points, one per 8 MiB on random data", "anchors": ["src/zstd.rs: Zstd::find_chunk_edge"]}
{"id": "C49", "title": "Zstd constructor", "statement": "with_target_section_size(t) succeeds exactly for 2^20 <= t < 2^52; the hit mask is 2^(20 + floor(log2(t / 2^20))) - 1 and the prime power is PRIME^31 mod 2^64.", "quantifier": "every t", "why_tests_cant": "2^64 arguments", "anchors": ["src/zstd.rs: with_target_section_size"]}
{"id": "C50", "title": "Cuts after a cut depend only on what follows", "statement": "For the algorithms that reset at a cut (all of Mii, Ram, Gear32, PigzRsyncable, GzipRsyncable, RollSum, BuzHash, Zpaq with find_chunk_edge): if position p is a cut of a stream, the later cuts are the cuts of the bytes after p processed as a fresh stream, shifted by p. Two streams that share a tail and both have a cut at its start have the same chunks from there on.", "quantifier": "every pair of streams, every buffering of each", "why_tests_cant": "relates two unbounded executions", "anchors": ["src/*.rs: find_chunk_edge reset paths"]}
{"id": "C51", "title": "Resynchronisation after an edit", "statement": "For window-based algorithms (Gear32 32 bytes, PigzRsyncable b bytes, GzipRsyncable W, RollSum W, BuzHash k): if two streams share a tail, and one of them has a cut in the shared tail with neither having another cut within the window before it, both inside the shared tail, then the other has a cut at the same place, and all later cuts coincide.", "quantifier": "every pair of streams sharing a tail", "why_tests_cant": "relates two unbounded executions", "anchors": ["src/gear.rs", "src/pigz.rs", "src/gzip.rs", "src/bup.rs", "src/buzhash.rs"]}
{"id": "C52", "title": "No arithmetic overflow or out-of-bounds access in push", "statement": "For every algorithm and accepted configuration, push never panics on streams shorter than 2^64 bytes, for any slicing.", "quantifier": "every configuration, input, slicing", "why_tests_cant": "overflow checks trigger only after astronomically long or adversarial inputs", "anchors": ["src/*.rs: ChunkIncr::push"]}
{"id": "C53", "title": "Cut positions are strictly increasing and inside the data", "statement": "For every algorithm and buffering the cut positions reported (converted to offsets in the input) are strictly increasing, at least 1 and at most the input length, so no empty chunk is ever reported.", "quantifier": "every configuration, input and buffering", "why_tests_cant": "tests fix one buffer layout or sample a few random ones on short inputs; the claim is about every layout of every input", "anchors": ["src/*.rs"]}
{"id": "C54", "title": "The documented find_chunk_edge loop prints all the data", "statement": "For every chunker and input, the loop given in the documentation of Chunk::find_chunk_edge ends without a panic, and the chunks it prints followed by the slice it prints as \"remain\" are exactly the input.", "quantifier": "every configuration and input", "why_tests_cant": "the doc test runs it on one five-byte input and looks at nothing it prints", "anchors": ["src/lib.rs: Chunk::find_chunk_edge documentation"]}
{"id": "C55", "title": "The cross-check of the two APIs made by the tests holds for every input", "statement": "For every chunker and input, the split lengths obtained by pushing the input byte by byte and splitting after each byte whose push answers Some are the split lengths obtained from find_chunk_edge on everything not yet discarded (tests/cuts.rs).", "quantifier": "every configuration and input", "why_tests_cant": "the test checks a handful of pseudo-random inputs", "anchors": ["tests/cuts.rs: cut_test", "src/*.rs"]}
{"id": "C56", "title": "find_chunk_edge is self-consistent under varying buffer sizes", "statement": "For every chunker, input and non-empty list of positive buffer sizes the splits collected by splits_fce of tests/cuts_qc.rs are the same, namely the chunk sizes of the algorithm's rule.", "quantifier": "every configuration, input and list of buffer sizes", "why_tests_cant": "property tests sample short inputs and buffer lists", "anchors": ["tests/cuts_qc.rs: splits_fce", "src/*.rs"]}
{"id": "C57", "title": "FastCdcIncr equals the one-buffer reference", "statement": "For every input, push on a fresh FastCdcIncr::default() returns the position that the one-buffer transcription of the FastCDC pseudocode in tests/fastcdc.rs returns, with None for 0.", "quantifier": "every input shorter than 2^64 bytes", "why_tests_cant": "the test uses random buffers just above 1 KiB, all below the minimal chunk size, and a few of 8 MiB", "anchors": ["tests/fastcdc.rs: fast_cdc_8kb, oracle_1", "src/fastcdc.rs: FastCdcState::push"]}
{"id": "C58", "title": "The default configurations cut by their documented rule", "statement": "The cuts of Mii::default, Gear32::default, PigzRsyncable::default, GzipRsyncable::default, FastCdc::default, RollSum::default, BuzHash::new_nom, Zpaq::default and Zstd::default are the cuts of the algorithm's rule with literal parameters: 5 increasing bytes, 13 bits, 12 bits, window 8192 and modulus 4096, sizes 2/8/64 KiB, window 64, window 67 with mask 4095, fragment 6 with its range, 23 bits.", "quantifier": "every input and buffering", "why_tests_cant": "a changed default shows only on inputs of many kilobytes", "anchors": ["src/*.rs: impl Default, BuzHash::new_nom"]}
{"id": "C59", "title": "The hand-written equalities are equality", "statement": "The PartialEq implementations of FastCdc and ZpaqHash hold exactly when all the fields are equal.", "quantifier": "every two values", "why_tests_cant": "no test compares two of them", "anchors": ["src/fastcdc.rs: PartialEq for FastCdc", "src/zpaq.rs: PartialEq for ZpaqHash"]}
{"id": "C60", "title": "Which chunkers limit the size of a chunk", "statement": "For every configuration, either no chunk nor undecided tail is larger than a limit computed from the configuration, or there are inputs of every length without any cut; which of the two is decided by an explicit table.", "quantifier": "every configuration, input and buffering", "why_tests_cant": "absence of a limit is a statement about inputs of every length", "anchors": ["src/*.rs: push, find_chunk_edge"]}
{"id": "C61", "title": "Appending data does not move cuts", "statement": "Appending bytes to a stream keeps every cut and adds cuts only after its old end (FastCdc's push: at or after); hence two streams that begin alike have the same cuts in the common part.", "quantifier": "every configuration, input, continuation and buffering", "why_tests_cant": "quantifies over pairs of inputs and bufferings", "anchors": ["src/*.rs: push, find_chunk_edge"]}
{"id": "C62", "title": "The loop of tests/fastcdc.rs ends on every random source", "statement": "feed_until_5_chunks, which feeds blocks of 256 bytes to FastCdcIncr::default until more than five chunks are found inside blocks, ends whatever bytes the source delivers.", "quantifier": "every sequence of blocks", "why_tests_cant": "non-termination on a rare source is not observable by running", "anchors": ["tests/fastcdc.rs: feed_until_5_chunks", "src/fastcdc.rs: FastCdcState::push"]}
{"id": "C63", "title": "The benchmark loop records the chunk sizes", "statement": "For every input the loop of bench_bup ends without a panic, and the lengths that it records are the sizes of the chunks of the RollSum rule, without the undecided tail.", "quantifier": "every input", "why_tests_cant": "a benchmark checks no result", "anchors": ["benches/compare.rs: bench_bup, split_histogram", "src/bup.rs: RollSumIncr::push"]}
{"id": "C64", "title": "From every stream a cut can still be reached", "statement": "For every configuration, either every stream, whatever was pushed so far, has a continuation of at most a computed number of bytes in which push reports a cut, or push never reports one; which of the two is decided by an explicit condition. Where the rule looks at a bounded window one fixed word does it after every stream, for push and for find_chunk_edge.", "quantifier": "every configuration, stream and buffering", "why_tests_cant": "configurations that never cut, or stop cutting after some history, look like long chunks", "anchors": ["src/*.rs: push, find_chunk_edge"]}
{"id": "C65", "title": "Equal chunks are cut alike", "statement": "If some bytes are a chunk of one stream (they start at the start of the stream or at a cut, and end at the next cut), then wherever those bytes follow a cut of another stream, or of the same one, they are a chunk there too, whatever comes before and after. This is what makes chunks deduplicable. For find_chunk_edge of every algorithm but Zstd, and for push of the algorithms that reset at a cut and do not look past it.", "quantifier": "every configuration, pair of streams, common chunk, continuation and buffering", "why_tests_cant": "relates two unbounded executions at arbitrary positions", "anchors": ["src/*.rs: push, find_chunk_edge, reset"]}
{"id": "C66", "title": "How often a position is cut", "statement": "With all byte strings of a length equally likely: RollSum's push (window with a low bit of at least 32, such as the default 64) cuts at every given position from 32 on with probability exactly 1/8192, and PigzRsyncable (both APIs) at every position from bits on with probability exactly 2^-bits, so the average number of cuts is the number of positions times that. For the algorithms that reset at a cut the same is said about the rule a chunk ends by: RollSum's find_chunk_edge exactly 1/8192 for every window of at least 32, Gear32 between (126/256)^n and (130/256)^n, which bounds the share of streams whose first chunk has a given length. GzipRsyncable's rule: exactly 1/modulus if the modulus divides 256, otherwise between the two neighbouring multiples of 1/256. Mii: exactly C(256, w+1) / 256^(w+1). Ram: exactly the sum of v^(n-1) over v = 1..256, divided by 256^n, whatever the window. FastCdc with GEAR_64, from min + 49 bytes on: between (118/256)^k and (138/256)^k, k = 15 below the normal size and 11 from it. Zstd: push cuts at a given position with probability at most 1/65536, and never before position 33.", "quantifier": "every configuration, stream length, position and buffering", "why_tests_cant": "counts all 256^n inputs", "anchors": ["src/bup.rs: at_split", "src/pigz.rs: add", "src/gear.rs: state push", "src/gzip.rs: accum, find_chunk_edge", "src/zstd.rs: PRIMES, push", "src/mii.rs: push", "src/ram.rs: push", "src/fastcdc.rs: push"]}
{"id": "C67", "title": "What changing one byte does to the cuts", "statement": "Zstd push: changing one byte removes every cut in the 32 positions after it and changes no other cut. RollSum push: a cut within the window after the changed byte stays iff 8192 divides (distance) times (difference of the byte); for windows that are powers of two up to 64 that means only a change by 128 of the byte exactly 64 back, and all cuts out of reach stay. PigzRsyncable (both APIs): a cut in reach stays iff the shifted xor of the two bytes is 0 modulo 2^bits. find_chunk_edge of RollSum, GzipRsyncable, PigzRsyncable, BuzHash and push of GzipRsyncable and BuzHash: a chunk with one byte of the window changed, and no new earlier cut, still ends where it did iff the change is one the rule cannot see (an explicit condition for each). Gear32: it can stay only when the difference of the table entries, shifted by the age, is small modulo 2^32.", "quantifier": "every configuration, stream, position, pair of bytes and buffering", "why_tests_cant": "all pairs of streams that differ in one byte", "anchors": ["src/zstd.rs: rotate", "src/bup.rs: add", "src/pigz.rs: add", "src/gzip.rs: add", "src/buzhash.rs: push", "src/gear.rs: state push"]}
{"id": "C68", "title": "The hash a chunker keeps tells apart streams that differ in one byte", "statement": "Take two streams that differ in one byte of the current chunk. Zstd: the hash differs for each of the last 32 bytes. RollSum: digest differs for each byte of the window, and also when two different bytes of the window at most 257 places apart change places (farther apart: iff 65536 does not divide distance times difference). GzipRsyncable: the sum differs for each byte of the window. PigzRsyncable: iff the shifted xor of the two bytes is not 0 modulo 2^bits. Gear32: always for the last 15 bytes (iff the shifted difference of the table entries is not 0 modulo 2^32). FastCdc: never below the minimum size, above it always for the last 48 bytes with GEAR_64. BuzHash: for each byte of the window iff the byte hash tells the two bytes apart, which table, salted table and seeded Borg table all do. The four tables have 256 distinct non-zero entries, and GEAR_32 is the upper half of GEAR_64.", "quantifier": "every configuration, stream, position, pair of bytes and buffering", "why_tests_cant": "all pairs of streams that differ in one byte", "anchors": ["src/zstd.rs: rotate", "src/bup.rs: digest", "src/pigz.rs: add", "src/gzip.rs: add", "src/buzhash.rs: add_overflow", "src/gear.rs: state push", "src/fastcdc.rs: push", "src/gear_table/gear32.rs", "src/buzhash_table.rs: borg_buzhash_table"]}
{"id": "C69", "title": "Pushing in two calls is pushing in one; slicing buffer by buffer is slicing all at once", "statement": "From every state a chunker can reach, push(a ++ b) has the outcome (answer, new state, panic) of push(a) followed, when that reports no cut, by push(b); so one call equals a loop over single bytes. For FastCdc this needs the sizes in order (or an order that never matters); with max below normal it is false. Applying iter_slices_strict to one buffer after the other, handing on the chunker given by into_parts and putting the left-over bytes in front of the next slice, yields the slices, final chunker and left-over of one iteration over the concatenation, and terminates exactly when that does.", "quantifier": "every built-in ChunkIncr configuration, every reachable state, every division of the data into buffers (empty ones included)", "why_tests_cant": "all states times all divisions of all data; no test iterates over slices of more than one buffer", "anchors": ["src/lib.rs:135-217 iter_slices, iter_slices_strict, into_parts", "src/lib.rs: ChunkIncr::push", "src/fastcdc.rs: push", "src/buzhash.rs: push", "src/zstd.rs: push"]}
{"id": "C70", "title": "A build without overflow checks cuts alike", "statement": "Compiled without overflow checks (release), every configuration that the checked build accepts is accepted with the same parameters and initial state; every push, find_chunk_edge and run that does not panic in the checked build has the same result; so the release build cuts by the same rules. Constructor arguments that panic only in the checked build are characterised: Gear32's logarithm and PigzRsyncable's bits count modulo 32 (Gear32 with a multiple of 32 makes every byte a chunk), Zpaq accepts an average or a maximum that is too small and then splits only where the hash is 0 (or at the cap); Zstd's and Zpaq's with_average_size_pow_2 do not change.", "quantifier": "every configuration of every built-in chunker, every state, input and schedule", "why_tests_cant": "tests run in one profile only; the arguments that differ are never tried", "anchors": ["src/gear.rs:122-140 msb_mask, with_average_size_log2", "src/pigz.rs:15-19 with_bits", "src/zpaq.rs:56-146 constructors", "src/zstd.rs", "src/fastcdc.rs", "src/mii.rs", "src/ram.rs", "src/bup.rs: roll_byte", "src/buzhash.rs: push_byte"]}
{"id": "C71", "title": "The model is what the source text computes", "statement": "Executing the text of the source files - constructor, to_chunk_incr or to_search_state, then push, find_chunk_edge or the slice iterators with next, take_rem and into_parts - gives the same outcome as the model: the same cuts, the same slices and remainder, a panic exactly when the model panics. Hence the rules of the specification, and losslessness of iter_slices, hold of the text itself. The same for the other constructors and defaults, for roll, roll_byte and digest of bup, the tables of buzhash and the range helpers.", "quantifier": "every configuration of every built-in chunker (and any user hash for BuzHash), every input below 2^63 bytes, every schedule and sequence of calls; push on every state", "why_tests_cant": "a test compares two programs on finitely many inputs; the model could differ from the code on all others", "anchors": ["src/lib.rs:123-260", "src/mii.rs", "src/ram.rs", "src/gear.rs", "src/pigz.rs", "src/gzip.rs", "src/fastcdc.rs", "src/bup.rs", "src/buzhash.rs", "src/zpaq.rs", "src/zstd.rs", "src/range.rs"]}
{"id": "C72", "title": "The source text built without overflow checks", "statement": "For any program text, evaluation without overflow checks (integer results modulo the word size, shift amounts modulo the width) gives whatever the checked evaluation gives without a panic; more evaluation depth changes nothing once there is enough. Hence the crate's text without checks cuts by the rules of the specification, its slice iterators give the same slices, and its constructors make exactly the chunkers that the release model of C70 describes, also for arguments that the checked build rejects.", "quantifier": "every program text, function and argument list for the general part; every configuration, input and schedule for the rules; all arguments of the constructors", "why_tests_cant": "tests run in one build profile, and arguments on which the profiles differ are never tried", "anchors": ["src/gear.rs:28-36 with_average_size_log2, msb_mask", "src/pigz.rs:15-19 with_bits", "src/zpaq.rs:56-146 constructors", "src/zstd.rs:59-71 with_target_section_size", "src/lib.rs"]}
{"id": "C73", "title": "The tests and the documented example, executed as text", "statement": "The text of the example in the documentation of find_chunk_edge, of cut_test_incr, cut_test_sz, cut_test, splits_fce, oracle_1, oracle_1_test and feed_until_5_chunks, run on top of the text of the crate, computes for every chunker and input what its model computes. Hence: the example prints the chunks of the algorithm's rule; cut_test passes exactly when the two APIs agree on the data (condition of C10, C32, C37, C41) and the expected sizes are the chunk sizes, and otherwise panics; splits_fce returns the chunk sizes of the rule for every list of positive buffer sizes; oracle_1 holds of every input; feed_until_5_chunks returns exactly when the generated blocks contain more than five cuts that push reports, and never does on zeros.", "quantifier": "every configuration, input, list of expected sizes, list of buffer sizes and stream of generated blocks", "why_tests_cant": "these are the tests: each runs on a few inputs, and nothing tests whether they would pass or return on others", "anchors": ["tests/cuts.rs: cut_test, cut_test_incr, cut_test_sz", "tests/cuts_qc.rs: splits_fce", "tests/fastcdc.rs: oracle_1, oracle_1_test", "tests/fastcdc.rs: feed_until_5_chunks", "src/lib.rs: Chunk::find_chunk_edge documentation"]}
{"id": "C74", "title": "The floating-point average of Zpaq", "statement": "In IEEE 754 double arithmetic with round to nearest and any log2 that is faithful (the result is the exact logarithm or one of the two doubles around it), (max as f64 / (64f64 * 64f64)).log2() as u8 is 0 for max < 8192, the exponent r of the largest power of two with 2^r * 4096 <= max for 8192 <= max < 2^45, and at least 33 above. Hence with_max_size and with_range, executed as text with such arithmetic, make the chunker that integer arithmetic would make, and panic on the same arguments.", "quantifier": "every u64 and every range; every faithful log2", "why_tests_cant": "2^64 arguments, and rounding that depends on the platform's libm", "anchors": ["src/zpaq.rs:56-59 fragment_ave_from_max", "src/zpaq.rs: with_max_size, with_range"]}
{"id": "C75", "title": "Zpaq::with_max_size has the documented average", "statement": "As documented, the average block size after with_max_size(max) is max / 4: a uniformly distributed hash ends a chunk once in max / 4 bytes, up to the rounding to a power of two.", "quantifier": "every max accepted by the constructor", "why_tests_cant": "no test measures an average; it is a statement about all arguments", "anchors": ["src/zpaq.rs: with_max_size, with_range documentation", "src/zpaq.rs: fragment_ave_from_max, max_hash_from_fragment_ave"]}
{"id": "C76", "title": "The evaluated text is what the source files say", "statement": "Lexing, parsing and type inference, defined in the model and applied to the bytes of the files in src/ and of the test files, give exactly the terms of C71 and C73: every function of the crate (but the one in floating point), every constant table, every caller; nothing is left over. The one function in floating point, read from the same files, evaluates under IEEE 754 arithmetic to exactly the values C74 speaks about. So push, find_chunk_edge and iter_slices, as written in the files, follow the declarative rules and lose no byte.", "quantifier": "every byte of the 18 files; for the consequences every input, configuration and schedule", "why_tests_cant": "tests run one compiled program on chosen inputs; here the file contents are related to a theorem about all inputs", "anchors": ["src/*.rs", "src/gear_table/*.rs", "tests/cuts.rs", "tests/cuts_qc.rs", "tests/fastcdc.rs", "src/zpaq.rs:56-59 fragment_ave_from_max"]}
{"id": "C77", "title": "The crate's own property tests hold for every value they may draw", "statement": "Read from the test files, each of the eleven tests in the proptest! block of tests/cuts_qc.rs passes for every argument its strategies can draw, and the three unit tests that need no random data (mm, test_zstd_init_matches_upstream, rs) pass.", "quantifier": "every drawn argument: all data and buffer sizes within the strategies", "why_tests_cant": "proptest draws 256 random cases per run; the failing inputs are about one in 2^23 windows (Zstd) or forced maximal chunks that end with the data (FastCdc)", "anchors": ["tests/cuts_qc.rs:67-217", "src/gear.rs:153 mm", "src/zstd.rs:77 test_zstd_init_matches_upstream", "src/bup.rs:244 rs"]}
{"id": "C78", "title": "The meaning of the text does not depend on how it is computed", "statement": "The language the source text is written in, given by big-step inference rules without a bound on the recursion, has the same meaning as the interpreter of C71-C73: an expression or call ends in a value, a return, a break or a panic by the rules iff some depth of interpretation gives that end; it ends in at most one way; an ill-typed or endless call has no end. Hence the documented example, run by the rules, prints exactly the chunks of the algorithm's rule, and cut_test returns iff the two APIs agree and the sizes are the expected ones, and panics otherwise.", "quantifier": "every program, expression and environment; for the consequences every configuration and input", "why_tests_cant": "it relates two definitions of a semantics on all programs", "anchors": ["rocq/theories/Rust.v", "rocq/theories/RustRules.v", "src/lib.rs find_chunk_edge example", "tests/cuts.rs cut_test"]}
{"id": "C79", "title": "The tests that list cuts check exactly the rules", "statement": "Read from tests/cuts.rs, each of its thirteen tests passes if the chunk sizes which the algorithm's rule gives on the data are the listed numbers (by push and, where its callers have a rule, by find_chunk_edge), and panics otherwise, whatever generator stands behind Pcg64. With the published PCG XSL RR 128/64, mii_cuts_1, pigz_cuts_0 and ram_cuts_0 pass.", "quantifier": "every generator (function of state, stream and length), every test of the file", "why_tests_cant": "a test run shows that the numbers come out once; here the test is shown to be equivalent to a statement about the rule, for every generator", "anchors": ["tests/cuts.rs:5-10 test_data", "tests/cuts.rs:97-264"]}
{"id": "C80", "title": "The source files are read by a grammar", "statement": "The lexer yields a sequence of tokens for a file iff the lexical grammar (longest signs, nested comments, numbers with radix, separators and suffix, strings, lifetimes) reads the bytes of the file as that sequence, and there is at most one. Whatever the parser returns, for any file, is a syntax tree that the grammar derives from those tokens: precedence and grouping of operators, no structure literals in heads, statements that end at their brace, type arguments, items. The text and the tables behind C71-C76 come from trees so derived from the files of the crate; so do the callers of C73, the documented example, the property tests and unit tests of C77 and the tests of C79.", "quantifier": "every sequence of bytes, every sequence of tokens", "why_tests_cant": "a parser that groups operators in another way gives a different model of the same file, which no test of the crate can notice", "anchors": ["src/*.rs", "tests/*.rs", "rocq/theories/RustLex.v", "rocq/theories/RustParse.v", "rocq/theories/Lexical.v", "rocq/theories/Grammar.v"]}
{"id": "C81", "title": "What the table and its seed do to the hash of BuzHash", "statement": "For a chunk of n bytes the hash has n + (n - k) terms (n - k: 0 if n < k). If their number is odd - for a full window: if the capacity k is odd, and only then - the hash is a permutation of the seed of borg_buzhash_table, so exactly one in 2^b seeds makes the chunk end, b the number of ones of the mask, whatever the bytes; at most one in 2^b seeds makes the first chunk of a stream end at a given place. The same holds for one entry of any table, if its byte has an odd number of terms; for odd k every full window has such a byte. Where the hash is that of a window (k mod 32 < 8): the seed has no effect on full windows iff k is a multiple of 64; some full window has hash 0 for every table iff k is a multiple of 64; a window of one repeated byte has hash 0 only for the entry 0 iff k is odd (the documentation asks for k prime against 'total cancelation'). A chunk has hash 0 for every table iff every byte value occurs an even number of times at every age modulo 32. With k a multiple of 64, no chunk of k bytes or more ends by the mask in data that repeats itself after 32 bytes.", "quantifier": "all tables, seeds, capacities, masks, chunks, streams and schedules", "why_tests_cant": "2^32 seeds for each of all chunks; the tests use one seedless table", "anchors": ["src/buzhash.rs:58-59", "src/buzhash.rs:205-221", "src/buzhash_table.rs:77-84"]}
{"id": "C82", "title": "Types and names are resolved by stated rules", "statement": "There are typing rules for the syntax trees of C80 (types of literals, operators, casts, fields, indices, patterns, closures over iterators; names of variables, constants, variants, functions, methods by the type of the receiver, conversions by source and target; which parameters are mutable references) such that whatever elaboration returns for a function, if the equations between types it leaves have a solution, is a term the rules read from the tree, under the name they give it. All functions behind C71-C76, the callers of C73, the tests of C77 and of C79 are so read. In a free function the rules make operands of an operator other than a shift integers of one type, and a literal beside a variable has the type of the variable.", "quantifier": "all syntax trees, all sets of items, all functions", "why_tests_cant": "an elaboration that resolves a method or types a literal differently gives another model of the same file; no test of the crate can notice", "anchors": ["src/*.rs", "tests/*.rs", "rocq/theories/RustElab.v", "rocq/theories/Typing.v"]}
{"id": "C83", "title": "RollSum against the crate rollsum: the comparisons in the tests hold for every input", "statement": "For the published bup rolling sum (the oracle rollsum::Bup): its sums and its digest after any bytes are those of RollSum and no step of its arithmetic overflows 31 bits; the property simple_eq and the functions chk_a and chk_b of tests/qc_bup.rs, and the test compare_rollsum of src/bup.rs, pass for every input; iter_eq and compare_bup end for every input and pass for every input if the oracle keeps its sums after an edge; if it starts over they pass exactly for the inputs that the two APIs of RollSum cut alike.", "quantifier": "all byte strings, both behaviours of the oracle after an edge", "why_tests_cant": "quickcheck draws 100 short vectors, in most of which there is no edge at all (one in 8192 bytes)", "anchors": ["tests/qc_bup.rs:7-92", "src/bup.rs:250-309"]}
{"id": "C84", "title": "generate-test-data prints the beginning of one stream of bytes", "statement": "For every list of arguments, examples/generate-test-data.rs ends with status 1 if and only if there are not exactly two besides the name of the program. With two it panics unless they are decimal numerals (a leading plus sign is allowed) of a seed below 2^128 and of a length below 2^64 such that 1024 times the length is at most isize::MAX (in a build without overflow checks: modulo 2^64). Otherwise it prints exactly that many bytes, and these are the first bytes of the PCG XSL RR 128/64 stream of the seed, given bit by bit in closed form. The file for a smaller length is a prefix of the file for a larger one, and the file for (seed, len) is what test_data(seed, 1024 * len) of tests/cuts.rs returns.", "quantifier": "all argument lists, all seeds and lengths, builds with and without overflow checks", "why_tests_cant": "Nothing runs the example; the recorded cuts of tests/cuts.rs use four of its 2^128 seeds and two sizes.", "anchors": ["examples/generate-test-data.rs:5-22", "tests/cuts.rs:5-10"]}
{"id": "C85", "title": "the tests of tests/fastcdc.rs pass for every seed and every draw", "statement": "o1_empty, o1_8k_seed, o1_8k1, o1_8k_t1 and o1_8k_t2 of tests/fastcdc.rs, as read from the text of the file, pass (the incremental FastCDC agrees with the one-buffer reference in the test) for every seed, every sequence of bytes that the generator draws, every capacity that Vec::with_capacity returns and every content the uninitialised vector has. The seeded ones fill the vector ten times, no fewer and no more: with a generator that panics at draw k they pass if and only if k is beyond the tenth. What Vec8K::arbitrary makes for quickcheck is 1024 + size bytes of the generator, and oracle_1 returns true on each.", "quantifier": "all 128-bit seeds, all generators and quickcheck sizes, all capacities below 2^62, all previous contents of the vector", "why_tests_cant": "Two seeds are fixed and one is random per run; each run sees ten of 256^(8388609) possible buffers.", "anchors": ["tests/fastcdc.rs:12-22", "tests/fastcdc.rs:47-86"]}
{"id": "C86", "title": "a reference that can be written through is a parameter or an argument, never kept", "statement": "In the tokens of every source file of the crate and of tests/cuts.rs, tests/cuts_qc.rs and tests/qc_bup.rs, each occurrence of &mut is either in the type of a parameter (Self::SearchState, a formatter, a generator) or lends a variable or a field of a variable as a whole argument of a call; there is no &'a mut and no ref mut. So no such reference is returned, stored or taken of a slice or an element, and copying an argument in and back on return, as the semantics of the text does, writes where Rust writes. The same holds of tests/fastcdc.rs as it is read for C85, but not of the file itself, which lends a slice once (in arbitrary). No parameter with such a type is bound to a second name, and a method called on an element or a slice is iter, into_boxed_slice or copy_from_slice, the last of which the semantics treats as a write in place.", "quantifier": "all occurrences of &mut in all files that are read", "why_tests_cant": "This is about the meaning given to the text, not about a run of it.", "anchors": ["src/lib.rs:147", "src/lib.rs:358-365", "tests/fastcdc.rs:20"]}
