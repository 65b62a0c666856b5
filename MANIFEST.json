{"claims": [
{"property": "C01", "status": "proved", "theorems": ["C01_iter_slices_lossless", "C01_iter_slices_complete"], "note": "Any push function, any state, any number of calls."},
{"property": "C02", "status": "partial", "theorems": ["C02_iter_ends_refuted", "C02_iter_ends_partial"], "note": "False as stated: Gear32 up to n = 24 (so also the default) returns empty slices forever on some one-byte input, and GzipRsyncable/RollSum without a window panic. The partial theorem is an equivalence: the configurations for which every iteration ends without a panic are exactly those of iter_good."},
{"property": "C03", "status": "proved", "theorems": ["C03_strict_lossless", "C03_strict_next", "C03_strict_remainder", "C03_strict_complete_chunks", "C03_strict_then_rest"], "note": "Any chunker and any mixture of next and take_rem; for the built-in chunkers the slices are the complete chunks."},
{"property": "C04", "status": "partial", "theorems": ["C04_iter_slices_fused", "C04_strict_fused_refuted", "C04_strict_fused_partial"], "note": "True for iter_slices. False for iter_slices_strict, which shows the remainder to the chunker again after None; it stays finished once the remainder is empty."},
{"property": "C05", "status": "partial", "theorems": ["C05_iter_agree_refuted", "C05_iter_agree_partial", "C05_iter_before"], "note": "False for Ram and Gear32 (iter_slices ends one byte earlier) and, for Mii, RollSum, BuzHash and Zpaq, on streams where the two rules differ. Proved whenever no chunk shows that difference; always for PigzRsyncable and GzipRsyncable. C05_iter_before describes the slices of every algorithm."},
{"property": "C06", "status": "partial", "theorems": ["C06_edges_in_bounds_refuted", "C06_edges_in_bounds_partial", "C06_last_call_partial", "C06_fastcdc_edges_partial", "C06_any_state"], "note": "False for FastCdc (answers one past the end of the buffer) and GzipRsyncable with modulus 0 (panic). Proved for everything else, from every state a documented caller can reach; FastCdc stays within one past the end."},
{"property": "C07", "status": "proved", "theorems": ["C07_look_back"], "note": "Any state whatever, any buffer, any configuration."},
{"property": "C08", "status": "proved", "theorems": ["C08_mii_edges", "C08_mii_w0"], "note": ""},
{"property": "C09", "status": "proved", "theorems": ["C09_mii_push"], "note": ""},
{"property": "C10", "status": "partial", "theorems": ["C10_mii_agree_iff_partial", "C10_mii_agree_refuted", "C10_mii_agree_partial"], "note": "False: after a cut push compares with a virtual 0 byte. Proved with the exact condition: they agree if and only if no chunk of push is decided by that byte, i.e. every chunk has more than w bytes."},
{"property": "C11", "status": "proved", "theorems": ["C11_mii_never", "C11_mii_counter"], "note": ""},
{"property": "C12", "status": "proved", "theorems": ["C12_ram_edges"], "note": ""},
{"property": "C13", "status": "proved", "theorems": ["C13_ram_push"], "note": ""},
{"property": "C14", "status": "proved", "theorems": ["C14_ram_sizes"], "note": ""},
{"property": "C15", "status": "proved", "theorems": ["C15_gear_edges"], "note": ""},
{"property": "C16", "status": "proved", "theorems": ["C16_gear_push", "C16_gear_calls"], "note": ""},
{"property": "C17", "status": "proved", "theorems": ["C17_gear_constructor", "C17_gear_split"], "note": ""},
{"property": "C18", "status": "proved", "theorems": ["C18_pigz_edges"], "note": ""},
{"property": "C19", "status": "proved", "theorems": ["C19_pigz_push", "C19_pigz_agree"], "note": ""},
{"property": "C20", "status": "proved", "theorems": ["C20_pigz_constructor"], "note": ""},
{"property": "C21", "status": "proved", "theorems": ["C21_gzip_edges"], "note": ""},
{"property": "C22", "status": "proved", "theorems": ["C22_gzip_push", "C22_gzip_window", "C22_gzip_agree"], "note": ""},
{"property": "C23", "status": "partial", "theorems": ["C23_gzip_no_panic_refuted", "C23_gzip_push_partial", "C23_gzip_edge_partial"], "note": "False: push panics with window 0 or modulus 0, find_chunk_edge with modulus 0. Proved for all other arguments."},
{"property": "C24", "status": "proved", "theorems": ["C24_fastcdc_push"], "note": "min_size at least 1; min_size 0 is covered by C02, C52 and C53."},
{"property": "C25", "status": "partial", "theorems": ["C25_fastcdc_buffering_refuted", "C25_fastcdc_buffering_partial", "C25_fastcdc_exact_partial", "C25_fastcdc_gear64_partial"], "note": "False when normal_size > max_size, or when chunks can be empty. The exact theorem is an equivalence for every configuration; with GEAR_64 and min_size >= 1 the cuts are independent of the slicing if and only if normal <= max or normal <= min + 1."},
{"property": "C26", "status": "partial", "theorems": ["C26_fastcdc_sizes_refuted", "C26_fastcdc_push_sizes_partial", "C26_fastcdc_edge_sizes_partial", "C26_fastcdc_any_partial"], "note": "False for find_chunk_edge, whose chunks may have max_size + 1 bytes. Proved for push, and with both bounds plus one for find_chunk_edge; the any theorem gives the bounds for sizes in any order."},
{"property": "C27", "status": "partial", "theorems": ["C27_fastcdc_calls", "C27_fastcdc_edges_refuted", "C27_fastcdc_edges_partial", "C27_fastcdc_long_partial", "C27_fastcdc_exact_partial", "C27_fastcdc_one_buffer_partial", "C27_fastcdc_gear64_partial"], "note": "True call by call from any state. False for any buffering: the answer may lie one past the end of the buffer, where the documented caller panics. The partial theorems are exact: whoever does not panic gets the cuts of the rule, and some caller panics if and only if some chunk has max_size bytes that do not end it (one buffer: if and only if that is the last chunk). Any sizes: with normal_size > max_size the larger of the two is the maximum of the rule."},
{"property": "C28", "status": "proved", "theorems": ["C28_digest_windowed", "C28_digest_forgets"], "note": ""},
{"property": "C29", "status": "partial", "theorems": ["C29_digest_any_refuted", "C29_no_window_refuted", "C29_digest_iff_partial", "C29_digest_any_partial"], "note": "False: the digest is windowed exactly for powers of two (proved as an equivalence), and window 0 panics. The digest of the other windows is characterised."},
{"property": "C30", "status": "proved", "theorems": ["C30_rollsum_edges"], "note": ""},
{"property": "C31", "status": "proved", "theorems": ["C31_rollsum_push", "C31_rollsum_push_any"], "note": "Also for windows that are not powers of two, with the digest of C29."},
{"property": "C32", "status": "partial", "theorems": ["C32_rollsum_agree_iff_partial", "C32_rollsum_agree_refuted", "C32_rollsum_agree_partial"], "note": "False when two cuts are closer together than the window. Proved when no chunk is shorter than the window; for every window the exact condition, position by position."},
{"property": "C33", "status": "proved", "theorems": ["C33_buz_edges", "C33_buz_constructor"], "note": ""},
{"property": "C34", "status": "proved", "theorems": ["C34_buz_push"], "note": ""},
{"property": "C35", "status": "partial", "theorems": ["C35_buz_window_refuted", "C35_buz_window_partial", "C35_buz_rule_partial"], "note": "False: the outgoing byte is rotated by k mod 8 instead of k. The partial theorem is an equivalence: the hash depends on the last k bytes only exactly when k mod 32 < 8."},
{"property": "C36", "status": "partial", "theorems": ["C36_buz_max_refuted", "C36_buz_max_partial"], "note": "False for find_chunk_edge, which has no cap. Proved for push."},
{"property": "C37", "status": "proved", "theorems": ["C37_buz_agree_iff", "C37_buz_agree_prefix", "C37_buz_agree"], "note": ""},
{"property": "C38", "status": "proved", "theorems": ["C38_table_hash", "C38_salt_hash", "C38_salt_zero", "C38_borg_table", "C38_byte_hashes"], "note": ""},
{"property": "C39", "status": "proved", "theorems": ["C39_zpaq_push"], "note": ""},
{"property": "C40", "status": "proved", "theorems": ["C40_zpaq_edges"], "note": ""},
{"property": "C41", "status": "partial", "theorems": ["C41_zpaq_agree_iff_partial", "C41_zpaq_agree_refuted", "C41_zpaq_agree_partial"], "note": "False: find_chunk_edge counts one byte more. Proved with the exact condition: they agree if and only if every chunk of find_chunk_edge also ends by the rule of push."},
{"property": "C42", "status": "partial", "theorems": ["C42_zpaq_sizes_refuted", "C42_zpaq_sizes_partial", "C42_zpaq_any_range_partial"], "note": "False: a forced cut of push is one byte above the maximum, and find_chunk_edge may be one below the minimum. The exact bounds of both are proved."},
{"property": "C43", "status": "partial", "theorems": ["C43_zpaq_default_refuted", "C43_zpaq_average_partial", "C43_zpaq_max_partial", "C43_zpaq_split", "C43_zpaq_general"], "note": "False in one clause: the maximum of Zpaq::default() is 1024 times the documented one. The other clauses are proved."},
{"property": "C44", "status": "proved", "theorems": ["C44_zpaq_forget"], "note": ""},
{"property": "C45", "status": "proved", "theorems": ["C45_range"], "note": ""},
{"property": "C46", "status": "proved", "theorems": ["C46_zstd_hash"], "note": ""},
{"property": "C47", "status": "proved", "theorems": ["C47_zstd_push"], "note": ""},
{"property": "C48", "status": "partial", "theorems": ["C48_zstd_edges_refuted", "C48_zstd_total_partial", "C48_zstd_first_partial", "C48_zstd_small_partial", "C48_zstd_exact_partial", "C48_zstd_resume_partial"], "note": "False: after a cut find_chunk_edge goes on with a hash that has already taken in the bytes after the cut. Proved: no panic, answers in bounds, every cut up to the first is right, and all cuts are right for a caller who shows at most 33 bytes at a time; and exactly what every other caller gets: the next cut after a cut is right if and only if the rule also holds at the end of the buffer in which that cut was reported, otherwise the next cut reported is none of the algorithm."},
{"property": "C49", "status": "proved", "theorems": ["C49_zstd_constructor"], "note": ""},
{"property": "C50", "status": "proved", "theorems": ["C50_covers", "C50_restart", "C50_same_tail", "C50_push_restart", "C50_push_same_tail", "C50_mii_push_restart_refuted"], "note": "C50_mii_push_restart_refuted records that MiiIncr::push, which the property does not mention, does not restart."},
{"property": "C51", "status": "partial", "theorems": ["C51_buz_resync_refuted", "C51_resync_partial", "C51_push_resync", "C51_push_resync_stream"], "note": "False for BuzHash with some capacities (see C35). Proved for Gear32, PigzRsyncable, GzipRsyncable, RollSum, also Mii, and for BuzHash when k mod 32 < 8; for push where the chunker resets, and for the push of RollSum and Zstd without any assumption on earlier cuts."},
{"property": "C52", "status": "partial", "theorems": ["C52_push_total_refuted", "C52_push_total_partial"], "note": "False for GzipRsyncable without window or modulus and RollSum without window. The partial theorem is an equivalence: exactly the other configurations never panic."},
{"property": "C53", "status": "partial", "theorems": ["C53_chunk_cuts_order", "C53_incr_cuts_order", "C53_incr_order_refuted", "C53_incr_order_partial"], "note": "Proved for find_chunk_edge, every configuration and caller. False for push of FastCdc with sizes that allow empty chunks; the partial theorem says exactly which configurations."},
{"property": "C54", "status": "partial", "theorems": ["C54_documented_loop_fastcdc_any_partial", "C54_documented_loop_refuted", "C54_documented_loop_partial", "C54_documented_loop_fastcdc_partial", "C54_documented_loop_zstd_partial"], "note": "False already for the documented example: the printed remain is what the algorithm wants to see again, not the rest of the data. Proved: the loop ends without panic, prints the right chunks, and remain is a suffix of the rest no longer than the look-back; FastCdc, of any sizes, panics exactly when the last chunk has between max and normal bytes (or max, if that is more) and no end in its contents; Zstd prints at most its first chunk, then the last 32 bytes."},
{"property": "C55", "status": "partial", "theorems": ["C55_cut_test_iff_partial", "C55_cut_test_fastcdc_iff_partial", "C55_cut_test_refuted", "C55_cut_test_partial", "C55_cut_test_fastcdc_partial", "C55_cut_test_zstd_partial"], "note": "False for Mii and FastCdc (witnesses), and whenever the two APIs differ (C10, C32, C41). Proved: both sides of the test are the chunk sizes of the two rules, and they are equal if and only if the exact condition of C10, C32, C37, C41 holds (always for Ram, Gear32, PigzRsyncable, GzipRsyncable); FastCdc, of any sizes, exactly when every chunk is forced at min or none of the chunks seen byte by byte was forced; for Zstd the one side is exactly the first element of the other."},
{"property": "C56", "status": "partial", "theorems": ["C56_fastcdc_exact_partial", "C56_fastcdc_order_refuted", "C56_fce_self_consistent", "C56_fce_self_consistent_fastcdc", "C56_fce_self_consistent_refuted", "C56_fce_zstd_partial"], "note": "Proved for every algorithm with a buffering-independent rule and for FastCdc (where the common outcome may be a panic) with sizes in order; for FastCdc of any sizes the exact condition, the one of C25, with a witness that max < normal can break it. False for Zstd, with a witness; there the loop still ends without panic, with splits inside the data of which the first is right."},
{"property": "C57", "status": "proved", "theorems": ["C57_fastcdc_oracle"], "note": ""},
{"property": "C58", "status": "proved", "theorems": ["C58_mii_default", "C58_gear_default", "C58_pigz_default", "C58_gzip_default", "C58_fastcdc_default", "C58_rollsum_default", "C58_buzhash_new_nom", "C58_zpaq_default", "C58_zstd_default"], "note": "FastCdc for push and for the sizes of both APIs; Zstd for push."},
{"property": "C59", "status": "proved", "theorems": ["C59_fastcdc_eq", "C59_zpaq_hash_eq"], "note": ""},
{"property": "C60", "status": "proved", "theorems": ["C60_push_limit", "C60_edge_limit", "C60_fastcdc_edge", "C60_zstd_edge"], "note": "FastCdc find_chunk_edge: for callers that are not made to panic (C26), sizes in any order. BuzHash under the assumption that its hash tells two bytes apart in a bit of the mask."},
{"property": "C61", "status": "partial", "theorems": ["C61_push_append", "C61_edge_append", "C61_fastcdc_waits", "C61_push_shared", "C61_edge_shared", "C61_fastcdc_edge", "C61_zstd_edge_first", "C61_zstd_edge_refuted"], "note": "False for find_chunk_edge of Zstd, whose cuts depend on the buffers (C61_zstd_edge_refuted): there only the first cut stays (C61_zstd_edge_first). find_chunk_edge of FastCdc: for callers that are not made to panic. All others as stated."},
{"property": "C62", "status": "partial", "theorems": ["C62_feed_refuted", "C62_feed_partial", "C62_feed_exact_partial"], "note": "False: with zero blocks the only cuts are forced ones at block ends, which the loop does not count. Proved: no panic, no block is processed forever, and exactly when it ends: once six cuts are counted, where all cuts count but those at which a chunk of 65536 bytes ends a block."},
{"property": "C63", "status": "proved", "theorems": ["C63_bench_bup"], "note": ""},
{"property": "C64", "status": "proved", "theorems": ["C64_fastcdc_edge", "C64_zstd_edge", "C64_push_word", "C64_push_reach", "C64_rollsum_windows", "C64_edge_word", "C64_buzhash_new_nom"], "note": "Never: Mii with a window of 0 or above 255, RollSum by the condition bup_incr_can (a power of two needs at least 8). find_chunk_edge: FastCdc by a continuation after which no panic is left for the caller who shows everything, Zstd for callers who show 33 bytes at a time; BuzHash for windows k mod 32 < 8 if some window satisfies the mask (shown for new_nom with every salt); Mii outside 1..255 and RollSum below 7 never cut."},
{"property": "C65", "status": "proved", "theorems": ["C65_edge_alike", "C65_fastcdc_edge_alike", "C65_push_alike", "C65_rollsum_push_refuted", "C65_fastcdc_push_refuted"], "note": "The refuted theorems concern what the statement leaves out: push of RollSum, which does not reset, and push of FastCdc, which looks at the byte after the chunk. FastCdc with find_chunk_edge: for callers that are not made to panic (C27). Mii push: the first chunk of a stream is compared with first chunks only."},
{"property": "C66", "status": "proved", "theorems": ["C66_count_meaning", "C66_rollsum_push", "C66_rollsum_average", "C66_pigz", "C66_pigz_average", "C66_rollsum_rule", "C66_rollsum_edge_first", "C66_gear_rule", "C66_gear_first", "C66_gzip_rule", "C66_gzip_first", "C66_zstd_push", "C66_mii_rule", "C66_mii_first", "C66_ram_rule", "C66_ram_first", "C66_fastcdc_rule", "C66_fastcdc_first"], "note": "Counting over all strings of a length; nothing is said about real data. For Gear32 and FastCdc the exact share depends on the parity of the table entries (126 even, 130 odd; 118, 138), hence bounds. Zstd: an upper bound only. BuzHash and Zpaq: nothing."},
{"property": "C67", "status": "proved", "theorems": ["C67_zstd_push", "C67_rollsum_push", "C67_rollsum_small", "C67_pigz", "C67_edge", "C67_push", "C67_gear"], "note": "GzipRsyncable for windows below 2^56 bytes, so that the u64 sum does not wrap. Gear32: a necessary condition; the exact one depends on the other bytes of the window."},
{"property": "C68", "status": "proved", "theorems": ["C68_tables", "C68_zstd", "C68_rollsum", "C68_rollsum_swap", "C68_gzip", "C68_pigz", "C68_gear", "C68_fastcdc", "C68_buz", "C68_byte_hashes"], "note": "About the hash in the state, not the cut decision, which looks at some of its bits only (C67). Streams with the same last cut before the changed byte; BuzHash and FastCdc below 2^64 bytes, FastCdc with normal <= max."},
{"property": "C69", "status": "proved", "theorems": ["C69_push_split", "C69_push_bytes", "C69_fastcdc_refuted", "C69_fastcdc_iff", "C69_stream", "C69_stream_chunks"], "note": "The push equality needs slicing_safe: every built-in, FastCdc with normal <= max or sizes whose order never matters (fc_orderly); C69_fastcdc_iff shows that exactly these can be split, C69_fastcdc_refuted is a concrete failure with max < normal. Streams below 2^64 bytes. The streaming driver slice_stream is ours: the crate offers into_parts for it and leaves the loop to the caller."},
{"property": "C70", "status": "proved", "theorems": ["C70_words", "C70_incr", "C70_chunk", "C70_incr_cuts", "C70_chunk_cuts", "C70_gear_wraps", "C70_pigz_wraps", "C70_zpaq_wraps", "C70_zpaq_max_wraps", "C70_zpaq_range_wraps", "C70_same_constructors", "C70_window_0"], "note": "C70_incr and C70_chunk: whatever the checked build computes, the release build computes too; C70_incr_cuts and C70_chunk_cuts: the cuts conform to the same rules. C70_gear_wraps, C70_pigz_wraps, C70_zpaq_wraps, C70_zpaq_max_wraps, C70_zpaq_range_wraps: arguments rejected only by the checked build; C70_same_constructors: constructors that do not change; C70_window_0: a failure of both builds."},
{"property": "C71", "status": "proved", "theorems": ["C71_constructors", "C71_push", "C71_find_chunk_edge", "C71_text_push_rule", "C71_text_find_rule", "C71_iter_slices", "C71_iter_slices_strict", "C71_text_lossless", "C71_any_state", "C71_defaults", "C71_helpers", "C71_tables"], "note": "The text is the one in the source files by C76; its meaning in Rust.v is trusted. Zpaq::fragment_ave_from_max (f64) is any function that C74 allows. n bounds the depth of evaluation: any n above 120 (140 for the iterators) plus the length of the data will do. C71_text_push_rule, C71_text_find_rule and C71_text_lossless do not mention the model of the chunkers."},
{"property": "C72", "status": "proved", "theorems": ["C72_more_fuel", "C72_release_extends", "C72_operators", "C72_push", "C72_find_chunk_edge", "C72_push_rule", "C72_find_rule", "C72_iter_slices", "C72_constructors"], "note": "The evaluator with the operators as a parameter is RustMeta.eval_by, which at the checked operators is Rust.eval by computation. Pushes that panic only in the checked build (a counter passing 2^64) are not linked to Release.v function by function; the constructors are."},
{"property": "C73", "status": "proved", "theorems": ["C73_doc_example_model", "C73_cut_test_model", "C73_cut_test_incr_model", "C73_splits_fce_model", "C73_doc_example", "C73_cut_test", "C73_splits_fce", "C73_oracle", "C73_feed", "C73_feed_zeros", "C73_doc_example_prints_none"], "note": "C73_*_model: each caller computes what its model in Drivers.v computes, for every configuration and input. C73_doc_example, C73_cut_test, C73_splits_fce, C73_oracle, C73_feed: consequences in terms of the rules, with explicit evaluation depths; FastCdc and Zstd, which have no buffering-independent rule, are covered by the _model theorems. The data of test_data and the blocks of the random generator are arbitrary. C73_doc_example_prints_none: the documented example prints none of its data (C54); C73_feed_zeros: the test never returns on zeros (C62)."},
{"property": "C74", "status": "proved", "theorems": ["C74_ave", "C74_float", "C74_with_max_size", "C74_with_range"], "note": "faithful_log2 in Float.v is the assumption on the platform; C74_float shows that it can be met. nearest does not say how ties are broken."},
{"property": "C75", "status": "partial", "theorems": ["C75_average_refuted", "C75_average_partial"], "note": "False for every accepted argument (C75_average_refuted): the average is about max / 4096, because fragment_ave_from_max counts in KiB and max_hash_from_fragment_ave in bytes. C75_average_partial: the exact value."},
{"property": "C76", "status": "proved", "theorems": ["C76_functions", "C76_tables", "C76_callers", "C76_crate", "C76_push_rule", "C76_find_rule", "C76_lossless", "C76_float"], "note": "By computation in the kernel. The lexer, parser and type inference (RustLex.v, RustParse.v, RustElab.v) are definitions to be read, not proved against a specification of Rust: that they give terms with the meaning of the source is the trusted step, as the script tools/transcribe.py was before. C76_push_rule, C76_find_rule and C76_lossless are about the files: no model of a chunker and no transcription occurs in their statements."},
{"property": "C77", "status": "partial", "theorems": ["C77_text", "C77_properties", "C77_fastcdc_partial", "C77_fastcdc_refuted", "C77_fastcdc_short_partial", "C77_zstd_partial", "C77_zstd_refuted", "C77_unit_tests"], "note": "False for two of the eleven: C77_fastcdc_refuted (64 KiB of zeros, whatever the buffer sizes) and C77_zstd_refuted (36 bytes). C77_properties: the other nine pass on everything they may draw. C77_fastcdc_partial: the FastCdc test panics exactly when a chunk of maximal size ends where the data ends (C77_fastcdc_short_partial: not below 64 KiB). C77_zstd_partial: the Zstd test passes on data without a split and always ends. C77_unit_tests: the unit tests pass."},
{"property": "C78", "status": "proved", "theorems": ["C78_expressions", "C78_one_end", "C78_calls", "C78_three_ways", "C78_rotate", "C78_leading_zeros", "C78_doc_example", "C78_cut_test", "C78_feed_zeros"], "note": "C78_expressions and C78_calls: the rules (RustRules.v) and the interpreter (Rust.v) agree; C78_one_end: determinism; C78_three_ways: without an end every depth gives Stuck or NoFuel; C78_rotate, C78_leading_zeros: two library functions in terms of bits. C78_doc_example, C78_cut_test, C78_feed_zeros: C73 in terms of the rules. The rules, too, are ours: that they describe Rust is trusted."},
{"property": "C79", "status": "proved", "theorems": ["C79_text", "C79_cut_tests", "C79_all", "C79_passes", "C79_case"], "note": "C79_text: every function of the file is read, nothing is left out. C79_cut_tests: the tests, table tests_of_cuts; the numbers in the table are compared with those in the text by the proof. The generator is in another crate: Pcg.v is the published algorithm (trusted), used in C79_passes only; the other ten tests are equivalent to a computation that takes the kernel too long, of which Validation.v runs a part. C79_case: with a generator of zeros mii_cuts_1 panics."},
{"property": "C80", "status": "proved", "theorems": ["C80_tokens", "C80_tokens_unique", "C80_file", "C80_crate", "C80_callers", "C80_unit_tests", "C80_cut_tests", "C80_doc", "C80_properties"], "note": "C80_tokens (iff) and C80_tokens_unique: RustLex.v against Lexical.v. C80_file: RustParse.v against Grammar.v, for every file; C80_crate: the files of the crate. C80_callers, C80_doc, C80_properties, C80_unit_tests, C80_cut_tests: the parts of the test files and of the documentation. One direction only for the parser: what it returns is derived; it may reject a file the grammar derives (it does not reject those of the crate), and that the grammar derives no second tree is not proved. The grammar passes over attributes, bounds, where-clauses, use-declarations and inner modules."},
{"property": "C81", "status": "proved", "theorems": ["C81_seed_permutes", "C81_seed_odd", "C81_seed_idle", "C81_seed_count", "C81_seed_first", "C81_entry", "C81_entry_exists", "C81_cancel", "C81_cancel_window", "C81_cancel_constant", "C81_no_cancel", "C81_repeating"], "note": "C81_seed_permutes, C81_seed_odd, C81_seed_idle, C81_seed_count: one seed; C81_seed_first: the same for runs, an upper bound (the first cut also needs every earlier test to fail). C81_entry, C81_entry_exists: one entry of any table. C81_cancel, C81_cancel_window, C81_cancel_constant, C81_no_cancel, C81_repeating: the remark of the documentation on prime k, with the exact conditions. The window statements need k mod 32 < 8 (C35); the others hold for every k."},
{"property": "C82", "status": "proved", "theorems": ["C82_default", "C82_function", "C82_solution", "C82_crate", "C82_callers", "C82_tests", "C82_cut_tests", "C82_rollsum_tests", "C82_ints", "C82_literal", "C82_mixed", "C82_loop"], "note": "C82_function: RustElab.v against Typing.v, for every function, given that the remaining equations between types have a solution (decided by solvable; C82_solution: any solution will do). C82_crate: all functions of the text, from trees that the grammar of C80 derives from the files. C82_callers, C82_tests, C82_cut_tests, C82_rollsum_tests: the rest of what C76, C77, C79 and C83 read. C82_default: the default type of integers is used in one function, feed_until_5_chunks. C82_ints, C82_literal, C82_mixed, C82_loop: what the rules exclude, for free functions. One direction only: what is returned is read by the rules; that they read no second term from a function is proved only for the operands of C82_literal and C82_mixed."},
{"property": "C83", "status": "partial", "theorems": ["C83_text", "C83_source", "C83_source_iter_eq_partial", "C83_source_compare_partial", "C83_words", "C83_simple_eq", "C83_chk_a", "C83_chk_b", "C83_iter_eq", "C83_iter_eq_reset_partial", "C83_iter_eq_reset_refuted", "C83_compare_rollsum", "C83_compare_bup", "C83_compare_bup_reset_partial"], "note": "C83_words, C83_simple_eq, C83_chk_a, C83_chk_b, C83_compare_rollsum: for both behaviours of the oracle. C83_iter_eq, C83_compare_bup: if it keeps its sums after an edge. If it starts over: C83_iter_eq_reset_partial (passes iff the two APIs cut alike, C32), C83_iter_eq_reset_refuted (59 bytes on which it fails), C83_compare_bup_reset_partial (passes iff iter_eq does). From the text of the tests: C83_text (every function of tests/qc_bup.rs is read), C83_source (simple_eq, chk_a, chk_b and the unit tests pass), C83_source_iter_eq_partial, C83_source_compare_partial. The oracle is another crate: Bupsplit.v is the published algorithm (trusted)."},
{"property": "C84", "status": "proved", "theorems": ["C84_prints", "C84_exits", "C84_crashes", "C84_prefix", "C84_test_data"], "note": "C84_prints, C84_exits, C84_crashes: each outcome exactly when. C84_prefix: longer files extend shorter ones. C84_test_data: the same bytes as test_data of tests/cuts.rs, from its text. main (GenData.v) is written by hand from the example; the generator is that of another crate (Pcg.v, trusted)."},
{"property": "C85", "status": "proved", "theorems": ["C85_text", "C85_typed", "C85_lent", "C85_seed", "C85_tests", "C85_quickcheck"], "note": "C85_text: the six functions as read from the bytes of the file, and the list of all functions of the file. C85_typed: their elaboration follows the rules of C82. C85_seed, C85_tests: they pass on every seed and draw, and make ten draws. C85_quickcheck: what arbitrary makes, and that oracle_1 holds of it. C85_lent: no slice is lent to be written to in what is read, except the one that plain rewrites. Vec::capacity, Vec::set_len, random and the generators belong to other crates: any that keep lengths are allowed. shrink is not read, o1_qc is one call of quickcheck."},
{"property": "C86", "status": "proved", "theorems": ["C86_lends", "C86_fastcdc", "C86_receivers"], "note": "C86_lends: every file but tests/fastcdc.rs. C86_fastcdc: that file as it is read, and why not as it is. C86_receivers: methods called on elements and slices, and second names, in all files. On tokens: which colons belong to parameters is told by the types that follow."}
]}
