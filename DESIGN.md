# A Rocq model of hash-roll

## Layout (rocq/theories)

| file | content |
|---|---|
| `Base.v` | outcome type (`Ok` / `Panic` / `Diverge`), bytes, checked and wrapping integers, Rust loop forms |
| `Api.v` | `ChunkIncr`, `Chunk`, the slice iterators of `src/lib.rs`, the callers' protocols |
| `Tables.v` | the constant tables, copied from `src/gear_table` and `src/buzhash_table.rs` |
| `Mii.v` `Ram.v` `Gear.v` `Pigz.v` `Gzip.v` `FastCdc.v` `Bup.v` `BuzHash.v` `Range.v` `Zpaq.v` `Zstd.v` | one model file per source file; no proofs |
| `Spec.v` | the specification: what a list of cuts *is*, and one declarative rule per algorithm |
| `Builtin.v` | one enumeration of all built-in chunkers with any arguments, for statements about all of them |
| `Drivers.v` | programs of the repository that call the traits: the documented loop, the drivers and the FastCDC oracle of `tests/`, the loop of `benches/compare.rs` |
| `Pcg.v` | the generator `rand_pcg::Pcg64` behind the data of `tests/cuts.rs` |
| `Validation.v` | the model run on the inputs of the repository's tests, with the expected results |
| `Props*.v` | the property theorems `Cnn_...`, each followed by `Print Assumptions` and a concrete case |
| `Cases.v` | two helpers to read off concrete runs in those cases |
| all other files | proofs: `Lists` `Words` `Rot` `Ring` `Window` (data), `Contract` `Step` (from one loop iteration to every caller), one `*Proofs` per algorithm, `CutFacts` `CutProps` `Cap` (consequences for cuts), `IterProofs` `IterAll` `IterOps` `ZstdIter` (iterators), `ZstdEdge` (Zstd after a cut), `Reach` `StateFacts` `Answers` (single calls), `Totality` `FastCdcTotal` `FastCdcExact` `FastCdcSafe` `Agree` `AgreeExact` `BupAny` `BuzWindow` `ZpaqCtor`, `DriverProofs` `DriverFast` `DriverZstd` `Oracle` `Feed` (callers of the repository), `DriverAny` `DriverOrder` `FastCdcAny` (FastCdc with sizes in any order), `Stable` `Unbounded` `Force` (appending, limits, words that force a cut), `Count` `Sensitive` `HashDiff` (counting, changed bytes), `PushApp` (splitting a push) |
| `Release.v` | the chunkers with wrapping arithmetic, as a build without overflow checks |
| `Rust.v` | syntax and meaning of the part of Rust the crate is written in |
| `RustRules.v`, `RulesProofs.v` | the same language by big-step inference rules, and the proof that the interpreter computes exactly what they derive |
| `RustText.v` | the text of `src/*.rs` in that syntax, written by `tools/transcribe.py /repo/src`; C76 proves that it is what the files contain |
| `RustSource.v` | the files themselves, byte by byte, written by `tools/embed.py /repo` |
| `RustTests.v` `PropsTests.v` | the tests of the crate read from the same files: the `proptest!` block with its strategies, three unit tests |
| `RustLex.v` `RustParse.v` `RustElab.v` `RustFiles.v` `PropsText.v` | from the bytes to tokens, syntax trees and, with types inferred, to the syntax of `Rust.v` |
| `Lexical.v` `Grammar.v` | what the tokens of a file are, and which trees a sequence of tokens stands for: grammars, without any procedure |
| `Typing.v` | which terms a syntax tree stands for: typing rules, without any procedure |
| `TypingSound.v` `PropsTyping.v` `PropsDefault.v` | C82: elaboration returns only those terms |
| `BuzSeed.v` | C81: xors of rotations, the terms of a BuzHash hash |
| `Bupsplit.v` `PropsBupsplit.v` `PropsBupText.v` | C83: the tests that compare RollSum with the crate `rollsum`, what they use of it, and the same from their text |
| `GenData.v` `PropsGenData.v` | C84: `examples/generate-test-data.rs` and what it prints |
| `SeedTests.v` `PropsSeedTests.v` | C85: the rest of `tests/fastcdc.rs`, from its text |
| `PropsLoans.v` | C86: where the files say `&mut` |
| `LexSound.v` `GrammarSound.v` `PropsGrammar.v` | the lexer finds exactly those tokens, and the parser only those trees |
| `RustSim.v` `RustLib.v` `Rust<file>.v` `RustConfig.v` `PropsSource.v` | the text computes what the model computes, function by function, then whole runs |
| `DriverText.v` `DriverSim.v` `PropsCallers.v` | the same for the callers in `Drivers.v`, written by `tools/transcribe.py /repo/src /repo`, run on top of the text of the crate |
| `Float.v` `PropsFloat.v` | the one floating-point expression (`zpaq.rs`), with numbers as rationals |
| `RustMeta.v` `PropsBuilds.v` | evaluation without overflow checks, for any text and for the crate's |

## How a property is stated

* A *rule* says, of the bytes before a chunk and of the chunk's bytes so far, whether the chunk ends here. Rules are
  declarative (sums over "the last W bytes", "strictly increasing run", "predicted byte") and do not mention model state.
* `cuts_of first [] data cs` says that `cs` are the cut positions of `data`: repeatedly take the first chunk end.
* A caller is a *schedule*, an arbitrary list of buffer sizes, one per call. `run_incr` and `run_chunk` execute the model
  on a schedule following the documentation in `src/lib.rs`. Panics in the library or in the caller's slicing are `Panic`.
* The main theorem of an algorithm says: for every input and every schedule the run does not panic, and whenever the last
  answer was "no cut", the cuts reported are the cuts of the bytes shown so far; and draining always gets there.

Bounds, equivalence of the two APIs, window locality and resynchronisation are corollaries of those.

Where the code violates the property as a user would state it, the theorem `..._refuted` exhibits a witness, and
`..._partial` proves the part that does hold, with the missing hypothesis visible.

## Plan per property

C01 C03 C04: generic over an arbitrary `push` function; induction on the number of `next` calls.
C02: per algorithm, from "push returns an index >= 1"; Zstd by a parity argument; Gear32 is refuted.
C05 C10 C32 C41: compare the two specifications; refuted where the code differs, with the precise condition under which they agree.
C06 C07 C53: consequences of the per-algorithm contract; FastCdc refuted for C06.
C08-C49: per-algorithm refinement to the declarative rule; constructors by case analysis on the argument.
C50 C51: from the specification (`cuts_of`) plus window locality of each rule.
C52: the outcome `Ok` in the refinement theorems.
C54 C55 C56: the programs of the repository are models too (`Drivers.v`); an invariant relates their position to a schedule of
the generic caller, so their results follow from the contract. FastCdc, which can answer past the end, is walked separately:
with sizes in order in `DriverFast.v`, with any sizes in `DriverAny.v` and `DriverOrder.v`.
C57: both programs compute the first stop of the FastCDC rule.
C58: the refinement theorems at the default parameters, rewritten to literals. C59: case analysis.
C60: from the rules: an input on which the rule never fires, of any length, or the cap. C61: determinism of `cuts_of`.
C62 C63: loops of `tests/fastcdc.rs` and `benches/compare.rs`; an invariant from the contract of `push`.
C64: a word that makes the rule true after any bytes (found by search for Gear, Zpaq, Zstd, BuzHash; checked in `Force.v`), or a bound showing that none exists.
C65: the specification `cuts_of` restarts at a cut, and its relation to the next chunk end looks only at that chunk.
C66: counting (`Count.v`): for fixed other bytes, one or two byte positions make the sum uniform modulo the split size; `Density2.v` counts bytes by residue, increasing strings, strings whose last byte is the largest, and, for masks of shifted sums, parities of table entries bit by bit.
C67: the hash is affine in each byte; the two streams differ by one term (`Sensitive.v`).
C68: the state at the end of a run is the hash of the current chunk (`run_state`), which changes by one term (`HashDiff.v`).
C69: each `push` body is a loop whose state after `a` is where the loop over `b` begins (`splits`, `PushApp.v`); the iterator follows by
induction on the buffers (`stream_iff`).
C70: a second model with wrapping arithmetic (`Release.v`); every operation of it extends the checked one, hence every loop and run.
C71: symbolic evaluation of each function body, loops by induction (`iter_enum`, `iter_range`, `iter_loop`); then a simulation between the
model's states and the text's values, which carries over to runs and iterators.
C72: an order on outcomes ("equal unless out of fuel or panicking") that every construct of the evaluator respects.
C73: as C71, with the crate's calls replaced by what C71 says of them; then C54 - C57 and C62 carry over.
C77: the text of each property test is evaluated symbolically for arbitrary drawn arguments; C73 gives the two calls of `splits_fce`.
C79: C73 with `test_data` itself evaluated from its text, then one symbolic evaluation per test; the three runs are computed by the kernel, counting in binary.
C78: induction on the depth one way, mutual induction on derivations the other; both go through one normal form of `eval` in which the operands come first.
C76: computation; the parser, run by the kernel on the embedded files, returns the very terms that C71 and C73 are about.
C80: for the lexer, both directions per token and then over the file (the table of signs is such that the first match is the longest); for the parser,
one induction on its depth with a clause per function: the tokens taken off make up the construct returned.
C82: induction on the nesting of the tree for all forms at once; the types inference returns contain variables, so each form is proved for every assignment
of types that solves the equations left at the end, and such an assignment is then found by computation (`solvable`). A free function has no `Self` to
unfold, so a type keeps what is behind its references through every agreement.
C81: the xor of the rotations of a word by a list of ages, applied twice, is that by the doubled ages (mixed terms cancel); five times doubled every
rotation is the identity, so an odd number of them is a permutation.
C83: both sums are functions of the bytes since the oracle last started over; one call of each per cut, by induction on the fuel. The text is run against `rollsum_crate`, which computes the oracle on values.
C84: `str::parse` reads a numeral by induction from the left, the specification builds it from the right; the state of word `k` is a closed
form in the seed, and the output is given bit by bit, so that nothing of `Pcg.v` occurs in `C84_prints`.
C85: the oracle test passes on any bytes (C62), so ten rounds of the loop do; `capacity`, `set_len` and the generator are parameters that only
fix lengths, and a generator that panics from draw `limit` on counts the rounds. `plain` puts four things of this file that the parser does not know in other
words.
C86: a check of the tokens by computation, sound by induction on the tokens before the place.
C74: `p / 2^q <= log2 v` is `2^p <= v^(2^q)`, so no real numbers are needed; a logarithm just below an integer is far enough from it
because `2 (N-1)^N <= N^N`. C75: arithmetic.

Not expressible in this model: running time, memory use, chunk-size distribution on real data (C66 counts over all inputs).

## Trusted base

1. **Coq 8.16.1's kernel** (and `coqchk`), including its virtual machine for the concrete cases proved by `vm_compute`.
2. **Assumptions.** Every theorem named in `MANIFEST.json` is followed by `Print Assumptions`; each of them prints
   *Closed under the global context*. No axiom of the standard library is used, none is declared.
3. **The text is the code.** C71 proves, for all inputs, that the Gallina model computes what the text in `RustText.v`
   computes, and C76 that this text is what a parser written in Gallina makes of the source files. Trusted is the way from the
   files to there: `RustSource.v` is the files (running `tools/embed.py` again must reproduce it), the grammars `Lexical.v` and `Grammar.v` are those
   of Rust for these files (C80: lexer and parser follow them; that no second tree can be derived from a file is not proved),
   the rules in `Typing.v` type and resolve them as Rust does (literals, `.into()` and `Default::default()`, methods, `.map` with a closure that takes a field; C82: `RustElab.v` follows them,
   and what it does not understand is an error, not a guess; that the rules read no second term from a function is not proved), and the meaning of the terms, given by the interpreter in `Rust.v` or, equivalently (C78), by the rules in `RustRules.v`.
   `tools/transcribe.py`, which wrote `RustText.v`, need not be trusted. References are transparent there and a `&mut` parameter is copied back on return,
   which presupposes the borrow checker; a slice is a copy. C86 checks that `&mut` only ever lends a whole variable or field as an argument, so nothing is written through a copy; the one `i32`, which counts to six in `feed_until_5_chunks`, is a `u32` (C82_default); `usize` has 64 bits; a `Vec`, a `VecDeque`, an array and a slice are lists. The one function not in the text is
   `Zpaq::fragment_ave_from_max` (floating point); the theorems on its callers take any function that `Float.v` allows, and C76 reads its text too.
   `Wrapping` arithmetic reduces modulo the word size; plain arithmetic, shifts, indexing, slicing, `unwrap` and
   `assert!` give `Panic` exactly where a build with overflow checks panics, so a theorem that concludes `Ok` holds with
   and without those checks (C70 proves this for `push`, `find_chunk_edge` and their runs, with the unchecked build modelled in
   `Release.v`), and a `Panic` in a counterexample is a panic of the checked build. Of `Release.v` the constructors are linked to the
   text (C72), its loops by reading only. `Drivers.v` is linked to the text of the tests and the documentation (C73) except for
   the loop of `benches/compare.rs`; there `println!` appends to a list, and the random generator is a parameter.
4. **The specification.** `Spec.v` (cuts, rules, conformance), the drivers `run_incr` / `run_chunk` in `Api.v` (how a caller
   uses the traits) and `Builtin.v` (which configurations exist, which rule belongs to which) are part of the statements.

### Modelled

All of `src/`: the traits `Chunk`, `ChunkIncr`, `ToChunkIncr` and both slice iterators (`lib.rs`), `range.rs`, and for
`mii`, `ram`, `gear`, `pigz`, `gzip`, `fastcdc`, `bup`, `buzhash`, `zpaq`, `zstd` every constructor, default, state, `push`,
`find_chunk_edge`, `reset` and helper; the tables of `gear_table` and `buzhash_table`; the hand-written `PartialEq`s.

### Validation

The code cannot be run here, but its tests contain results of runs: `tests/cuts.rs` lists the split lengths of every
algorithm on pseudo-random data. `Pcg.v` has the generator (PCG XSL RR 128/64) and `Validation.v` evaluates the model, through both
APIs, on the first 12 KiB (17 KiB in one case) of those inputs; each result is the initial part of the list in the test. The full 32 KiB
vectors and the 2 MiB Zstd vector (`zstd_cuts_0_2mb`, cut after byte 1660511) were checked once with the extracted model
outside this repository, with the same outcome; they are not part of the build because of their running time, but for three of them that are proved to pass (C79). The unit
tests with intermediate values (`mii.rs`, `bup.rs`, `zstd.rs`) are there as well.

### Simplified

* Slice lengths and indices are `nat` without an upper bound; `usize` is taken to be 64 bits. `i + 1` on an index of an
  existing slice is not checked (a slice has at most `isize::MAX` bytes).
* A `VecDeque` and a boxed slice are lists; `with_capacity` is dropped. Allocation never fails;
  in particular the "capacity overflow" panic for windows beyond `isize::MAX` bytes is not modelled.
* `Zpaq::fragment_ave_from_max` uses `f64`: `(max as f64 / 4096.0).log2() as u8`. The model takes
  `max(0, floor(log2 max) - 12)`. C74 proves that this makes no difference, assuming IEEE 754 arithmetic and a `log2` that is faithful.
* `BuzHashHash::hash` is a function `byte -> res u32`: a user's implementation with interior state is not covered.
* `ZstdIncr::input_offs` is never used by the code and is left out.
* A user-supplied `ChunkIncr` (C01, C03, C04) is any function of state and slice; one that panics gives `Panic`.
* Loops written `loop { }` carry fuel; the theorems show `Diverge` is never the result where they claim `Ok`.

### Not modelled

`Debug` formatting, derived `Clone` / `PartialEq`, cargo features, and of `benches/` and
`tests/` everything but the loops in `Drivers.v` and the tests of C77, C79, C83 and C85 (`tests/cuts.rs` is C55, C73 and C79; the tests of
C83 call another crate, of which `Bupsplit.v` has the published algorithm; whether it starts over after an edge is a parameter). `tests/oracle_zpaq.rs` and `tests/rsyncable.rs` depend on features that
`Cargo.toml` does not have, and `tests/qc_bh.rs` is a comment. A proptest strategy is the set of values it may draw. Interleaving of
several threads: every method takes `&mut self` or a `&mut` state, so there is no concurrency to model.

## What turned out to be false

Each has a `_refuted` theorem with a witness; the `_partial` theorem beside it says what is true.

* C02 `iter_slices` with the default `Gear32` returns empty slices forever on the one-byte input `0xdf`.
* C04 `iter_slices_strict` is not fused: it feeds the undecided remainder to the chunker again.
* C05 C10 C32 C41 the two APIs of Ram, Gear32, Mii, RollSum, Zpaq cut at different places.
* C06 C26 C27 FastCdc's `find_chunk_edge` answers one past the end of the buffer; the documented caller panics.
* C23 C52 GzipRsyncable panics with window 0 or modulus 0, RollSum with window 0.
* C25 C53 FastCdc with `normal_size > max_size` depends on the buffering; with `min_size = 0` it reports empty chunks.
* C29 RollSumIncr's window works only for powers of two; `RollSum` is right for all of them.
* C35 C51 BuzHash removes the outgoing byte with the wrong rotation (`k % 8`), right only when `k mod 32 < 8`
  (`new_nom` has 67, which is fine).
* C36 BuzHash's `find_chunk_edge` has no maximum.
* C42 C43 Zpaq's sizes miss the range by one; the default's maximum is 1024 times the documented one.
* C75 the average of `Zpaq::with_max_size(max)` is about `max / 4096`, documented is `max / 4`.
* C48 C56 Zstd's `find_chunk_edge` loses the bytes after a cut; the next cut it reports is usually no cut of the algorithm.
* C54 the documented loop prints an empty "remain" for its own example, and panics with FastCdc when a chunk of maximal
  size ends exactly at the end of the data; C55 the cross-check in `tests/cuts.rs` fails on some inputs (Mii, FastCdc).
* C77 `fastcdc_fce_self_consistent_with_varying_buf_size` panics on 64 KiB of zeros, `zstd_fce_self_consistent_…` on 36 bytes.
* C62 `feed_until_5_chunks` in `tests/fastcdc.rs` never ends when the source delivers zeros.
