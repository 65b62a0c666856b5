(** * RustSource: source files of the crate and of its tests, byte by byte (a quote is doubled, as in every Coq string).

    Written by tools/embed.py; do not edit. *)

From Verif Require Import Base RustLex.
Open Scope source_scope.

Definition src_range_rs : source :=
"use std::ops::Bound::{self, *};

pub trait RangeExt<T> {
    fn exceeds_max(&self, other: &T) -> bool
    where
        T: PartialOrd<T>;

    fn under_min(&self, item: &T) -> bool
    where
        T: PartialOrd<T>;

    fn contains(&self, item: &T) -> bool
    where
        T: PartialOrd<T>;

    fn into_tuple(self) -> (std::ops::Bound<T>, std::ops::Bound<T>)
    where
        T: Copy + std::marker::Sized;
}

impl<T, R: std::ops::RangeBounds<T>> RangeExt<T> for R {
    fn exceeds_max(&self, item: &T) -> bool
    where
        T: PartialOrd<T>,
    {
        match self.end_bound() {
            Included(ref i) => {
                if item > i {
                    return true;
                }
            }
            Excluded(ref i) => {
                if item >= i {
                    return true;
                }
            }
            Unbounded => {}
        }

        false
    }

    fn under_min(&self, item: &T) -> bool
    where
        T: PartialOrd<T>,
    {
        match self.start_bound() {
            Included(ref i) => {
                if item < i {
                    return true;
                }
            }
            Excluded(ref i) => {
                if item <= i {
                    return true;
                }
            }
            Unbounded => {}
        }

        false
    }

    fn contains(&self, item: &T) -> bool
    where
        T: PartialOrd<T>,
    {
        /* not excluded by lower */
        if self.under_min(item) {
            return false;
        }

        if self.exceeds_max(item) {
            return false;
        }

        true
    }

    fn into_tuple(self) -> (std::ops::Bound<T>, std::ops::Bound<T>)
    where
        T: Copy + std::marker::Sized,
    {
        (
            bound_cloned(self.start_bound()),
            bound_cloned(self.end_bound()),
        )
    }
}

/// Map a `Bound<&T>` to a `Bound<T>` by cloning the contents of the bound.
///
/// # Examples
///
/// ```
/// use std::ops::Bound::*;
/// use std::ops::RangeBounds;
/// use hash_roll::range::bound_cloned;
///
/// assert_eq!((1..12).start_bound(), Included(&1));
/// assert_eq!(bound_cloned((1..12).start_bound()), Included(1));
/// ```
pub fn bound_cloned<T: Clone>(src: std::ops::Bound<&T>) -> std::ops::Bound<T> {
    match src {
        Bound::Unbounded => Bound::Unbounded,
        Bound::Included(x) => Bound::Included(x.clone()),
        Bound::Excluded(x) => Bound::Excluded(x.clone()),
    }
}
".

Definition src_lib_rs : source :=
"//! hash-roll provides various content defined chunking algorithms
//!
//! Content defined chunking (CDC) algorithms are algorithms that examine a stream of input bytes (often
//! represented as a slice like `[u8]`, and provide locations within that input stream to split or
//! chunk the stream into parts.
//!
//! CDC algorithms generally try to optimize for the following:
//!
//!  1. Processing speed (ie: bytes/second)
//!  2. Stability in split locations even when insertions/deletions of bytes occur
//!  3. Reasonable distributions of chunk lengths
//!
//! ## API Concepts
//!
//! - Configured Algorithm Instance (impliments [`Chunk`]). Named plainly using the algorithm name
//!  (like [`Bup`]). These can be thought of as ""parameters"" for an algorithm.
//! - Incrimental (impliments [`ChunkIncr`]). Normally named with `Incr` suffix. These are created
//!   using [`ToChunkIncr`] for a configured algorithm instance.
//!
//! Because of the various ways one might use a CDC, and the different CDC algorithm
//! characteristics, hash-roll provides a few ways to use them.
//!
//! Configured Algorithm Instances are created from the set of configuration needed for a given
//! algorithm. For example, this might mean configuring a window size or how to decide where to
//! split. These don't include any mutable data, in other words: they don't keep track of what data
//! is given to them. Configured Algorithm Instances provide the all-at-once APIs, as well as
//! methods to obtain other kinds of APIs, like incrimental style apis.
//!
//! ```rust
//! use hash_roll::ToChunkIncr;
//! let algorithm_instance = hash_roll::mii::Mii::default();
//! let _incrimental_comp = algorithm_instance.to_chunk_incr();
//! ```
//!
//! ## CDC Algorithms and Window Buffering
//!
//! Different CDC algorithms have different constraints about how they process data. Notably, some
//! require a large amount of previous processed data to process additional data. This ""large
//! amount of previously processed data"" is typically referred to as the ""window"". That said, note
//! that some CDC algorithms that use a window concept don't need previously accessed data.
//!
//! For the window-buffering algorithms, their is an extra cost to certain types of API
//! implimentations. The documentation will note when these occur and suggest alternatives.
//!
//! Generally, CDC interfaces that are incrimental will be slower for window-buffering algorithms.
//! Using an explicitly allocating interface (which emits `Vec<u8>` or `Vec<Vec<u8>>`) will have no
//! worse performance that the incrimental API, but might be more convenient. Using an all-at-once
//! API will provide the best performance due to not requiring any buffering (the input data can be
//! used directly).
//!
//! ## Use Cases that drive API choices
//!
//!  - accumulate vecs, emits vecs
//!    - incrimental: yes
//!    - input: `Vec<u8>`
//!    - internal state: `Vec<Vec<u8>>`
//!    - output: `Vec<Vec<u8>>`
//!
//!  - stream data through
//!    - incrimenal: yes
//!    - input: `&[u8]`
//!
//!  - mmap (or read entire) file, emit
//!    - incrimenal: no
//!    - input: `&[u8]`
//!    - output: `&[u8]`

// # API Design Notes
//
// ## What methods should be in a trait? What should be in wrapper structs?
//
//  - place methods that might have more optimized variants, but can have common implimentations,
//    in a trait. This notably affects window-buffering differences: it's always possible to
//    impliment all-at-once processing using incrimental interfaces that internally buffer, but
//    it's much more efficient for window-buffering algorithms to provide implimentations that know
//    how to look into the input data directly.

#![warn(rust_2018_idioms, missing_debug_implementations)]
/* TODO: Rabin-Karp
 * H = c_1 * a ** (k-1) + c_2 * a ** (k-2) ... + c_k * a ** 0
 * where:
 *  a is a constant
 *  c_1, ..., c_k are the input characters
 *
 * All math is done modulo n. Choice of n & a critical
 *
 * Parameters:
 *  - n: mululo limit
 *  - a: a constant
 *
 * State:
 *  H
 *
 * Application:
 */

/* TODO:
 * rollsum of librsync
 */

use std::mem;

pub mod bup;
pub mod buzhash;
pub mod buzhash_table;
pub mod fastcdc;
pub mod gear;
pub mod gear_table;
pub mod gzip;
pub mod mii;
pub mod pigz;
pub mod ram;
pub mod range;
pub mod zpaq;
pub mod zstd;

pub(crate) use range::RangeExt;

/// Accept incrimental input and provide indexes of split points
///
/// Compared to [`Chunk`], [`ChunkIncr`] allows avoiding having to buffer all input data in memory,
/// and avoids the need to use a single buffer for storing the input data (even if all data is in
/// memory).
///
/// Data fed into a given [`ChunkIncr`] instance is considered to be part of the same
/// data ""source"". This affects chunking algorithms that maintain some state between chunks
/// (like `ZstdRsyncable` does). If you have multiple ""sources"", one should obtain new instances of
/// [`ChunkIncr`] for each of them (typically via [`ToChunkIncr`]).
///
/// Note that for some splitting/chunking algorithms, the incrimental api will be less efficient
/// compared to the non-incrimental API. In particular, algorithms like [`Rsyncable`] that require
/// the use of previously examined data to shift their ""window"" (resulting in needing a circular
/// buffer which all inputed data passes through) will perform more poorly using [`ChunkIncr`]
/// compared with non-incrimental interfaces
pub trait ChunkIncr {
    /// The data ""contained"" within a implimentor of this trait is the history of all data slices
    /// passed to feed.
    ///
    /// In other words, all previous data (or no previous data) may be used in determining the
    /// point to split.
    ///
    /// Returns None if the data has no split point.
    /// Otherwise, returns an index in the most recently passed `data`.
    ///
    /// Note that returning the index in the current slice makes most ""look-ahead"" splitting
    /// impossible (as it is permissible to pass 1 byte at a time).
    fn push(&mut self, data: &[u8]) -> Option<usize>;

    /// Given a [`ChunkIncr`] and a single slice, return a list of slices chunked by the chunker.
    ///
    /// Will always return enough slices to form the entire content of `data`, even if the trailing
    /// part of data is not a chunk (ie: does not end on a chunk boundary)
    fn iter_slices(self, data: &[u8]) -> IterSlices<'_, Self>
    where
        Self: std::marker::Sized,
    {
        IterSlices {
            rem: data,
            chunker: self,
        }
    }

    /// Given a [`ChunkIncr`] and a single slice, return a list of slices chunked by the chunker.
    /// Does not return the remainder (if any) in the iteration. Use [`IterSlices::take_rem()`] or
    /// [`IterSlices::into_parts()`] to get the remainder.
    ///
    /// Note that this is a non-incrimental interface. Calling this on an already fed chunker or using
    /// this multiple times on the same chunker may provide unexpected results
    fn iter_slices_strict(self, data: &[u8]) -> IterSlicesStrict<'_, Self>
    where
        Self: std::marker::Sized,
    {
        IterSlicesStrict {
            rem: data,
            chunker: self,
        }
    }
}

/// Returned by [`ChunkIncr::iter_slices_strict()`]
///
/// Always emits _complete_ slices durring iteration.
#[derive(Debug)]
pub struct IterSlicesStrict<'a, C: ChunkIncr> {
    rem: &'a [u8],
    chunker: C,
}

impl<'a, C: ChunkIncr> IterSlicesStrict<'a, C> {
    /// Take the remainder from this iterator. Leaves an empty slice in it's place.
    pub fn take_rem(&mut self) -> &'a [u8] {
        let mut l: &[u8] = &[];
        mem::swap(&mut self.rem, &mut l);
        l
    }

    /// Obtain the internals
    ///
    /// Useful, for example, after iteration stops to obtain the remaining slice.
    pub fn into_parts(self) -> (C, &'a [u8]) {
        (self.chunker, self.rem)
    }
}

impl<'a, C: ChunkIncr> Iterator for IterSlicesStrict<'a, C> {
    type Item = &'a [u8];

    fn next(&mut self) -> Option<Self::Item> {
        match self.chunker.push(self.rem) {
            None => None,
            Some(l) => {
                let (v, rn) = self.rem.split_at(l);
                self.rem = rn;
                Some(v)
            }
        }
    }
}

/// Returned by [`ChunkIncr::iter_slices()`]
///
/// When it runs out of data, it returns the remainder as the last element of the iteration
#[derive(Debug)]
pub struct IterSlices<'a, C: ChunkIncr> {
    rem: &'a [u8],
    chunker: C,
}

impl<'a, C: ChunkIncr> IterSlices<'a, C> {
    /// Obtain the internals
    ///
    /// Useful, for example, after iteration stops to obtain the remaining slice.
    pub fn into_parts(self) -> (C, &'a [u8]) {
        (self.chunker, self.rem)
    }
}

impl<'a, C: ChunkIncr> Iterator for IterSlices<'a, C> {
    type Item = &'a [u8];

    fn next(&mut self) -> Option<Self::Item> {
        if self.rem.is_empty() {
            return None;
        }

        match self.chunker.push(self.rem) {
            None => {
                let v = self.rem;
                self.rem = &[];
                Some(v)
            }
            Some(l) => {
                let (v, rn) = self.rem.split_at(l);
                self.rem = rn;
                Some(v)
            }
        }
    }
}

/// Impl on algorthms that define methods of chunking data
///
/// This is the lowest level (but somewhat restrictive) trait for chunking algorthms.  It assumes
/// that the input is provided to it in a contiguous slice. If you don't have your input as a
/// contiguous slice, [`ChunkIncr`] may be a better choice (it allows non-contiguous input, but may
/// be slowing for some chunking algorthms).
pub trait Chunk {
    /// `SearchState` allows searching for the chunk edge to resume without duplicating work
    /// already done.
    type SearchState;

    /*
    /// Amount of data from already emitted chunks requried for determining future chunks
    ///
    /// Indicates the amount of data that _must_ be preserved for [`find_chunk_edge()`]'s
    /// `prev_data` argument. If more that this is passed, the last bytes in the slice are used. At
    /// the start of an input (where there is no previous data), an empty slice would be used.
    ///
    /// For most chunking algorithms, this is `0` (zero), indicating that `prev_data` may always be
    /// an empty slice.
    const CARRY_LEN: usize;
    */

    /// Provide an initial [`SearchState`] for use with [`find_chunk_edge()`]. Generally, for each
    /// input one should generate a new [`SearchState`].
    fn to_search_state(&self) -> Self::SearchState;

    /// Find the next ""chunk"" in `data` to emit
    ///
    /// The return value is a pair of a range representing the start and end of the chunk being
    /// emitted, and the offset from which subsequent `data` subsets should be passed to the next
    /// call to `find_chunk_edge`.
    ///
    /// `state` is mutated so that it does not rexamine previously examined data, even when a chunk
    /// is not emitted.
    ///
    /// `data` may be extended with additional data between calls to `find_chunk_edge()`. The bytes
    /// that were _previously_ in `data` and are not indicated by `discard_ct` must be preserved in
    /// the next `data` buffer called.
    ///
    /// ```rust
    /// use hash_roll::Chunk;
    ///
    /// fn some_chunk() -> impl Chunk {
    ///     hash_roll::mii::Mii::default()
    /// }
    ///
    /// let chunk = some_chunk();
    /// let orig_data = b""hello"";
    /// let mut data = &orig_data[..];
    /// let mut ss = chunk.to_search_state();
    /// let mut prev_cut = 0;
    ///
    /// loop {
    ///    let (chunk, discard_ct) = chunk.find_chunk_edge(&mut ss, data);
    ///
    ///    match chunk {
    ///        Some(cut_point) => {
    ///            // map `cut_point` from the current slice back into the original slice so we can
    ///            // have consistent indexes
    ///            let g_cut = cut_point + orig_data.len() - data.len();
    ///            println!(""chunk: {:?}"", &orig_data[prev_cut..g_cut]);
    ///            prev_cut = g_cut;
    ///        },
    ///        None => {
    ///            println!(""no chunk, done with data we have"");
    ///            println!(""remain: {:?}"", &data[discard_ct..]);
    ///            break;
    ///        }
    ///    }
    ///
    ///    data = &data[discard_ct..];
    /// }
    /// ```
    ///
    /// Note: call additional times on the same `SearchState` and the required `data` to obtain
    /// subsequent chunks in the same input data. To handle a seperate input, use a new
    /// `SearchState`.
    ///
    /// Note: calling with a previous `state` with a new `data` that isn't an extention of the
    /// previous `data` will result in split points that may not follow the design of the
    /// underlying algorithm. Avoid relying on consistent cut points to reason about memory safety.
    ///
    // NOTE: the reason that we preserve `state` even when chunks are emitted is that some
    // algorthims require some state to pass between chunks for a given input. zstd includes an
    // example of an algorithm that needs this
    //
    // Potential pitfal: for better performance, keeping the return value small is a very good
    // idea. By returning ~2x64+32, we are might be less performant depending on the ABI selected.
    //
    // Consider if result should return `(&[u8], &[u8])` instead of an index (which would then be
    // given to `.split_at()`
    //
    // Consider if `state` should have a `reset()` method to avoid reallocating
    //
    // API:
    //  - `fn find_chunk_edge(&self, state: &mut Self::SearchState, data: &[u8]) -> (Option<(usize, uszie)>, usize);
    //     - Problem: unclear what indexes of slices represent: start can't be in the data being
    //       passed because we don't require `data` include the start of the chunk
    //  - `fn find_chunk_edge(&self, state: &mut Self::SearchState, data: &[u8]) -> (Option<usize>, usize);
    //     - Problem: user code to track indexing match up is somewhat difficult
    //     - mostly due to needing an extra index to track to handle the ""last chunk"" location not
    //     being the ""slice we need to pass start""
    fn find_chunk_edge(&self, state: &mut Self::SearchState, data: &[u8])
        -> (Option<usize>, usize);
}

/// Implimented on types which can be converted to/can provide a [`ChunkIncr`] interface.
///
/// Types that impliment this generally represent a instantiation of a chunking algorithm.
// NOTE: we use this instead of just having `From<&C: Chunk> for CI: ChunkIncr` because there is
// _one_ `ChunkIncr` for each `Chunk`, and rust can't infer that when using a `From` or `Into`
// bound.
//
// We could consider adding `type Incr` into `trait Chunk`, or only having `type Incr`
pub trait ToChunkIncr {
    /// `Incr` provides the incrimental interface to this chunking instance
    type Incr: ChunkIncr;

    /// `to_chunk_incr()` returns a [`ChunkIncr`] which can be incrimentally fed data and emits
    /// chunks.
    ///
    /// Generally, this is a typically low cost operation that copies from the implimentor or does
    /// minor computation on its fields and may allocate some memory for storing additional state
    /// needed for incrimental computation.
    fn to_chunk_incr(&self) -> Self::Incr;
}
".

Definition src_mii_rs : source :=
"#![cfg(feature = ""mii"")]
use crate::{ChunkIncr, ToChunkIncr};

/// C. Zhang et al., ""MII: A Novel Content Defined Chunking Algorithm for Finding Incremental Data
/// in Data Synchronization,"" in IEEE Access, vol. 7, pp. 86932-86945, 2019, doi:
/// 10.1109/ACCESS.2019.2926195.
///
/// https://ieeexplore.ieee.org/abstract/document/8752387
#[derive(Debug, Clone)]
pub struct Mii {
    w: u64,
}

impl Mii {
    /// Create a new splitter with parameter `w`
    ///
    /// `w` is the number of ""increments"" (positive changes in byte value) after which we split the
    /// input
    ///
    // TODO: determine distribution and expected size of chunks
    //
    // 1: P(curr > prev) = 0    (prev set to 0xff)
    // 2: P(curr > prev) = 0.5  (prev and curr assumed to be randomly distributed)
    // 3: P(curr > prev) |  t2 = ???
    //    P(curr > prev) | !t2 = ???
    pub fn with_w(w: u64) -> Self {
        Self { w }
    }
}

impl Default for Mii {
    /// The window of 5 is used in the paper for the generated graphs
    ///
    /// It is compared against Rabin with a window of 7 and AE/LMC/RAM with a window of 700
    fn default() -> Self {
        Mii::with_w(5)
    }
}

impl crate::Chunk for Mii {
    type SearchState = MiiSearchState;

    fn to_search_state(&self) -> Self::SearchState {
        Into::<MiiIncr>::into(self).into()
    }

    fn find_chunk_edge(
        &self,
        state: &mut Self::SearchState,
        data: &[u8],
    ) -> (Option<usize>, usize) {
        match state.push(data) {
            Some(v) => {
                state.reset();
                (Some(v), v)
            }
            None => (None, data.len()),
        }
    }
}

impl From<&Mii> for MiiIncr {
    fn from(src: &Mii) -> Self {
        src.clone().into()
    }
}

impl ToChunkIncr for Mii {
    type Incr = MiiIncr;

    fn to_chunk_incr(&self) -> Self::Incr {
        self.into()
    }
}

#[derive(Debug)]
pub struct MiiSearchState {
    incr: MiiIncr,
}

impl MiiSearchState {
    fn reset(&mut self) {
        self.incr.reset();
    }
}

impl From<MiiIncr> for MiiSearchState {
    fn from(incr: MiiIncr) -> Self {
        Self { incr }
    }
}

impl MiiSearchState {
    fn push(&mut self, data: &[u8]) -> Option<usize> {
        self.incr.push(data)
    }
}

#[derive(Debug)]
pub struct MiiIncr {
    /// After this many increments, split the file
    w: u64,

    /// previous examined byte, if any
    prev: u8,

    /// number of times a byte was greater than the previous value
    increment: u64,
}

impl From<Mii> for MiiIncr {
    fn from(p: Mii) -> Self {
        MiiIncr {
            w: p.w,
            // we use 0xff to ensure that the first examined byte does not trigger an increment
            prev: 0xff,
            increment: 0,
        }
    }
}

impl ChunkIncr for MiiIncr {
    fn push(&mut self, input: &[u8]) -> Option<usize> {
        for (i, b) in input.iter().cloned().enumerate() {
            if b > self.prev {
                self.increment += 1;
                if self.increment == self.w {
                    // this is a split
                    self.increment = 0;
                    self.prev = 0;
                    return Some(i + 1);
                }
            } else {
                self.increment = 0;
            }
            self.prev = b;
        }

        None
    }
}

impl MiiIncr {
    fn reset(&mut self) {
        self.prev = 0xff;
        self.increment = 0;
    }
}
".

Definition src_ram_rs : source :=
"#![cfg(feature = ""ram"")]

//! Rapid Asymmetric Maximum (RAM) is a fast chunking algorithm
//!
//! - Has a minimum block size (it's ""window"" size)
//! - Does not provide an upper bound on block size (though paper discusses a RAML variant that
//!   does).
//!
//! doi:10.1016/j.future.2017.02.013
//!
use crate::{Chunk, ChunkIncr, ToChunkIncr};

/// Parameters for the Rapid Asymmetric Maximum (RAM) chunking algorithm
///
/// Is window free, with very small (
#[derive(Debug, Clone, PartialEq, Eq)]
pub struct Ram {
    /// window size
    ///
    /// fixed data
    w: u64,
}

impl Ram {
    /// Construct a RAM instance with window size `w`
    ///
    /// `w` is also the minimum block size
    pub fn with_w(w: u64) -> Self {
        Self { w }
    }
}

impl Chunk for Ram {
    type SearchState = RamState;

    fn to_search_state(&self) -> Self::SearchState {
        Default::default()
    }

    fn find_chunk_edge(
        &self,
        state: &mut Self::SearchState,
        data: &[u8],
    ) -> (Option<usize>, usize) {
        match state.push(self, data) {
            Some(i) => (Some(i + 1), i + 1),
            None => (None, data.len()),
        }
    }
}

#[derive(Default, Debug, PartialEq, Eq, Clone)]
pub struct RamState {
    /// global index (number of processed bytes since split)
    i: u64,

    ///
    max_val: u8,
}

impl RamState {
    fn push(&mut self, params: &Ram, data: &[u8]) -> Option<usize> {
        let i = self.i;

        for (l_i, b) in data.iter().cloned().enumerate() {
            if b >= self.max_val {
                // minimum block size
                let ri = l_i as u64 + i;
                if ri > params.w {
                    self.i = 0;
                    self.max_val = 0;
                    return Some(l_i);
                }

                self.max_val = b;
            }
        }

        self.i += data.len() as u64;
        None
    }
}

impl ToChunkIncr for Ram {
    type Incr = RamIncr;

    fn to_chunk_incr(&self) -> Self::Incr {
        self.into()
    }
}

impl From<&Ram> for RamIncr {
    fn from(params: &Ram) -> Self {
        Self {
            params: params.clone(),
            state: Default::default(),
        }
    }
}

#[derive(Debug, PartialEq, Eq, Clone)]
pub struct RamIncr {
    params: Ram,
    state: RamState,
}

impl ChunkIncr for RamIncr {
    fn push(&mut self, data: &[u8]) -> Option<usize> {
        self.state.push(&self.params, data)
    }
}
".

Definition src_gear_rs : source :=
"#![cfg(feature = ""gear"")]

use crate::{Chunk, ChunkIncr, ToChunkIncr};
use std::fmt;
use std::num::Wrapping;

/// Gear Content Defined Chunking using 32bit expansion.
///
/// Reference:
///
///  Xia, W., Jiang, H., Feng, D., Tian, L., Fu, M., and Zhou, Y. Ddelta: A dedulication-inspired
///  fast delta compression approach. Performance Evaluation 79 (2014), 258-271.
///
///  http://wxia.hustbackup.cn/pub/DElta-PEVA-2014.pdf
#[derive(Clone)]
pub struct Gear32<'a> {
    /// A mask with an appropriate number of bits set for the desired average chunk size.
    ///
    /// fixed configuration.
    mask: u32,

    /// value to match (fp & mask) against.
    ///
    /// fixed configuration.
    xxx: u32,

    /// A table to map bytes to 32bit values
    ///
    /// fixed configuration.
    gear: &'a [u32; 256],
}

#[derive(Debug, Default, PartialEq, Eq, Clone)]
pub struct GearState32 {
    /// current fingerprint/hash
    ///
    /// varying state.
    fp: Wrapping<u32>,
}

#[derive(Debug, Clone)]
pub struct GearIncr32<'a> {
    params: Gear32<'a>,

    state: GearState32,
}

impl<'a> Chunk for Gear32<'a> {
    type SearchState = GearState32;

    fn to_search_state(&self) -> Self::SearchState {
        Default::default()
    }

    fn find_chunk_edge(
        &self,
        state: &mut Self::SearchState,
        data: &[u8],
    ) -> (Option<usize>, usize) {
        for (i, v) in data.iter().enumerate() {
            if state.push(self, *v) {
                *state = self.to_search_state();
                return (Some(i + 1), i + 1);
            }
        }

        (None, data.len())
    }
}

impl<'a> ToChunkIncr for Gear32<'a> {
    type Incr = GearIncr32<'a>;

    fn to_chunk_incr(&self) -> Self::Incr {
        self.into()
    }
}

impl<'a> From<&Gear32<'a>> for GearIncr32<'a> {
    fn from(params: &Gear32<'a>) -> Self {
        Self {
            params: params.clone(),
            state: Default::default(),
        }
    }
}

impl<'a> fmt::Debug for Gear32<'a> {
    fn fmt(&self, fmt: &mut fmt::Formatter<'_>) -> fmt::Result {
        fmt.debug_struct(""Gear32"")
            .field(""mask"", &self.mask)
            .field(""xxx"", &self.xxx)
            .field(""gear"", &&self.gear[..])
            .finish()
    }
}

impl GearState32 {
    fn push(&mut self, params: &Gear32<'_>, add: u8) -> bool {
        self.fp = (self.fp << 1) + Wrapping(params.gear[add as usize]);
        self.fp.0 & params.mask == params.xxx
    }

    fn reset(&mut self) {
        self.fp.0 = 0;
    }
}

impl<'a> ChunkIncr for GearIncr32<'a> {
    fn push(&mut self, data: &[u8]) -> Option<usize> {
        for (i, v) in data.iter().enumerate() {
            if self.state.push(&self.params, *v) {
                self.state.reset();
                return Some(i);
            }
        }

        None
    }
}

fn msb_mask(log2: usize) -> u32 {
    // at least 1 bit & not all the bits
    // FIXME: probably could relax those requirements with better math.
    //debug_assert!(log2 > 0);
    //debug_assert!(log2 < 32);

    ((1 << log2) - 1) << (32 - log2)
}

impl<'a> Gear32<'a> {
    /// Create a gear chunker which emits blocks with average size `(1<<average_size_log2)`, (or:
    /// `2**average_size_log2`
    pub fn with_average_size_log2(average_size_log2: usize) -> Self {
        Gear32 {
            mask: msb_mask(average_size_log2),
            xxx: 0,
            gear: &super::gear_table::GEAR_32,
        }
    }
}

impl<'a> Default for Gear32<'a> {
    fn default() -> Self {
        // 8KB average size
        Self::with_average_size_log2(13)
    }
}

#[cfg(test)]
mod test {
    #[test]
    fn mm() {
        use super::msb_mask;
        assert_eq!(0b1 << 31, msb_mask(1));
        assert_eq!(0b11 << 30, msb_mask(2));
        assert_eq!(0b111 << 29, msb_mask(3));
    }
}
".

Definition src_pigz_rs : source :=
"#![cfg(feature = ""pigz"")]
use crate::{Chunk, ChunkIncr, ToChunkIncr};

#[derive(Clone, Debug, PartialEq, Eq)]
pub struct PigzRsyncable {
    bits: u8,

    /// directly derived from `bits`
    mask: u32,
    /// directly derived from `mask`
    hit: u32,
}

impl PigzRsyncable {
    pub fn with_bits(bits: u8) -> PigzRsyncable {
        let mask = (1 << bits) - 1;
        let hit = mask >> 1;
        PigzRsyncable { bits, mask, hit }
    }
}

impl Default for PigzRsyncable {
    fn default() -> Self {
        Self::with_bits(12)
    }
}

impl Chunk for PigzRsyncable {
    type SearchState = PigzRsyncableSearchState;

    fn to_search_state(&self) -> Self::SearchState {
        self.into()
    }

    fn find_chunk_edge(
        &self,
        state: &mut Self::SearchState,
        data: &[u8],
    ) -> (Option<usize>, usize) {
        for (i, v) in data.iter().enumerate() {
            if state.state.add(self, *v) {
                *state = self.to_search_state();
                return (Some(i + 1), i + 1);
            }
        }

        (None, data.len())
    }
}

impl From<&PigzRsyncable> for PigzRsyncableIncr {
    fn from(src: &PigzRsyncable) -> Self {
        src.clone().into()
    }
}

impl ToChunkIncr for PigzRsyncable {
    type Incr = PigzRsyncableIncr;
    fn to_chunk_incr(&self) -> Self::Incr {
        self.into()
    }
}

#[derive(Debug, Clone)]
struct PigzRsyncableState {
    hash: u32,
}

impl From<&PigzRsyncable> for PigzRsyncableState {
    fn from(params: &PigzRsyncable) -> Self {
        PigzRsyncableState { hash: params.hit }
    }
}

/// Intermediate state for [`PigzRsyncable::find_chunk_edge`]
///
/// Using this avoids re-computation of data when no edge is found
#[derive(Debug, Clone)]
pub struct PigzRsyncableSearchState {
    state: PigzRsyncableState,
}

impl From<&PigzRsyncable> for PigzRsyncableSearchState {
    fn from(params: &PigzRsyncable) -> Self {
        PigzRsyncableSearchState {
            state: params.into(),
        }
    }
}

/// Provides an incremental interface to [`PigzRsyncable`]
///
/// Performance Note: [`PigzRsyncable`] requires look-back. As a result, [`PigzRsyncableIncr`] internally
/// buffers data up to the window size. This additional copying may affect performance. If
/// possible for your use case, use the non-incremental interface.
///
/// See [`PigzRsyncable`] for details on the underlying algorithm
#[derive(Debug, Clone)]
pub struct PigzRsyncableIncr {
    params: PigzRsyncable,
    state: PigzRsyncableState,
}

impl PigzRsyncableIncr {}

impl From<PigzRsyncable> for PigzRsyncableIncr {
    fn from(params: PigzRsyncable) -> Self {
        let state = (&params).into();
        PigzRsyncableIncr { params, state }
    }
}

impl PigzRsyncableState {
    fn add(&mut self, parent: &PigzRsyncable, v: u8) -> bool {
        self.hash = ((self.hash << 1) ^ (v as u32)) & parent.mask;
        self.hash == parent.hit
    }
}

impl ChunkIncr for PigzRsyncableIncr {
    fn push(&mut self, data: &[u8]) -> Option<usize> {
        for (i, &v) in data.iter().enumerate() {
            if self.state.add(&self.params, v) {
                self.state = (&self.params).into();
                return Some(i + 1);
            }
        }

        None
    }
}
".

Definition src_gzip_rs : source :=
"#![cfg(feature = ""gzip"")]

//! gzip (forks) rsyncable mode that uses a simple window accumulator
//!
//! **WARNING: not validated against gzip or rsyncrypto algorithms. Output may change to fix bugs**
//!
//! A widely distributed patch for gzip adds a `--rsyncable` flag which causes `gzip` to split it's
//! input on ""stable"" boundaries. This module impliments the algorithm used in that patch.
//!
//! The same algorithm is used by the `rsyncrypto` project.
//!
//!  - No maximum block size is provided.
//!  - No minimum block size is provided.
//!
//! PDF of block sizes: ???
//!
//! Note that the defacto-standard parameters allow a slightly more efficient check for a block
//! split (by replacing a modulus with a bitwise-and). This impl currently doesn't allow that
//! optimization even if you provide appropriate parameters (we need type-level integers for that).
//!
//! Parameters:
//!
//!  - window-len: The maximum number of bytes to be examined when deciding to split a block.
//!              set to 8192 by default in gzip-rsyncable & rsyncrypto)
//!  - modulus:    set to half of window-len (so, 4096) in gzip-rsyncable & rsyncrypto.
//!
//! In-block state:
//!  - window of window-len bytes (use of the iterator interface means we also track more bytes than
//!      this)
//!  - sum (u64)
//!
//! Between-block state:
//!
//! - none
//!
//! References:
//!
//! - http://rsyncrypto.lingnu.com/index.php/Algorithm
//! - https://www.samba.org/~tridge/phd_thesis.pdf
//!
//! S(n) = sum(c_i, var=i, top=n, bottom=n-8196)
//!
//! A(n) = S(n) / 8192
//!
//! H(n) = S(n) mod 4096
//!
//! Trigger splits when H(n) == 0

use crate::{Chunk, ChunkIncr, ToChunkIncr};
use std::collections::VecDeque;
use std::num::Wrapping;

/// Parameters for defining the gzip rsyncable algorithm
#[derive(Clone, Debug, PartialEq, Eq)]
pub struct GzipRsyncable {
    /*
     * TODO: if we can avoid loading entire files into memory, this could be u64
     */
    window_len: usize,
    modulus: u64,
}

impl GzipRsyncable {
    pub fn with_window_and_modulus(window: usize, modulus: u64) -> GzipRsyncable {
        Self {
            window_len: window,
            modulus,
        }
    }
}

impl Default for GzipRsyncable {
    fn default() -> Self {
        Self::with_window_and_modulus(8192, 4096)
    }
}

impl Chunk for GzipRsyncable {
    type SearchState = GzipRsyncableSearchState;

    fn to_search_state(&self) -> Self::SearchState {
        Self::SearchState::default()
    }

    fn find_chunk_edge(
        &self,
        state: &mut Self::SearchState,
        data: &[u8],
    ) -> (Option<usize>, usize) {
        for i in state.offset..data.len() {
            let v = data[i];

            if state.state.add(data, self, i, v) {
                state.reset();
                return (Some(i + 1), i + 1);
            }
        }

        // keep k elements = discard all but k
        let discard_ct = data.len().saturating_sub(self.window_len);
        state.offset = data.len() - discard_ct;
        (None, discard_ct)
    }
}

impl From<&GzipRsyncable> for GzipRsyncableIncr {
    fn from(src: &GzipRsyncable) -> Self {
        src.clone().into()
    }
}

impl ToChunkIncr for GzipRsyncable {
    type Incr = GzipRsyncableIncr;
    fn to_chunk_incr(&self) -> Self::Incr {
        self.into()
    }
}

#[derive(Debug, Default, Clone)]
struct GzipRsyncableState {
    accum: Wrapping<u64>,
}

impl GzipRsyncableState {
    fn reset(&mut self) {
        self.accum.0 = 0;
    }
}

/// Intermediate state for [`GzipRsyncable::find_chunk_edge`]
///
/// Using this avoids re-computation of data when no edge is found
#[derive(Debug, Default, Clone)]
pub struct GzipRsyncableSearchState {
    offset: usize,
    state: GzipRsyncableState,
}

impl GzipRsyncableSearchState {
    fn reset(&mut self) {
        self.offset = 0;
        self.state.reset();
    }
}

/// Provides an incremental interface to [`GzipRsyncable`]
///
/// Performance Note: [`GzipRsyncable`] requires look-back. As a result, [`GzipRsyncableIncr`] internally
/// buffers data up to the window size. This additional copying may affect performance. If
/// possible for your use case, use the non-incremental interface.
///
/// See [`GzipRsyncable`] for details on the underlying algorithm
#[derive(Debug, Clone)]
pub struct GzipRsyncableIncr {
    params: GzipRsyncable,

    accum: Wrapping<u64>,
    // really poor efficiency
    window: VecDeque<u8>,
}

impl GzipRsyncableIncr {
    fn reset(&mut self) {
        self.window.clear();
        self.accum = Wrapping(0);
    }
}

impl From<GzipRsyncable> for GzipRsyncableIncr {
    fn from(params: GzipRsyncable) -> Self {
        let window = VecDeque::with_capacity(params.window_len);
        GzipRsyncableIncr {
            params,
            accum: Wrapping(0),
            window,
        }
    }
}

impl GzipRsyncableState {
    fn add(&mut self, data: &[u8], parent: &GzipRsyncable, i: usize, v: u8) -> bool {
        if i >= parent.window_len {
            self.accum -= Wrapping(data[i - parent.window_len] as u64);
        }
        self.accum += Wrapping(v as u64);
        (self.accum % Wrapping(parent.modulus)).0 == 0
    }
}

impl ChunkIncr for GzipRsyncableIncr {
    fn push(&mut self, data: &[u8]) -> Option<usize> {
        for (i, &v) in data.iter().enumerate() {
            if self.window.len() >= self.params.window_len {
                self.accum -= Wrapping(self.window.pop_front().unwrap() as u64);
            }

            self.accum += Wrapping(v as u64);
            self.window.push_back(v);

            if (self.accum % Wrapping(self.params.modulus)).0 == 0 {
                self.reset();
                return Some(i + 1);
            }
        }

        None
    }
}
".

Definition src_fastcdc_rs : source :=
"#![cfg(feature = ""fastcdc"")]

//! FastCDC is a chunking algorithm using some features from [Gear](super::gear)
//!
//! Reference:
//!  - https://www.usenix.org/system/files/conference/atc16/atc16-paper-xia.pdf

use crate::{Chunk, ChunkIncr, ToChunkIncr};
use std::fmt;
use std::num::Wrapping;

// these masks are taken from the paper and could be adjusted/adjustable.
const MASK_S: u64 = 0x0003590703530000;
//const MASK_A: u64 = 0x0000d90303530000;
const MASK_L: u64 = 0x0000d90003530000;

/// An instance of the ""FastCDC"" algorithm
///
/// Default parameters:
///  - Minimum chunk size: 2 KiB
///  - Maximum chunk size: 64 KiB
///  - Normal size: 8 KiB
///  - internal 64-bit gear table: [`super::gear_table::GEAR_64`]
///
#[derive(Clone, Copy)]
pub struct FastCdc<'a> {
    gear: &'a [u64; 256],
    min_size: u64,
    max_size: u64,
    normal_size: u64,
}

impl<'a> PartialEq for FastCdc<'a> {
    fn eq(&self, other: &Self) -> bool {
        self.min_size == other.min_size
            && self.max_size == other.max_size
            && self.normal_size == other.normal_size
            && self.gear[..] == other.gear[..]
    }
}

impl<'a> Eq for FastCdc<'a> {}

impl<'a> Default for FastCdc<'a> {
    fn default() -> Self {
        FastCdc {
            min_size: 2 * 1024,    // 2 KiB
            max_size: 64 * 1024,   // 64 KiB
            normal_size: 8 * 1024, // 8 KiB
            gear: &super::gear_table::GEAR_64,
        }
    }
}

impl<'a> fmt::Debug for FastCdc<'a> {
    fn fmt(&self, f: &mut fmt::Formatter<'_>) -> fmt::Result {
        f.debug_struct(""FastCdc"")
            .field(""gear"", &""[...]"")
            .field(""min_size"", &self.min_size)
            .field(""max_size"", &self.max_size)
            .field(""normal_size"", &self.normal_size)
            .finish()
    }
}

impl<'a> Chunk for FastCdc<'a> {
    type SearchState = FastCdcState;

    fn to_search_state(&self) -> Self::SearchState {
        Default::default()
    }

    fn find_chunk_edge(
        &self,
        state: &mut Self::SearchState,
        data: &[u8],
    ) -> (Option<usize>, usize) {
        match state.push(self, data) {
            Some(i) => (Some(i + 1), i + 1),
            None => (None, data.len()),
        }
    }
}

impl<'a> FastCdc<'a> {
    /// Create a custom FastCDC instance
    pub fn new(gear: &'a [u64; 256], min_size: u64, normal_size: u64, max_size: u64) -> Self {
        Self {
            gear,
            min_size,
            max_size,
            normal_size,
        }
    }
}

impl<'a> ToChunkIncr for FastCdc<'a> {
    type Incr = FastCdcIncr<'a>;

    fn to_chunk_incr(&self) -> Self::Incr {
        self.into()
    }
}

impl<'a> From<&FastCdc<'a>> for FastCdcIncr<'a> {
    fn from(params: &FastCdc<'a>) -> Self {
        Self {
            params: *params,
            state: Default::default(),
        }
    }
}

/// FastCdcIncr provides an incrimental interface to `FastCdc`
///
/// This impl does not buffer data passing through it (the FastCDC algorithm does not require
/// look-back) making it very efficient.
#[derive(Debug, Clone, PartialEq, Eq, Default)]
pub struct FastCdcIncr<'a> {
    params: FastCdc<'a>,
    state: FastCdcState,
}

#[derive(Debug, Clone, PartialEq, Eq, Default)]
pub struct FastCdcState {
    /// Number of bytes we've ""examined""
    ///
    /// varying state.
    l: u64,

    /// Current fingerprint
    ///
    /// varying state.
    fp: Wrapping<u64>,
}

impl FastCdcState {
    fn reset(&mut self) {
        self.l = 0;
        self.fp = Wrapping(0);
    }

    fn push(&mut self, params: &FastCdc<'_>, data: &[u8]) -> Option<usize> {
        // global start/index
        let mut gi = self.l;
        // global end
        let ge = data.len() as u64 + gi;

        if ge <= params.min_size {
            // No split, no processing of data, but we've ""consumed"" the bytes.
            self.l = ge;
            return None;
        }

        // skip elements prior to MIN_SIZE and track offset of new `data` in argument `data` for
        // return value
        let mut i = if gi <= params.min_size {
            let skip = params.min_size - gi;
            gi += skip;
            skip
        } else {
            0
        } as usize;

        let mut fp = self.fp;

        loop {
            if i >= data.len() {
                break;
            }
            if gi >= params.normal_size {
                // go to next set of matches
                break;
            }

            let v = data[i];
            fp = (fp << 1) + Wrapping(params.gear[v as usize]);
            if (fp.0 & MASK_S) == 0 {
                self.reset();
                return Some(i);
            }

            gi += 1;
            i += 1;
        }

        loop {
            if gi >= params.max_size {
                // no match found, emit fixed match at MAX_SIZE
                self.reset();
                return Some(i);
            }
            if i >= data.len() {
                break;
            }

            let v = data[i];
            fp = (fp << 1) + Wrapping(params.gear[v as usize]);
            if (fp.0 & MASK_L) == 0 {
                self.reset();
                return Some(i);
            }

            gi += 1;
            i += 1;
        }

        // no match, but not at MAX_SIZE yet, so store context for next time.
        self.fp = fp;
        self.l = ge;

        None
    }
}

impl<'a> ChunkIncr for FastCdcIncr<'a> {
    fn push(&mut self, src: &[u8]) -> Option<usize> {
        self.state.push(&self.params, src)
    }
}
".

Definition src_bup_rs : source :=
"use crate::{Chunk, ChunkIncr, ToChunkIncr};
use std::fmt;
use std::num::Wrapping;

const BLOBBITS: u8 = 13;
const BLOBSIZE: u32 = 1 << (BLOBBITS as u32);

const WINDOW_BITS: u8 = 6;
const WINDOW_SIZE: usize = 1 << (WINDOW_BITS as usize);

const ROLLSUM_CHAR_OFFSET: usize = 31;

/// Rolling sum used by [`Bup`] for splitting
///
/// - https://github.com/bup/bup/blob/0ab7c3a958729b4723e6fe254da771aff608c2bf/lib/bup/bupsplit.c
/// - https://github.com/bup/bup/blob/0ab7c3a958729b4723e6fe254da771aff608c2bf/lib/bup/bupsplit.h
///
#[derive(Debug, Clone, PartialEq, Eq)]
pub struct RollSum {
    window_len: usize,
}

impl ToChunkIncr for RollSum {
    type Incr = RollSumIncr;

    fn to_chunk_incr(&self) -> Self::Incr {
        self.into()
    }
}

impl RollSum {
    pub fn with_window(window_len: usize) -> Self {
        Self { window_len }
    }
}

impl Chunk for RollSum {
    type SearchState = RollSumSearchState;

    fn to_search_state(&self) -> Self::SearchState {
        self.into()
    }

    fn find_chunk_edge(
        &self,
        state: &mut Self::SearchState,
        data: &[u8],
    ) -> (Option<usize>, usize) {
        for i in state.offset..data.len() {
            let a = data[i];
            let d = if i >= self.window_len {
                data[i - self.window_len]
            } else {
                0
            };

            state.state.add(self.window_len, d, a);

            if state.state.at_split() {
                state.reset(self);
                return (Some(i + 1), i + 1);
            }
        }

        // keep k elements = discard all but k
        let discard_ct = data.len().saturating_sub(self.window_len);
        state.offset = data.len() - discard_ct;
        (None, discard_ct)
    }
}

#[derive(Debug, Clone, PartialEq, Eq)]
pub struct RollSumState {
    // NOTE: in bup, these are `unsigned`, but masking indicates they'll end up being used as
    // u16's. In `librsync`, these are `uint_fast16_t`, which end up being u32 on most platforms.
    // Both only require `u16` values to be represented. We use `u32` here as it's likely to be
    // somewhat more performant, but this should be examined
    s1: Wrapping<u32>,
    s2: Wrapping<u32>,
}

impl From<&RollSum> for RollSumState {
    fn from(s: &RollSum) -> Self {
        let ws = Wrapping(s.window_len as u32);
        // NOTE: bup uses this initialization, but librsync uses zeros.
        //
        // I believe the idea is to allow a slightly different implimentation of the ""setup""
        // portion of the processing (ie: before the window is filled)
        Self {
            s1: ws * Wrapping(ROLLSUM_CHAR_OFFSET as u32),
            s2: ws * (ws - Wrapping(1)) * Wrapping(ROLLSUM_CHAR_OFFSET as u32),
        }
    }
}

impl RollSumState {
    fn reset(&mut self, params: &RollSum) {
        *self = params.into()
    }
}

#[derive(Debug, Clone, PartialEq, Eq)]
pub struct RollSumSearchState {
    state: RollSumState,
    offset: usize,
}

impl From<&RollSum> for RollSumSearchState {
    fn from(s: &RollSum) -> Self {
        Self {
            state: s.into(),
            offset: 0,
        }
    }
}

impl RollSumSearchState {
    fn reset(&mut self, params: &RollSum) {
        self.offset = 0;
        self.state.reset(params);
    }
}

impl Default for RollSum {
    fn default() -> Self {
        Self::with_window(WINDOW_SIZE)
    }
}

/// Incrimental instance of [`RollSum`]
///
/// Performance note: Bup's Roll sum algorithm requires tracking the entire window. As a result,
/// this includes a circular buffer which all inputs are copied through. If your use case allows
/// it, use the non-incrimental variant for improved performance.
#[derive(Clone, PartialEq, Eq)]
pub struct RollSumIncr {
    state: RollSumState,

    /// window offset
    wofs: Wrapping<usize>,
    window: Box<[u8]>,
}

impl fmt::Debug for RollSumIncr {
    fn fmt(&self, f: &mut ::std::fmt::Formatter<'_>) -> Result<(), ::std::fmt::Error> {
        f.debug_struct(""RollSumIncr"")
            .field(""state"", &self.state)
            .field(""window"", &::fmt_extra::Hs(&self.window[..]))
            .field(""wofs"", &self.wofs)
            .finish()
    }
}

impl From<&RollSum> for RollSumIncr {
    fn from(params: &RollSum) -> Self {
        Self {
            state: params.into(),
            window: vec![0; params.window_len].into_boxed_slice(),
            wofs: Wrapping(0),
        }
    }
}

impl Default for RollSumIncr {
    fn default() -> Self {
        (&RollSum::default()).into()
    }
}

impl RollSumState {
    fn add(&mut self, window_len: usize, drop: u8, add: u8) {
        let d = Wrapping(drop as u32);
        self.s1 += Wrapping(add as u32);
        self.s1 -= d;
        self.s2 += self.s1;
        self.s2 -= Wrapping(window_len as u32) * (d + Wrapping(ROLLSUM_CHAR_OFFSET as u32));
    }

    fn digest(&self) -> u32 {
        (self.s1.0 << 16) | (self.s2.0 & 0xffff)
    }

    fn at_split(&self) -> bool {
        (self.digest() & (BLOBSIZE - 1)) == (BLOBSIZE - 1)
    }
}

impl RollSumIncr {
    pub fn digest(&self) -> u32 {
        self.state.digest()
    }

    fn add(&mut self, drop: u8, add: u8) {
        self.state.add(self.window.len(), drop, add);
    }

    pub fn roll_byte(&mut self, ch: u8) {
        let w = self.window[self.wofs.0];
        self.add(w, ch);
        self.window[self.wofs.0] = ch;
        self.wofs = Wrapping((self.wofs + Wrapping(1)).0 & (self.window.len() - 1));
    }

    #[cfg(test)]
    pub(crate) fn roll(&mut self, data: &[u8]) {
        for &i in data.iter() {
            self.roll_byte(i);
        }
    }

    /*
    fn sum(data: &[u8]) -> u32 {
        let mut x = Self::default();
        x.roll(data);
        x.digest()
    }
    */

    pub fn at_split(&self) -> bool {
        self.state.at_split()
    }
}

impl ChunkIncr for RollSumIncr {
    fn push(&mut self, data: &[u8]) -> Option<usize> {
        for (i, &v) in data.iter().enumerate() {
            self.roll_byte(v);
            if self.at_split() {
                return Some(i + 1);
            }
        }

        None
    }
}

#[cfg(test)]
mod test {
    use super::*;
    use rand::RngCore;
    use rollsum::Engine;

    #[test]
    fn rs() {
        let mut m = RollSumIncr::default();
        m.roll_byte(3);
        assert_eq!(m.digest(), 130279491);
    }

    #[test]
    fn compare_rollsum() {
        let mut m1 = RollSumIncr::default();
        let mut m2 = rollsum::Bup::default();

        assert_eq!(m1.digest(), m2.digest());

        m1.roll_byte(4);
        m2.roll_byte(4);

        assert_eq!(m1.digest(), m2.digest());

        m1.roll_byte(18);
        m2.roll_byte(18);

        assert_eq!(m1.digest(), m2.digest());

        let mut r = rand::thread_rng();
        let mut b = [0u8; 2048];

        r.fill_bytes(&mut b);

        for (i, &v) in b.iter().enumerate() {
            m1.roll_byte(v);
            m2.roll_byte(v);
            println!(""i={}, v={}"", i, v);
            assert_eq!(m1.digest(), m2.digest());
        }

        m1.roll(&b);
        m2.roll(&b);

        assert_eq!(m1.digest(), m2.digest());
    }

    #[test]
    fn compare_bup() {
        use super::ChunkIncr;
        let mut m1 = RollSumIncr::default();
        let mut m2 = rollsum::Bup::default();

        let mut r = rand::thread_rng();
        let mut b = [0u8; 2048];

        r.fill_bytes(&mut b);

        let mut x = &b[..];
        loop {
            let v1 = m1.push(&x);
            let v2 = m2.find_chunk_edge(&x);
            assert_eq!(v1, v2.map(|x| x.0));

            match v1 {
                None => break,
                Some(v) => {
                    x = &x[v..];
                }
            }
        }
    }
}
".

Definition src_buzhash_rs : source :=
"#![cfg(feature = ""buzhash"")]

//! BuzHash (aka Cyclic Polynomial Hashing) is a window based rolling hash
//!
//! BuzHash with various chunk-splitting methods is used in:
//!   - [Borg](https://github.com/borgbackup/borg)
//!      - https://github.com/borgbackup/borg/blob/master/src/borg/_chunker.c
//!   - [Attic](https://github.com/jborg/attic)
//!     - https://github.com/jborg/attic/blob/master/attic/_chunker.c
//!   - [silvasur/buzhash](https://github.com/silvasur/buzhash), in turn used in:
//!     - [attic-labs/nom](https://github.com/attic-labs/noms/blob/26620a34bc8c95812037588869d4790b5581b34d/go/types/rolling_value_hasher.go#L15-L21)
//!     - [dolt](https://github.com/liquidata-inc/dolt)
//!   - [casync](https://github.com/systemd/casync/blob/master/src/cachunker.c)
//!
//! Documentation:
//!
//! - [Recursive Hashing Functions for n-Grams, JONATHAN D. COHEN](https://www.csee.umbc.edu/courses/graduate/676/recursivehashingp291-cohen)
//! - [""Cyclic Polynomial"", Rolling Hashes, Wikipedia](https://en.wikipedia.org/wiki/Rolling_hash#cite_ref-3)
//!
use crate::{Chunk, ChunkIncr, ToChunkIncr};
use std::fmt;
use std::num::Wrapping;
/* Cyclic polynomial (buzhash)
 *
 * H = s ** (k -1) (h(c_1)) ^ s**(k-2)(h(c_2)) ^ ... ^ s(h(c_(k-1))) ^ h(c_k)
 * where s(x) is a barrel shift of x (ABCDEFG becomes BCDEFGA, where each letter is a bit)
 * s**y(x) is application of s(n) y times.
 *
 * Application:
 *
 *  - H <- s(H)
 *  - c_1 <- s**k(h(c_1))
 *  - H <- s(H) ^ s**k(h(c_1)) ^ h(c_(k+1))
 *
 *  Where c_1 is the character to remove,
 *      c_(k+1) is the character to add
 *
 * Parameters:
 *  - k: number of inputs to contain (can be un-capped?)
 *  - h: a hash function from inputs to integers on [2, 2**L)
 *
 * State:
 *  - every input contained in the hash (if removal is required)
 *  - previous hash result
 */

/// Describes an instance of BuzHash (aka cyclic polynomial hash).
///
/// Provides parameterization over the window size (`k`), hash function (`h`), chunk edge mask, and
/// max chunk size.
///
/// Uses fixed 32-bit width for the hash.
///
/// The trait [`BuzHashHash`] provides the internal hash function, see the implimentations of it
/// for built-in hash options (which include both `Borg` and `silvasur/buzhash`'s internal hash
/// tables).
///
/// Note that it's helpful for `k` to be prime to prevent repeating strings form resulting
/// in total cancelation of the internal hash, which can cause overly long chunks.
///
/// Adjusting `mask` changes the average chunk size.
///
/// # Performance
///
/// [`BuzHash`] requires storing bytes equal to it's window size (`k`). Because of this,
/// [`BuzHashIncr`] may have poor performance compared to [`BuzHash::find_chunk_edge()`].
#[derive(Debug, Clone, PartialEq, Eq)]
pub struct BuzHash<H: BuzHashHash> {
    /// number of characters to consider at once
    k: usize,

    /// A hash function over a single byte that emits a 32-bit value
    h: H,

    /// the 1 bits indicates the bit in the hash which must be 1 to form a chunk edge
    /// (called `pattern` in `attic-labs/nom`)
    mask: u32,

    /// if the index grows _above_ this size, a chunk edge is formed
    max_chunk_size: u64,
}

impl<H: BuzHashHash> BuzHash<H> {
    /// Create an instance with the given capacity (k) and chunk termination `mask`, and a internal
    /// `hash` function.
    ///
    /// `capacity` is the number of bytes that are taken into account for a given hash.
    /// `mask` affects how chunk edges are determined.
    /// `hash` is applied to each byte of input prior to mixing into the rolling hash.
    pub fn new(capacity: usize, mask: u32, hash: H, max_chunk_size: u64) -> Self {
        assert!(capacity > 0);
        BuzHash {
            k: capacity,
            h: hash,
            mask,
            max_chunk_size,
        }
    }

    // fn new_attic()
    // fn new_bup()
}

impl<'a> BuzHash<BuzHashTableByteSaltHash<'a>> {
    /// Create a buzhash instance using defaults from attic-labs/nom version 7.17
    ///
    /// - `k: 67`
    /// - `hash` is the `silvasur/buzhash` table
    /// - `mask: 1<<12 -1`
    /// - `max_chunk_size: 1 << 24`
    pub fn new_nom(salt: u8) -> Self {
        BuzHash::new(
            67,
            (1 << 12u32) - 1,
            BuzHashTableByteSaltHash::from((salt, &crate::buzhash_table::GO_BUZHASH)),
            1 << 24,
        )
    }
}

impl<H: BuzHashHash + Clone> Chunk for BuzHash<H> {
    type SearchState = BuzHashSearchState;

    fn to_search_state(&self) -> Self::SearchState {
        Self::SearchState::default()
    }

    fn find_chunk_edge(
        &self,
        state: &mut Self::SearchState,
        data: &[u8],
    ) -> (Option<usize>, usize) {
        for i in state.offset..data.len() {
            state.state.add_buf(data, self, i);

            if (state.state.h & self.mask) == self.mask {
                state.reset();
                return (Some(i + 1), i + 1);
            }

            /*
             * broken: `i` is not the number of bytes since prev chunk.
             * need to track internal last chunk
            if i as u64 > self.max_chunk_size {
                state.reset();
                println!("" <- CHUNK: {}"", i + 1);
                return (Some(i + 1), i + 1);
            }
            */
        }

        // keep k elements = discard all but k
        let discard_ct = data.len().saturating_sub(self.k);
        state.offset = data.len() - discard_ct;
        (None, discard_ct)
    }
}

impl<H: BuzHashHash + Clone> From<&BuzHash<H>> for BuzHashIncr<H> {
    fn from(src: &BuzHash<H>) -> Self {
        src.clone().into()
    }
}

impl<H: BuzHashHash + Clone> ToChunkIncr for BuzHash<H> {
    type Incr = BuzHashIncr<H>;
    fn to_chunk_incr(&self) -> Self::Incr {
        self.into()
    }
}

#[derive(Debug, Clone, PartialEq, Eq, Default)]
pub struct BuzHashSearchState {
    offset: usize,
    state: BuzHashState,
}

impl BuzHashSearchState {
    fn reset(&mut self) {
        self.offset = 0;
        self.state.reset();
    }
}

#[derive(Debug, Clone, PartialEq, Eq, Default)]
struct BuzHashState {
    /// current value of the hash.
    h: u32,
}

impl BuzHashState {
    fn reset(&mut self) {
        self.h = 0;
    }

    fn add_buf<H: BuzHashHash>(&mut self, data: &[u8], params: &BuzHash<H>, i: usize) {
        if i >= params.k {
            // need to find and ""remove"" a entry
            let drop_i = i - params.k;
            let drop = data[drop_i];
            self.add_overflow(params, data[i], drop);
        } else {
            // no removal
            self.add(params, data[i]);
        }
    }

    // insert, assuming no overflow
    fn add<H: BuzHashHash>(&mut self, params: &BuzHash<H>, v: u8) {
        self.h = self.h.rotate_left(1) ^ params.h.hash(v);
    }

    // insert with overflow
    fn add_overflow<H: BuzHashHash>(&mut self, params: &BuzHash<H>, add_v: u8, remove_v: u8) {
        let h = self.h.rotate_left(1);
        // need to find and ""remove"" a entry
        let drop = params.h.hash(remove_v).rotate_left((params.k % 8) as u32);
        self.h = h ^ drop ^ params.h.hash(add_v);
    }
}

/// Self-contained buzhash which buffers it's window of values internally
///
/// Note that this will be less efficient than using [`BuzHash`] on a slice directly,
/// but may be more convenient.
#[derive(Debug, Clone, PartialEq, Eq)]
pub struct BuzHashIncr<H: BuzHashHash> {
    params: BuzHash<H>,
    state: BuzHashState,
    buf: Box<[u8]>,
    buf_idx: Wrapping<usize>,
    input_idx: u64,
}

impl<H: BuzHashHash> ChunkIncr for BuzHashIncr<H> {
    /// Return the index in `data` immeidately following the hash matching.
    ///
    /// Note that you can call this multiple times to examine ""subsequent"" `data` slices, but the
    /// index returned will always refer to the current `data` slice.
    fn push(&mut self, data: &[u8]) -> Option<usize> {
        for (i, &v) in data.iter().enumerate() {
            self.push_byte(v);
            if (self.state.h & self.params.mask) == self.params.mask {
                self.reset();
                return Some(i + 1);
            }

            if self.input_idx > self.params.max_chunk_size {
                self.reset();
                return Some(i + 1);
            }
        }

        None
    }
}

impl<H: BuzHashHash> BuzHashIncr<H> {
    fn reset(&mut self) {
        self.buf_idx = Wrapping(0);
        self.input_idx = 0;
        self.state.reset();
    }

    fn push_byte(&mut self, val: u8) {
        if self.input_idx >= self.params.k as u64 {
            let o = self.buf[self.buf_idx.0];
            self.state.add_overflow(&self.params, val, o);
        } else {
            self.state.add(&self.params, val);
        }

        self.buf[self.buf_idx.0] = val;

        self.buf_idx += Wrapping(1);
        self.buf_idx.0 %= self.params.k;
        self.input_idx += 1;
    }
}

impl<H: BuzHashHash> From<BuzHash<H>> for BuzHashIncr<H> {
    fn from(params: BuzHash<H>) -> Self {
        let buf = vec![0; params.k].into_boxed_slice();
        Self {
            params,
            state: Default::default(),
            buf,
            buf_idx: Wrapping(0),
            input_idx: 0,
        }
    }
}

/// The internal byte to u32 mapping used in buzhash
pub trait BuzHashHash {
    fn hash(&self, data: u8) -> u32;
}

/// Use a referenced table to preform the `BuzHashHash` internal hashing
#[derive(Clone)]
pub struct BuzHashTableHash<'a> {
    table: &'a [u32; 256],
}

impl<'a> fmt::Debug for BuzHashTableHash<'a> {
    fn fmt(&self, fmt: &mut fmt::Formatter<'_>) -> fmt::Result {
        fmt.debug_struct(""BuzHashTableHash"").finish()
    }
}

impl<'a> From<&'a [u32; 256]> for BuzHashTableHash<'a> {
    fn from(table: &'a [u32; 256]) -> Self {
        Self { table }
    }
}

impl<'a> BuzHashHash for BuzHashTableHash<'a> {
    fn hash(&self, data: u8) -> u32 {
        self.table[data as usize]
    }
}

/// Use a owned table to perform the `BuzHashHash` internal hashing
#[derive(Clone)]
pub struct BuzHashTableBufHash {
    table: Box<[u32; 256]>,
}

impl fmt::Debug for BuzHashTableBufHash {
    fn fmt(&self, fmt: &mut fmt::Formatter<'_>) -> fmt::Result {
        fmt.debug_struct(""BuzHashTableBufHash"").finish()
    }
}

impl<'a> From<Box<[u32; 256]>> for BuzHashTableBufHash {
    fn from(table: Box<[u32; 256]>) -> Self {
        Self { table }
    }
}

impl BuzHashHash for BuzHashTableBufHash {
    fn hash(&self, data: u8) -> u32 {
        self.table[data as usize]
    }
}

/// Lookup up in a table, after applying a salt via xor to the input byte
///
/// Used by attic-labs/nom
#[derive(Clone)]
pub struct BuzHashTableByteSaltHash<'a> {
    table: &'a [u32; 256],
    salt: u8,
}

impl<'a> fmt::Debug for BuzHashTableByteSaltHash<'a> {
    fn fmt(&self, fmt: &mut fmt::Formatter<'_>) -> fmt::Result {
        fmt.debug_struct(""BuzHashTableByteSaltHash"").finish()
    }
}

impl<'a> From<(u8, &'a [u32; 256])> for BuzHashTableByteSaltHash<'a> {
    fn from((salt, table): (u8, &'a [u32; 256])) -> Self {
        Self { table, salt }
    }
}

impl<'a> BuzHashHash for BuzHashTableByteSaltHash<'a> {
    fn hash(&self, data: u8) -> u32 {
        self.table[(data ^ self.salt) as usize]
    }
}
".

Definition src_buzhash_table_rs : source :=
"/// https://github.com/silvasur/buzhash/blob/9bdec3dec7c611fa97beadc374d75bdf02cd880e/hash.go#L13-L57
///
/// used by attic & attic-labs/nom
pub const GO_BUZHASH: [u32; 256] = [
    0x12bd9527, 0xf4140cea, 0x987bd6e1, 0x79079850, 0xafbfd539, 0xd350ce0a, 0x82973931, 0x9fc32b9c,
    0x28003b88, 0xc30c13aa, 0x6b678c34, 0x5844ef1d, 0xaa552c18, 0x4a77d3e8, 0xd1f62ea0, 0x6599417c,
    0xfbe30e7a, 0xf9e2d5ee, 0xa1fca42e, 0x41548969, 0x116d5b59, 0xaeda1e1a, 0xc5191c17, 0x54b9a3cb,
    0x727e492a, 0x5c432f91, 0x31a50bce, 0xc2696af6, 0x217c8020, 0x1262aefc, 0xace75924, 0x9876a04f,
    0xaf300bc2, 0x3ffce3f6, 0xd6680fb5, 0xd0b1ced8, 0x6651f842, 0x736fadef, 0xbc2d3429, 0xb03d2904,
    0x7e634ba4, 0xdfd87d8c, 0x7988d63a, 0x4be4d933, 0x6a8d0382, 0x9e132d62, 0x3ee9c95f, 0xfec05b97,
    0x6907ad34, 0x8616cfcc, 0xa6aabf24, 0x8ad1c92e, 0x4f2affc0, 0xb87519db, 0x6576eaf6, 0x15dbe00a,
    0x63e1dd82, 0xa36b6a81, 0xeead99b3, 0xbc6a4309, 0x3478d1a7, 0x2182bcc0, 0xdd50cfce, 0x7cb25580,
    0x73075483, 0x503b7f42, 0x4cd50d63, 0x3f4d94c9, 0x385fcbb7, 0x90daf16c, 0xece10b8e, 0x11c1cb04,
    0x816a899b, 0x69a29d06, 0xfb090b37, 0xf98ef13c, 0x07653435, 0x9f15dc42, 0x3b43abdf, 0x1334283f,
    0x93f3d9af, 0x0cbdfe71, 0xa788a614, 0x4f54d2f0, 0xd4374fc7, 0x70557ce7, 0xf741fce8, 0xe4b6f661,
    0xc630cb98, 0x387a6366, 0x72f428fd, 0x539009db, 0xc53e3810, 0x1e1a52e5, 0x7d6816b0, 0x040f9b81,
    0x9c99c9fb, 0x9f3af3d2, 0x774d1061, 0xd5c840ea, 0x8e1480fe, 0x6ee4023c, 0x2fbda535, 0xd88eff7a,
    0xd8632a2a, 0x43c4e024, 0x3ef27971, 0xc72866fd, 0xe35cc630, 0x46d96220, 0x437a8384, 0xe92caf0c,
    0x6290a47e, 0xa7bb9238, 0x0e1000f9, 0x49e76bdc, 0x3acfb4b8, 0x03582b8e, 0x6ea2de4e, 0x2ec1008d,
    0xfcc8df69, 0x91c2fe0a, 0xb471c7d9, 0x778be812, 0x70d29ad1, 0x76411cbf, 0xc302e81c, 0x4e445194,
    0x22e3aa72, 0xb65762e9, 0xa280db05, 0x827aa70e, 0x4c531a9d, 0x7a60bf4a, 0x8fd95a44, 0x2289aef0,
    0xcd50ddc4, 0x639aae69, 0x5fe85ed6, 0x4ed724ff, 0x00f04f7d, 0x95a5fcb0, 0x88255d15, 0xa603d2c9,
    0xf6956a5b, 0x53ea7f3e, 0xb570f225, 0x2b3be203, 0xa181e40e, 0xc413cdce, 0xa7cb1ebb, 0xcf258b1f,
    0x516eb016, 0xca204586, 0xd1e69894, 0xe85a73d3, 0x7db2d382, 0xae73b463, 0x3598d643, 0x5087c864,
    0xd91f30b6, 0xe1d4d1e7, 0x73b3b337, 0xceac1233, 0x8edf7845, 0xa69c45c9, 0xdb5db3ab, 0x28cfade8,
    0xebfa49e7, 0xcbc2a659, 0x59cce971, 0x959a01af, 0x8ee9aae7, 0xfb2f01c6, 0x5a752836, 0x9ed12981,
    0x618d05b6, 0x93ec12b3, 0x4590c779, 0xed1317a2, 0x03fe5835, 0x7ad3c6f7, 0xd4aad5b5, 0x1a995ed7,
    0x247bfaa4, 0x69c2c799, 0x745fa405, 0xc5b9f239, 0xc3d9aebc, 0xa6f60e0b, 0xdf1e91d7, 0xab8e041c,
    0xee3188c6, 0x37377a9e, 0xc0e1a3bf, 0x19a5a9e4, 0x56cb9556, 0xc4d33d3f, 0xfb1eb03e, 0xf9557057,
    0x1be31d37, 0xd1fa65f1, 0xf518d714, 0x570ac722, 0xf26cf66a, 0x24794d47, 0x8ba2e402, 0x3f5137e6,
    0x35be1453, 0x43350478, 0x9f05ee88, 0x364cf9cf, 0x39a23ee7, 0xa4db8d49, 0xc2ebb3d2, 0xc6fb99d5,
    0xe014dfb0, 0x7156d425, 0xe090a87a, 0x4cc12f78, 0x1b30f503, 0x06694a7a, 0x68198cd1, 0x2f8345bd,
    0x9d79198e, 0xd871943f, 0x22ef6cf4, 0xe81b1c15, 0x067b61d8, 0xfc4ea4f5, 0xfe6dab57, 0x1bf744ba,
    0xa70b6a25, 0xafe6e412, 0xc6c1a05c, 0x8ffbe3ce, 0xc4270af1, 0xf3f36373, 0xc4507dd8, 0x5e6fd1e2,
    0x58cd9739, 0x47d3c5b5, 0xe1d5a343, 0x3d4dea4a, 0x893d91ae, 0xbb2a5e2a, 0x0d57b800, 0x652a7cc9,
    0x6a68ccfd, 0x62529f0b, 0xec5f36d6, 0x766cceda, 0x96ca63ef, 0xa0499838, 0xd9030f59, 0x8185f4d2,
];

/// https://github.com/borgbackup/borg/blob/master/src/borg/_chunker.c#L30-L64
///
/// Note that borg does not use this directly, it xors it with a 32bit seed prior to use
pub const BORG_BUZHASH_BASE: [u32; 256] = [
    0xe7f831ec, 0xf4026465, 0xafb50cae, 0x6d553c7a, 0xd639efe3, 0x19a7b895, 0x9aba5b21, 0x5417d6d4,
    0x35fd2b84, 0xd1f6a159, 0x3f8e323f, 0xb419551c, 0xf444cebf, 0x21dc3b80, 0xde8d1e36, 0x84a32436,
    0xbeb35a9d, 0xa36f24aa, 0xa4e60186, 0x98d18ffe, 0x3f042f9e, 0xdb228bcd, 0x096474b7, 0x5c20c2f7,
    0xf9eec872, 0xe8625275, 0xb9d38f80, 0xd48eb716, 0x22a950b4, 0x3cbaaeaa, 0xc37cddd3, 0x8fea6f6a,
    0x1d55d526, 0x7fd6d3b3, 0xdaa072ee, 0x4345ac40, 0xa077c642, 0x8f2bd45b, 0x28509110, 0x55557613,
    0xffc17311, 0xd961ffef, 0xe532c287, 0xaab95937, 0x46d38365, 0xb065c703, 0xf2d91d0f, 0x92cd4bb0,
    0x4007c712, 0xf35509dd, 0x505b2f69, 0x557ead81, 0x310f4563, 0xbddc5be8, 0x9760f38c, 0x701e0205,
    0x00157244, 0x14912826, 0xdc4ca32b, 0x67b196de, 0x5db292e8, 0x8c1b406b, 0x01f34075, 0xfa2520f7,
    0x73bc37ab, 0x1e18bc30, 0xfe2c6cb3, 0x20c522d0, 0x5639e3db, 0x942bda35, 0x899af9d1, 0xced44035,
    0x98cc025b, 0x255f5771, 0x70fefa24, 0xe928fa4d, 0x2c030405, 0xb9325590, 0x20cb63bd, 0xa166305d,
    0x80e52c0a, 0xa8fafe2f, 0x1ad13f7d, 0xcfaf3685, 0x6c83a199, 0x7d26718a, 0xde5dfcd9, 0x79cf7355,
    0x8979d7fb, 0xebf8c55e, 0xebe408e4, 0xcd2affba, 0xe483be6e, 0xe239d6de, 0x5dc1e9e0, 0x0473931f,
    0x851b097c, 0xac5db249, 0x09c0f9f2, 0xd8d2f134, 0xe6f38e41, 0xb1c71bf1, 0x52b6e4db, 0x07224424,
    0x6cf73e85, 0x4f25d89c, 0x782a7d74, 0x10a68dcd, 0x3a868189, 0xd570d2dc, 0x69630745, 0x9542ed86,
    0x331cd6b2, 0xa84b5b28, 0x07879c9d, 0x38372f64, 0x7185db11, 0x25ba7c83, 0x01061523, 0xe6792f9f,
    0xe5df07d1, 0x4321b47f, 0x7d2469d8, 0x1a3a4f90, 0x48be29a3, 0x669071af, 0x8ec8dd31, 0x0810bfbf,
    0x813a06b4, 0x68538345, 0x65865ddc, 0x43a71b8e, 0x78619a56, 0x5a34451d, 0x5bdaa3ed, 0x71edc7e9,
    0x17ac9a20, 0x78d10bfa, 0x6c1e7f35, 0xd51839d9, 0x240cbc51, 0x33513cc1, 0xd2b4f795, 0xccaa8186,
    0x0babe682, 0xa33cf164, 0x18c643ea, 0xc1ca105f, 0x9959147a, 0x6d3d94de, 0x0b654fbe, 0xed902ca0,
    0x7d835cb5, 0x99ba1509, 0x6445c922, 0x495e76c2, 0xf07194bc, 0xa1631d7e, 0x677076a5, 0x89fffe35,
    0x1a49bcf3, 0x8e6c948a, 0x0144c917, 0x8d93aea1, 0x16f87ddf, 0xc8f25d49, 0x1fb11297, 0x27e750cd,
    0x2f422da1, 0xdee89a77, 0x1534c643, 0x457b7b8b, 0xaf172f7a, 0x6b9b09d6, 0x33573f7f, 0xf14e15c4,
    0x526467d5, 0xaf488241, 0x87c3ee0d, 0x33be490c, 0x95aa6e52, 0x43ec242e, 0xd77de99b, 0xd018334f,
    0x5b78d407, 0x498eb66b, 0xb1279fa8, 0xb38b0ea6, 0x90718376, 0xe325dee2, 0x8e2f2cba, 0xcaa5bdec,
    0x9d652c56, 0xad68f5cb, 0xa77591af, 0x88e37ee8, 0xf8faa221, 0xfcbbbe47, 0x4f407786, 0xaf393889,
    0xf444a1d9, 0x15ae1a2f, 0x40aa7097, 0x6f9486ac, 0x29d232a3, 0xe47609e9, 0xe8b631ff, 0xba8565f4,
    0x11288749, 0x46c9a838, 0xeb1b7cd8, 0xf516bbb1, 0xfb74fda0, 0x010996e6, 0x4c994653, 0x1d889512,
    0x53dcd9a3, 0xdd074697, 0x1e78e17c, 0x637c98bf, 0x930bb219, 0xcf7f75b0, 0xcb9355fb, 0x9e623009,
    0xe466d82c, 0x28f968d3, 0xfeb385d9, 0x238e026c, 0xb8ed0560, 0x0c6a027a, 0x3d6fec4b, 0xbb4b2ec2,
    0xe715031c, 0xeded011d, 0xcdc4d3b9, 0xc456fc96, 0xdd0eea20, 0xb3df8ec9, 0x12351993, 0xd9cbb01c,
    0x603147a2, 0xcf37d17d, 0xf7fcd9dc, 0xd8556fa3, 0x104c8131, 0x13152774, 0xb4715811, 0x6a72c2c9,
    0xc5ae37bb, 0xa76ce12a, 0x8150d8f3, 0x2ec29218, 0xa35f0984, 0x48c0647e, 0x0b5ff98c, 0x71893f7b,
];

pub fn borg_buzhash_table(seed: u32) -> Box<[u32; 256]> {
    let mut t = Box::new([0u32; 256]);
    for i in 0..t.len() {
        t[i] = BORG_BUZHASH_BASE[i] ^ seed
    }

    t
}
".

Definition src_gear_table_gear32_rs : source :=
"/// An abitrary table originally produced for rsroll that is included here for convenience.
pub static GEAR_32: [u32; 256] = [
    0xb088d3a9, 0x5652c7f7, 0x45b28969, 0x6b0a89d5, 0x368f573e, 0x1dc636dc, 0x207a4c4e, 0xa474b346,
    0x3b06a83e, 0x90e78d6c, 0xe1c92df7, 0x8e95053a, 0x5a2ef4f1, 0xa50fac94, 0x0e7303eb, 0x99b07edc,
    0x689d2fb5, 0x00005082, 0xc4b08306, 0x3eb0678a, 0xf19f87ab, 0xf2129fbf, 0x48114957, 0x00000106,
    0x1fba3780, 0x3bf06fd6, 0x99687e97, 0x79a10673, 0xe4accf9e, 0x2520e71f, 0x2bd5d3fd, 0x00de4dcd,
    0xeaa9311c, 0xdb748eb6, 0xaf579a8d, 0x86a6e5da, 0xcc2fc30a, 0x355e2afe, 0x2d99c8f4, 0xbade4b4a,
    0xf7b51872, 0x3286b658, 0x0000b688, 0xa115d6e4, 0x484f7e9c, 0xccca7bb7, 0xbf2584a6, 0xade7e813,
    0x00007094, 0x8ae69108, 0xbd776ad7, 0xfb6b001f, 0xc7a474b8, 0xbaf6f116, 0x09cb1f5b, 0xb0b219e6,
    0x00ccbc38, 0xcc849d0a, 0x73a3ef7d, 0xc807d2d3, 0x7f2ac996, 0xd037a86b, 0xf3f17c66, 0xaca626b0,
    0x755a9937, 0x90837ee6, 0x6ee8ad93, 0x0000d9e1, 0x9e063bb2, 0x07ab77f1, 0xec550255, 0x78fb94a8,
    0xc7510e1b, 0x0000320b, 0x827c3326, 0x14675f0b, 0x267bd3a6, 0xf1916ff9, 0x86221b7f, 0x9dbecee7,
    0xea58f8ca, 0x008d1986, 0x6d38704f, 0xe032cb07, 0x228d21f6, 0x635cb1bf, 0x4620a173, 0xa7e7dfe3,
    0x0c10ca93, 0x2727fee8, 0xa2df1c6d, 0x4dcdd1ac, 0x000070ff, 0xa2ace87b, 0x9892275a, 0xc2861181,
    0xbb9972a0, 0xef70cd37, 0x00000513, 0xc058b618, 0x09e85085, 0x9197fb3b, 0x7e1e626d, 0x520c5450,
    0xbee17971, 0x6fd9ac32, 0x0023957c, 0xa01c7d7e, 0xaba2c758, 0x0d1fa0ce, 0x0bb6a58b, 0x4333dd5b,
    0xc2fd3b7d, 0xfb418024, 0x65a56185, 0xf67a02bd, 0x696f11dd, 0x00002022, 0x8cd6be91, 0x695189b6,
    0xee9453b5, 0xd8fc5ea9, 0xab86bf19, 0x0000c6b5, 0x26731017, 0xed2d101b, 0x3b41ed84, 0x13e62212,
    0xa315f5eb, 0x8816c34e, 0xe9395b9c, 0x002ce920, 0x4283db1d, 0xd77d461a, 0xe2ec17e4, 0xb8e0be40,
    0xdea160c4, 0x7eec86c8, 0x2119ad12, 0xa6ccf46b, 0x2c52cede, 0x2db48711, 0x0000f0d6, 0x3dd5d8c9,
    0x8a1872a2, 0xf282a4c4, 0x8020ec2c, 0x6693b6e0, 0x0000ce19, 0x20cb5735, 0x762ebf37, 0x207bfe82,
    0xd77dc112, 0x9ba78342, 0x217dc513, 0xb27b1a29, 0x00d5cd98, 0x71e39b80, 0x7e572af0, 0xa2734f2f,
    0xbf82c6b5, 0x5c3beac6, 0xcdc893bb, 0x6d108561, 0x77f8ae30, 0x917c6b81, 0x5b75b699, 0x0000cf6a,
    0xf3c40afa, 0x2063127a, 0x621de622, 0xd188ac1d, 0x107036e2, 0x0000b85f, 0xf2ef4e4c, 0xd9d6de66,
    0xa1fc7955, 0xeb85fd03, 0xbe27502f, 0xe3034251, 0x441364d3, 0x0082b36c, 0xb1459103, 0x021c069c,
    0x2910dfc7, 0x735b353e, 0xce44312c, 0xbc942e45, 0xf05086a7, 0xfec3b215, 0x00ae1055, 0xf54b4084,
    0x00007fd9, 0xbfbd9ef3, 0xa804302f, 0x39ce4957, 0xffb9e2a4, 0x55b9ad1d, 0x00008acb, 0x48e2bfc8,
    0x8be39841, 0x0e271216, 0xd51096e8, 0x1101ba17, 0xc22e770f, 0x1689eff2, 0x00a92a19, 0xbc765990,
    0xc61441e3, 0x07e13a2c, 0x92cbe984, 0x8f4ff572, 0x0b9670c0, 0x62955a58, 0x645f83e5, 0x41fce516,
    0xbbda9748, 0x0000aab2, 0x19761b06, 0x8b8f5e83, 0x3e5d1cfd, 0xec5c1e2c, 0xfaf7e0fe, 0x000000d3,
    0xda3f9017, 0x70ff906d, 0x0527d5a7, 0x22d8e773, 0xc9ab70df, 0xeda4c6dc, 0xecef1f41, 0x0024c2b2,
    0x06740d95, 0x1d7a299b, 0xb3c37cb2, 0xc986e3c7, 0x9fabea36, 0x6da214c5, 0x17a43ed8, 0x6eccec51,
    0xf9cab309, 0x4a5e60c5, 0x00006967, 0x9da51d12, 0x84321e13, 0xfb3d6fb6, 0x60305eed, 0xcbbf4b14,
    0x00004f63, 0x07d5b781, 0xe5a53672, 0x57afb234, 0x18f346f7, 0x636dc655, 0xcc8bab49, 0x63c7a906,
];
".

Definition src_gear_table_gear64_rs : source :=
"/// An abitrary table originally produced for rsroll that is included here for convenience.
pub static GEAR_64: [u64; 256] = [
    0xb088d3a9e840f559,
    0x5652c7f739ed20d6,
    0x45b28969898972ab,
    0x6b0a89d5b68ec777,
    0x368f573e8b7a31b7,
    0x1dc636dce936d94b,
    0x207a4c4e5554d5b6,
    0xa474b34628239acb,
    0x3b06a83e1ca3b912,
    0x90e78d6c2f02baf7,
    0xe1c92df7150d9a8a,
    0x8e95053a1086d3ad,
    0x5a2ef4f1b83a0722,
    0xa50fac949f807fae,
    0x0e7303eb80d8d681,
    0x99b07edc1570ad0f,
    0x689d2fb555fd3076,
    0x00005082119ea468,
    0xc4b08306a88fcc28,
    0x3eb0678af6374afd,
    0xf19f87ab86ad7436,
    0xf2129fbfbe6bc736,
    0x481149575c98a4ed,
    0x0000010695477bc5,
    0x1fba37801a9ceacc,
    0x3bf06fd663a49b6d,
    0x99687e9782e3874b,
    0x79a10673aa50d8e3,
    0xe4accf9e6211f420,
    0x2520e71f87579071,
    0x2bd5d3fd781a8a9b,
    0x00de4dcddd11c873,
    0xeaa9311c5a87392f,
    0xdb748eb617bc40ff,
    0xaf579a8df620bf6f,
    0x86a6e5da1b09c2b1,
    0xcc2fc30ac322a12e,
    0x355e2afec1f74267,
    0x2d99c8f4c021a47b,
    0xbade4b4a9404cfc3,
    0xf7b518721d707d69,
    0x3286b6587bf32c20,
    0x0000b68886af270c,
    0xa115d6e4db8a9079,
    0x484f7e9c97b2e199,
    0xccca7bb75713e301,
    0xbf2584a62bb0f160,
    0xade7e813625dbcc8,
    0x000070940d87955a,
    0x8ae69108139e626f,
    0xbd776ad72fde38a2,
    0xfb6b001fc2fcc0cf,
    0xc7a474b8e67bc427,
    0xbaf6f11610eb5d58,
    0x09cb1f5b6de770d1,
    0xb0b219e6977d4c47,
    0x00ccbc386ea7ad4a,
    0xcc849d0adf973f01,
    0x73a3ef7d016af770,
    0xc807d2d386bdbdfe,
    0x7f2ac9966c791730,
    0xd037a86bc6c504da,
    0xf3f17c661eaa609d,
    0xaca626b04daae687,
    0x755a99374f4a5b07,
    0x90837ee65b2caede,
    0x6ee8ad93fd560785,
    0x0000d9e11053edd8,
    0x9e063bb2d21cdbd7,
    0x07ab77f12a01d2b2,
    0xec550255e6641b44,
    0x78fb94a8449c14c6,
    0xc7510e1bc6c0f5f5,
    0x0000320b36e4cae3,
    0x827c33262c8b1a2d,
    0x14675f0b48ea4144,
    0x267bd3a6498deceb,
    0xf1916ff982f5035e,
    0x86221b7ff434fb88,
    0x9dbecee7386f49d8,
    0xea58f8cac80f8f4a,
    0x008d198692fc64d8,
    0x6d38704fbabf9a36,
    0xe032cb07d1e7be4c,
    0x228d21f6ad450890,
    0x635cb1bfc02589a5,
    0x4620a1739ca2ce71,
    0xa7e7dfe3aae5fb58,
    0x0c10ca932b3c0deb,
    0x2727fee884afed7b,
    0xa2df1c6df9e2ab1f,
    0x4dcdd1ac0774f523,
    0x000070ffad33e24e,
    0xa2ace87bc5977816,
    0x9892275ab4286049,
    0xc2861181ddf18959,
    0xbb9972a042483e19,
    0xef70cd3766513078,
    0x00000513abfc9864,
    0xc058b61858c94083,
    0x09e850859725e0de,
    0x9197fb3bf83e7d94,
    0x7e1e626d12b64bce,
    0x520c54507f7b57d1,
    0xbee1797174e22416,
    0x6fd9ac3222e95587,
    0x0023957c9adfbf3e,
    0xa01c7d7e234bbe15,
    0xaba2c758b8a38cbb,
    0x0d1fa0ceec3e2b30,
    0x0bb6a58b7e60b991,
    0x4333dd5b9fa26635,
    0xc2fd3b7d4001c1a3,
    0xfb41802454731127,
    0x65a56185a50d18cb,
    0xf67a02bd8784b54f,
    0x696f11dd67e65063,
    0x00002022fca814ab,
    0x8cd6be912db9d852,
    0x695189b6e9ae8a57,
    0xee9453b50ada0c28,
    0xd8fc5ea91a78845e,
    0xab86bf191a4aa767,
    0x0000c6b5c86415e5,
    0x267310178e08a22e,
    0xed2d101b078bca25,
    0x3b41ed84b226a8fb,
    0x13e622120f28dc06,
    0xa315f5ebfb706d26,
    0x8816c34e3301bace,
    0xe9395b9cbb71fdae,
    0x002ce9202e721648,
    0x4283db1d2bb3c91c,
    0xd77d461ad2b1a6a5,
    0xe2ec17e46eeb866b,
    0xb8e0be4039fbc47c,
    0xdea160c4d5299d04,
    0x7eec86c8d28c3634,
    0x2119ad129f98a399,
    0xa6ccf46b61a283ef,
    0x2c52cedef658c617,
    0x2db4871169acdd83,
    0x0000f0d6f39ecbe9,
    0x3dd5d8c98d2f9489,
    0x8a1872a22b01f584,
    0xf282a4c40e7b3cf2,
    0x8020ec2ccb1ba196,
    0x6693b6e09e59e313,
    0x0000ce19cc7c83eb,
    0x20cb5735f6479c3b,
    0x762ebf3759d75a5b,
    0x207bfe823d693975,
    0xd77dc112339cd9d5,
    0x9ba7834284627d03,
    0x217dc513e95f51e9,
    0xb27b1a29fc5e7816,
    0x00d5cd9831bb662d,
    0x71e39b806d75734c,
    0x7e572af006fb1a23,
    0xa2734f2f6ae91f85,
    0xbf82c6b5022cddf2,
    0x5c3beac60761a0de,
    0xcdc893bb47416998,
    0x6d1085615c187e01,
    0x77f8ae30ac277c5d,
    0x917c6b81122a2c91,
    0x5b75b699add16967,
    0x0000cf6ae79a069b,
    0xf3c40afa60de1104,
    0x2063127aa59167c3,
    0x621de62269d1894d,
    0xd188ac1de62b4726,
    0x107036e2154b673c,
    0x0000b85f28553a1d,
    0xf2ef4e4c18236f3d,
    0xd9d6de6611b9f602,
    0xa1fc7955fb47911c,
    0xeb85fd032f298dbd,
    0xbe27502fb3befae1,
    0xe3034251c4cd661e,
    0x441364d354071836,
    0x0082b36c75f2983e,
    0xb145910316fa66f0,
    0x021c069c9847caf7,
    0x2910dfc75a4b5221,
    0x735b353e1c57a8b5,
    0xce44312ce98ed96c,
    0xbc942e4506bdfa65,
    0xf05086a71257941b,
    0xfec3b215d351cead,
    0x00ae1055e0144202,
    0xf54b40846f42e454,
    0x00007fd9c8bcbcc8,
    0xbfbd9ef317de9bfe,
    0xa804302ff2854e12,
    0x39ce4957a5e5d8d4,
    0xffb9e2a45637ba84,
    0x55b9ad1d9ea0818b,
    0x00008acbf319178a,
    0x48e2bfc8d0fbfb38,
    0x8be39841e848b5e8,
    0x0e2712160696a08b,
    0xd51096e84b44242a,
    0x1101ba176792e13a,
    0xc22e770f4531689d,
    0x1689eff272bbc56c,
    0x00a92a197f5650ec,
    0xbc765990bda1784e,
    0xc61441e392fcb8ae,
    0x07e13a2ced31e4a0,
    0x92cbe984234e9d4d,
    0x8f4ff572bb7d8ac5,
    0x0b9670c00b963bd0,
    0x62955a581a03eb01,
    0x645f83e5ea000254,
    0x41fce516cd88f299,
    0xbbda9748da7a98cf,
    0x0000aab2fe4845fa,
    0x19761b069bf56555,
    0x8b8f5e8343b6ad56,
    0x3e5d1cfd144821d9,
    0xec5c1e2ca2b0cd8f,
    0xfaf7e0fea7fbb57f,
    0x000000d3ba12961b,
    0xda3f90178401b18e,
    0x70ff906de33a5feb,
    0x0527d5a7c06970e7,
    0x22d8e773607c13e9,
    0xc9ab70df643c3bac,
    0xeda4c6dc8abe12e3,
    0xecef1f410033e78a,
    0x0024c2b274ac72cb,
    0x06740d954fa900b4,
    0x1d7a299b323d6304,
    0xb3c37cb298cbead5,
    0xc986e3c76178739b,
    0x9fabea364b46f58a,
    0x6da214c5af85cc56,
    0x17a43ed8b7a38f84,
    0x6eccec511d9adbeb,
    0xf9cab30913335afb,
    0x4a5e60c5f415eed2,
    0x00006967503672b4,
    0x9da51d121454bb87,
    0x84321e13b9bbc816,
    0xfb3d6fb6ab2fdd8d,
    0x60305eed8e160a8d,
    0xcbbf4b14e9946ce8,
    0x00004f63381b10c3,
    0x07d5b7816fcc4e10,
    0xe5a536726a6a8155,
    0x57afb23447a07fdd,
    0x18f346f7abc9d394,
    0x636dc655d61ad33d,
    0xcc8bab4939f7f3f6,
    0x63c7a906c1dd187b,
];
".

Definition src_zpaq_rs : source :=
"#![cfg(feature = ""zpaq"")]

//! `zpaq` impliments the chunking algorithm used in the zpaq archiving tool

use std::fmt;
use std::num::Wrapping;

use crate::{Chunk, ChunkIncr, RangeExt, ToChunkIncr};
use std::ops::Bound;
use std::ops::RangeBounds;

/**
 * A splitter used in go 'dedup' and zpaq that does not require looking back in the source
 * data to update
 *
 * PDF: ??
 *
 * Note: go-dedup & zpaq calculate the relationship between their parameters slightly differently.
 * We support both of these (via the seperate with_*() constructors, but it'd be nice to clarify
 * why they differ and what affect the differences have.
 *
 * References:
 *
 *  - http://encode.ru/threads/456-zpaq-updates?p=45192&viewfull=1#post45192
 *  - https://github.com/klauspost/dedup/blob/master/writer.go#L668, 'zpaqWriter'
 *  - https://github.com/zpaq/zpaq/blob/master/zpaq.cpp
 *
 * Parameters:
 *
 *  - fragment (aka average_size_pow_2): average size = 2**fragment KiB
 *      in Zpaq (the compressor), this defaults to 6
 *  - min_size, max_size: additional bounds on the blocks. Not technically needed for the algorithm
 *      to function
 *
 *  In Zpaq-compressor, min & max size are calculated using the fragment value
 *  In go's dedup, fragment is calculated using a min & max size
 *
 * In-block state:
 *
 *  - hash: u32, current hash
 *  - last_byte: u8, previous byte read
 *  - predicted_byte: array of 256 u8's.
 *
 * Between-block state:
 *
 *  - None
 */
#[derive(Debug, Clone, PartialEq, Eq)]
pub struct Zpaq {
    range: (Bound<u64>, Bound<u64>),
    max_hash: u32,
}

impl Zpaq {
    /* this is taken from go-dedup */
    fn fragment_ave_from_max(max: u64) -> u8 {
        /* TODO: convert this to pure integer math */
        (max as f64 / (64f64 * 64f64)).log2() as u8
    }

    /* these are based on the zpaq (not go-dedup) calculations */
    fn fragment_ave_from_range<T: RangeBounds<u64>>(range: T) -> u8 {
        let v = match range.end_bound() {
            Bound::Included(i) => *i,
            Bound::Excluded(i) => *i - 1,
            Bound::Unbounded => {
                /* try to guess based on first */
                64 * match range.start_bound() {
                    Bound::Included(i) => *i,
                    Bound::Excluded(i) => *i + 1,
                    Bound::Unbounded => {
                        /* welp, lets use the default */
                        return 16;
                    }
                }
            }
        };

        Self::fragment_ave_from_max(v)
    }

    /* these are based on the zpaq (not go-dedup) calculations */
    fn range_from_fragment_ave(fragment_ave: u8) -> impl RangeBounds<u64> {
        assert!(fragment_ave <= 32);
        assert!(fragment_ave >= 10);
        64 << (fragment_ave - 10)..8128 << fragment_ave
    }

    fn range_from_max(max: u64) -> impl RangeBounds<u64> {
        max / 64..max
    }

    fn max_hash_from_fragment_ave(fragment_ave: u8) -> u32 {
        assert!(fragment_ave <= 32);
        1 << (32 - fragment_ave)
        /*
         * go-dedup does this:
         * (22f64 - fragment_ave).exp2() as u32
         *
         * Which should be equivalent to the integer math above (which is used by zpaq).
         */
    }

    /**
     * Create a splitter using the range of output block sizes.
     *
     * The average block size will be the max block size (if any) divided by 4, using the same
     * algorithm to calculate it as go-dedup.
     */
    pub fn with_range(range: impl RangeBounds<u64> + Clone) -> Self {
        let f = Self::fragment_ave_from_range(range.clone());
        Self::with_average_and_range(f, range)
    }

    /**
     * Create a splitter using the defaults from Zpaq (the compressor) given a average size
     * formated as a power of 2.
     *
     * Corresponds to zpaq's argument ""-fragment"".
     */
    pub fn with_average_size_pow_2(average_size_pow_2: u8) -> Self {
        let r = Self::range_from_fragment_ave(average_size_pow_2);
        Self::with_average_and_range(average_size_pow_2, r)
    }

    /**
     * Use the defaults from go-dedup to generate a splitter given the max size of a split.
     *
     * The average block size will be the max block size (if any) divided by 4, using the same
     * algorithm to calculate it as go-dedup.
     */
    pub fn with_max_size(max: u64) -> Self {
        Self::with_average_and_range(Self::fragment_ave_from_max(max), Self::range_from_max(max))
    }

    /**
     * Create a splitter with control of all parameters
     *
     * All the other constructors use this internally
     */
    pub fn with_average_and_range(average_size_pow_2: u8, range: impl RangeBounds<u64>) -> Self {
        Zpaq {
            range: range.into_tuple(),
            max_hash: Self::max_hash_from_fragment_ave(average_size_pow_2),
        }
    }

    /*
    fn average_block_size(&self) -> u64 {
        /* I don't know If i really trust this, do some more confirmation */
        1024 << self.fragment
    }
    */

    fn split_here(&self, hash: u32, index: u64) -> bool {
        (hash < self.max_hash && !self.range.under_min(&index)) || self.range.exceeds_max(&index)
    }
}

impl Default for Zpaq {
    /**
     * Create a splitter using the defaults from Zpaq (the compressor)
     *
     * Average size is 65536 bytes (64KiB), max is 520192 bytes (508KiB), min is 4096 bytes (4KiB)
     */
    fn default() -> Self {
        Self::with_average_size_pow_2(16)
    }
}

/// Incrimental instance of [`Zpaq`].
///
/// `Zpaq` doesn't require input look back, so the incrimental and non-incrimental performance
/// should be similar.
#[derive(Debug)]
pub struct ZpaqIncr {
    params: Zpaq,
    state: ZpaqHash,
    idx: u64,
}

/// Intermediate state from [`Chunk::find_chunk_edge`] for [`Zpaq`].
#[derive(Default, Debug)]
pub struct ZpaqSearchState {
    state: ZpaqHash,
    idx: u64,
}

impl ZpaqSearchState {
    fn feed(&mut self, v: u8) -> u32 {
        self.idx += 1;
        self.state.feed(v)
    }
}

impl Chunk for Zpaq {
    type SearchState = ZpaqSearchState;

    fn to_search_state(&self) -> Self::SearchState {
        Default::default()
    }

    fn find_chunk_edge(
        &self,
        state: &mut Self::SearchState,
        data: &[u8],
    ) -> (Option<usize>, usize) {
        for (i, v) in data.iter().enumerate() {
            let h = state.feed(*v);
            if self.split_here(h, (state.idx + 1) as u64) {
                *state = self.to_search_state();
                return (Some(i + 1), i + 1);
            }
        }

        (None, data.len())
    }
}

impl From<&Zpaq> for ZpaqSearchState {
    fn from(_: &Zpaq) -> Self {
        Default::default()
    }
}

impl From<&Zpaq> for ZpaqIncr {
    fn from(s: &Zpaq) -> Self {
        s.clone().into()
    }
}

impl ToChunkIncr for Zpaq {
    type Incr = ZpaqIncr;
    fn to_chunk_incr(&self) -> Self::Incr {
        self.into()
    }
}

impl ZpaqIncr {
    fn feed(&mut self, v: u8) -> u32 {
        self.idx += 1;
        self.state.feed(v)
    }

    fn reset(&mut self) {
        self.idx = 0;
        self.state = Default::default();
    }
}

impl ChunkIncr for ZpaqIncr {
    fn push(&mut self, data: &[u8]) -> Option<usize> {
        for (i, &v) in data.iter().enumerate() {
            let h = self.feed(v);
            if self.params.split_here(h, self.idx) {
                self.reset();
                return Some(i + 1);
            }
        }

        None
    }
}

impl From<Zpaq> for ZpaqIncr {
    fn from(params: Zpaq) -> Self {
        Self {
            params,
            state: Default::default(),
            idx: 0,
        }
    }
}

/**
 * The rolling hash component of the zpaq splitter
 */
#[derive(Clone)]
pub struct ZpaqHash {
    hash: Wrapping<u32>,
    last_byte: u8,
    predicted_byte: [u8; 256],
}

impl PartialEq for ZpaqHash {
    fn eq(&self, other: &Self) -> bool {
        self.hash == other.hash
            && self.last_byte == other.last_byte
            && self.predicted_byte[..] == other.predicted_byte[..]
    }
}

impl Eq for ZpaqHash {}

impl fmt::Debug for ZpaqHash {
    fn fmt(&self, f: &mut fmt::Formatter<'_>) -> Result<(), fmt::Error> {
        f.debug_struct(""ZpaqHash"")
            .field(""hash"", &self.hash)
            .field(""last_byte"", &self.last_byte)
            .field(""predicted_byte"", &fmt_extra::Hs(&self.predicted_byte[..]))
            .finish()
    }
}

impl Default for ZpaqHash {
    fn default() -> Self {
        ZpaqHash {
            hash: Wrapping(0),
            last_byte: 0,
            predicted_byte: [0; 256],
        }
    }
}

impl ZpaqHash {
    /*
     * we can only get away with this because Zpaq doesn't need to look at old data to make it's
     * splitting decision, it only examines it's state + current value (and the state is
     * relatively large, but isn't a window into past data).
     */
    fn feed(&mut self, c: u8) -> u32 {
        self.hash = if c == self.predicted_byte[self.last_byte as usize] {
            (self.hash + Wrapping(c as u32) + Wrapping(1)) * Wrapping(314159265)
        } else {
            (self.hash + Wrapping(c as u32) + Wrapping(1)) * Wrapping(271828182)
        };

        self.predicted_byte[self.last_byte as usize] = c;
        self.last_byte = c;
        self.hash.0
    }
}
".

Definition src_zstd_rs : source :=
"#![cfg(feature = ""zstd"")]

//! zstd's `--rsyncable` option performs content defined chunking
//!
//! This has been minimally validated to match the implimentation from zstd, with the following
//! caveats:
//!
//!   - Maximum chunk size is not implimented
//!   - Only 1 test case with a single chunk edge (ie: 2 chunks) has been tested
//!
//! It uses a internal [rolling
//! hash](https://github.com/facebook/zstd/blob/01261bc8b6fcfc77801788f8b1e2a2e5dd2e8e25/lib/compress/zstd_compress_internal.h#L658-L698)
//! with 1 multiple and 2 additions. (see `ZSTD_rollingHash_append()` for core functionality).
//!
//! The rolling hash is then used by
//! [`findSynchronizationPoint()`](https://github.com/facebook/zstd/blob/15c5e200235edc520c1bd678ed126a6dd05736e1/lib/compress/zstdmt_compress.c#L1931-L2001)
//! in various ways to find ""syncronization points"" (ie: edges of chunks).
//!
//! [This issue thread comment ](https://github.com/facebook/zstd/issues/1155#issuecomment-520258862) also
//! includes some explanation on the mechanism.
//!
//! The zstd code _does_ include in it's context information about _previous_ block that was
//! emitted. In other words: the rolling hash isn't ""reset"" on block emittion. (Most chunking
//! algorithms are reset on block emittion).
use crate::{Chunk, ChunkIncr, ToChunkIncr};
use std::convert::TryInto;
use std::num::Wrapping;

const RSYNC_LENGTH: usize = 32;
const PRIME_8_BYTES: Wrapping<u64> = Wrapping(0xCF1BBCDCB7A56463);
const ROLL_HASH_CHAR_OFFSET: Wrapping<u64> = Wrapping(10);

#[derive(Debug, PartialEq, Eq, Clone)]
pub struct Zstd {
    hit_mask: u64,
    prime_power: u64,
}

impl Default for Zstd {
    fn default() -> Self {
        // ../lib/compress/zstdmt_compress.c: jobSizeMB: 8, rsyncBits: 23, hitMask: 7fffff, primePower: f5507fe35f91f8cb
        Self::with_target_section_size(8 << 20)
    }
}

impl Zstd {
    /*
     * ```notrust
        /* Aim for the targetsectionSize as the average job size. */
        U32 const jobSizeMB = (U32)(mtctx->targetSectionSize >> 20);
        U32 const rsyncBits = ZSTD_highbit32(jobSizeMB) + 20;
        assert(jobSizeMB >= 1);
        DEBUGLOG(4, ""rsyncLog = %u"", rsyncBits);
        mtctx->rsync.hash = 0;
        mtctx->rsync.hitMask = (1ULL << rsyncBits) - 1;
        mtctx->rsync.primePower = ZSTD_rollingHash_primePower(RSYNC_LENGTH);
        ```
    */
    pub fn with_target_section_size(target_section_size: u64) -> Self {
        let job_size_mb: u32 = (target_section_size >> 20).try_into().unwrap();
        assert_ne!(job_size_mb, 0);
        let rsync_bits = (job_size_mb.leading_zeros() ^ 31) + 20;
        let hit_mask = (1u64 << rsync_bits) - 1;
        let prime_power = PRIME_8_BYTES
            .0
            .wrapping_pow((RSYNC_LENGTH - 1).try_into().unwrap());
        Self {
            hit_mask,
            prime_power,
        }
    }
}

#[cfg(test)]
mod test {
    #[test]
    fn test_zstd_init_matches_upstream() {
        let zstd = super::Zstd::default();
        assert_eq!(zstd.hit_mask, 0x7f_ffff);
        assert_eq!(zstd.prime_power, 0xf5507fe35f91f8cb);
    }
}

#[derive(Default, Debug, PartialEq, Eq)]
struct ZstdState {
    hash: Wrapping<u64>,
}

impl ZstdState {
    // `ZSTD_rollingHash_append()`
    fn append(&mut self, data: &[u8]) {
        for i in data {
            self.hash *= PRIME_8_BYTES;
            self.hash += Wrapping(*i as u64) + ROLL_HASH_CHAR_OFFSET;
        }
    }

    // `ZSTD_rollingHash_rotate()`
    fn rotate(&mut self, to_remove: u8, to_add: u8, prime_power: u64) {
        self.hash -= (Wrapping(to_remove as u64) + ROLL_HASH_CHAR_OFFSET) * Wrapping(prime_power);
        self.hash *= PRIME_8_BYTES;
        self.hash += Wrapping(to_add as u64) + ROLL_HASH_CHAR_OFFSET;
    }

    fn at_split(&mut self, params: &Zstd) -> bool {
        (self.hash.0 & params.hit_mask) == params.hit_mask
    }
}

#[derive(Default, Debug, PartialEq, Eq)]
pub struct ZstdSearchState {
    state: ZstdState,
    offset: usize,
}

impl ZstdSearchState {
    fn append(&mut self, data: &[u8]) {
        self.state.append(data);
    }

    fn rotate(&mut self, to_remove: u8, to_add: u8, prime_power: u64) {
        self.state.rotate(to_remove, to_add, prime_power);
    }

    fn at_split(&mut self, params: &Zstd) -> bool {
        self.state.at_split(params)
    }
}

/// Incrimental chunking using Zstd's rsyncable algorithm
///
/// Performance note: Zstd's chunking requires buffer look back to remove previously inserted data,
/// and as a result requires `ZstdIncr` to maintain an internal buffer. This internal buffer may
/// reduce performance.
#[derive(Debug, PartialEq, Eq)]
pub struct ZstdIncr {
    params: Zstd,

    state: ZstdState,

    window: Box<[u8]>,
    // insert into the window at this offset
    window_offs: usize,
    // if true, we need to remove bytes from the window when inserting
    //
    // NOTE: by pre-filling `self.hash` with an appropriate value, we might be able to remove this
    // variable and always treat the window as full (of zeros initially).
    window_full: bool,

    // how many byte since last emitted block
    // used to cap the block size as zstd does
    input_offs: u64,
}

impl ToChunkIncr for Zstd {
    type Incr = ZstdIncr;

    fn to_chunk_incr(&self) -> Self::Incr {
        self.into()
    }
}

impl From<Zstd> for ZstdIncr {
    fn from(params: Zstd) -> Self {
        Self {
            params,
            state: Default::default(),
            window: vec![0; RSYNC_LENGTH].into_boxed_slice(),
            window_offs: 0,
            window_full: false,
            input_offs: 0,
        }
    }
}

impl From<&Zstd> for ZstdIncr {
    fn from(params: &Zstd) -> Self {
        params.clone().into()
    }
}

impl Chunk for Zstd {
    type SearchState = ZstdSearchState;

    fn to_search_state(&self) -> Self::SearchState {
        Self::SearchState::default()
    }

    fn find_chunk_edge(
        &self,
        state: &mut Self::SearchState,
        data: &[u8],
    ) -> (Option<usize>, usize) {
        if state.offset < RSYNC_LENGTH {
            // push some data in
            let seed_b = &data[state.offset..std::cmp::min(RSYNC_LENGTH, data.len())];
            state.append(seed_b);
            state.offset += seed_b.len();

            if state.offset < RSYNC_LENGTH {
                // not enough data
                return (None, 0);
            }
        }

        // TODO: track input_offs to split over-size blocks

        // we've got enough data, do rotations
        for i in state.offset..data.len() {
            let to_remove = data[i - RSYNC_LENGTH];
            let to_add = data[i];
            state.rotate(to_remove, to_add, self.prime_power);
            if state.at_split(self) {
                let discard_ct = data.len().saturating_sub(RSYNC_LENGTH);
                return (Some(i + 1), discard_ct);
            }
        }

        let discard_ct = data.len().saturating_sub(RSYNC_LENGTH);
        let keep_ct = data.len() - discard_ct;
        state.offset = keep_ct;
        (None, discard_ct)
    }
}

impl ChunkIncr for ZstdIncr {
    fn push(&mut self, data: &[u8]) -> Option<usize> {
        let use_len = if !self.window_full {
            let use_len = std::cmp::min(self.window.len() - self.window_offs, data.len());
            self.window[self.window_offs..(self.window_offs + use_len)]
                .copy_from_slice(&data[..use_len]);
            self.window_offs += use_len;

            if self.window_offs != self.window.len() {
                return None;
            }

            self.window_full = true;
            self.window_offs = 0;
            self.state.append(&self.window[..]);
            use_len
        } else {
            0
        };

        // TODO: track input_offs to split over-size blocks

        // we have a full window, now rotate data through
        for (i, &v) in data[use_len..].iter().enumerate() {
            let to_remove = self.window[self.window_offs];
            let to_add = v;
            self.state
                .rotate(to_remove, to_add, self.params.prime_power);
            self.window[self.window_offs] = to_add;
            self.window_offs = (self.window_offs + 1) % self.window.len();

            if self.state.at_split(&self.params) {
                // NOTE: don't clear window
                return Some(i + use_len);
            }
        }

        None
    }
}
".

Definition tests_cuts_rs : source :=
"use hash_roll::{Chunk, ChunkIncr, ToChunkIncr};
use rand::RngCore;
use rand_pcg::Pcg64;

fn test_data(seed: u128, size: usize) -> Vec<u8> {
    let mut fill_rng = Pcg64::new(seed, 0xa02bdbf7bb3c0a7ac28fa16a64abf96);
    let mut buf = vec![0u8; size];
    fill_rng.fill_bytes(&mut buf);
    buf
}

fn cut_test_incr<C: ChunkIncr>(seed: u128, size: usize, chunker: C, expected_splits: &[usize]) {
    let buf = test_data(seed, size);

    // Note: this is only basic equivalance checking via byte-at-a-time. More full equivalance
    // checking will be done via quickcheck tests.
    let mut incr_splits = Vec::with_capacity(expected_splits.len());
    {
        let mut incr = chunker;
        let buf = &buf[..];
        let mut last_split = 0;
        for (i, v) in buf.iter().enumerate() {
            match incr.push(&[*v]) {
                Some(_split_point) => {
                    let sp = i + 1;
                    incr_splits.push(sp - last_split);
                    last_split = sp;
                }
                None => {}
            }
        }
    }

    assert_eq!(expected_splits, &incr_splits[..]);
}

fn cut_test_sz<C: Chunk + ToChunkIncr>(
    seed: u128,
    size: usize,
    chunker: C,
    expected_splits: &[usize],
) {
    let buf = test_data(seed, size);

    // Note: this doesn't validate SearchState at all
    let mut splits = Vec::with_capacity(expected_splits.len());
    {
        let mut state = chunker.to_search_state();
        let mut discard_idx = 0;
        let mut last_chunk_idx = 0;
        loop {
            let b = &buf[discard_idx..];
            let (split_point, discard_ct) = chunker.find_chunk_edge(&mut state, b);
            match split_point {
                Some(split_point) => {
                    let split_point_global = discard_idx + split_point;
                    if last_chunk_idx > split_point_global {
                        panic!(""last_chunk_idx: {}, split_point_global: {}, split_point: {}, discard_idx: {}"",
                            last_chunk_idx, split_point_global, split_point, discard_idx);
                    }
                    let split_len = split_point_global - last_chunk_idx;
                    last_chunk_idx = split_point_global;
                    splits.push(split_len);
                }
                None => {
                    break;
                }
            }
            discard_idx += discard_ct;
        }
    }

    // Note: this is only basic equivalance checking via byte-at-a-time. More full equivalance
    // checking will be done via quickcheck tests.
    let mut incr_splits = Vec::with_capacity(expected_splits.len());
    {
        let mut incr = chunker.to_chunk_incr();
        let buf = &buf[..];
        let mut last_split = 0;
        for (i, v) in buf.iter().enumerate() {
            match incr.push(&[*v]) {
                Some(_split_point) => {
                    let sp = i + 1;
                    incr_splits.push(sp - last_split);
                    last_split = sp;
                }
                None => {}
            }
        }
    }

    assert_eq!(&splits[..], &incr_splits[..]);
    assert_eq!(expected_splits, &splits[..]);
}

fn cut_test<C: Chunk + ToChunkIncr>(seed: u128, chunker: C, expected_splits: &[usize]) {
    cut_test_sz(seed, 8192 * 4, chunker, expected_splits)
}

#[cfg(feature = ""mii"")]
#[test]
fn mii_cuts_1() {
    cut_test(
        0,
        hash_roll::mii::Mii::default(),
        &[
            1212, 40, 261, 1548, 1881, 312, 2043, 285, 1062, 677, 542, 1473, 303, 172, 318, 839,
            2560, 3242, 396, 202, 123, 898, 2454, 544, 3541, 571, 483, 383, 103, 2629, 929, 47,
            524,
        ],
    );
}

#[cfg(feature = ""bup"")]
#[test]
fn bup_cuts_1() {
    cut_test(0, hash_roll::bup::RollSum::default(), &[2600, 6245])
}

#[cfg(feature = ""gzip"")]
#[test]
fn gzip_cuts_1() {
    cut_test(
        0,
        hash_roll::gzip::GzipRsyncable::default(),
        &[2941, 2077, 5263, 7263, 392, 4371, 5204],
    )
}

#[cfg(feature = ""gzip"")]
#[test]
fn gzip_cuts_2() {
    // chosen so we check window removal
    cut_test(
        2,
        hash_roll::gzip::GzipRsyncable::default(),
        &[9277, 2758, 3074, 7415, 3579, 4141],
    )
}

#[cfg(feature = ""buzhash"")]
#[test]
fn buzhash_cuts_1() {
    cut_test(
        0,
        hash_roll::buzhash::BuzHash::new_nom(0),
        &[6265, 1745, 11527, 6851, 1089],
    )
}

#[cfg(feature = ""zpaq"")]
#[test]
fn zpaq_cuts_0() {
    // These match edges from Zpaq 7.15 (with modification to print the fragment sizes).
    //
    //     cargo run --example generate-test-data 0 >test_data_0.bin
    //     zpaq a foo.zpaq ~/p/hash-roll/test_data_0.bin -fragment 3
    cut_test(
        0,
        hash_roll::zpaq::Zpaq::with_average_size_pow_2(13),
        &[10785, 6329, 1287, 860, 4716, 7419],
    )
}

#[cfg(feature = ""zpaq"")]
#[test]
fn zpaq_cuts_3() {
    // These match edges from Zpaq 7.15 (with modification to print the fragment sizes).
    //
    //     cargo run --example generate-test-data 3 >test_data_3.bin
    //     zpaq a foo.zpaq ~/p/hash-roll/test_data_3.bin -fragment 3
    cut_test(
        3,
        hash_roll::zpaq::Zpaq::with_average_size_pow_2(13),
        &[16353, 2334, 970, 5326, 1557],
    )
}

#[cfg(feature = ""pigz"")]
#[test]
fn pigz_cuts_0() {
    cut_test(
        0,
        hash_roll::pigz::PigzRsyncable::default(),
        &[9069, 1191, 3685, 8629, 2119, 2939],
    )
}

/*
 * 0
../lib/compress/zstdmt_compress.c: findSynchronizationPoint: input: (0, 131072), inbf: 0, tss: 8388608 -> (131072, 0)
 * 1
../lib/compress/zstdmt_compress.c: findSynchronizationPoint: input: (0, 131072), inbf: 131072, tss: 8388608 -> (131072, 0)
 * 2
../lib/compress/zstdmt_compress.c: findSynchronizationPoint: input: (0, 131072), inbf: 262144, tss: 8388608 -> (131072, 0)
 * 3
../lib/compress/zstdmt_compress.c: findSynchronizationPoint: input: (0, 131072), inbf: 393216, tss: 8388608 -> (131072, 0)
 * 4
../lib/compress/zstdmt_compress.c: findSynchronizationPoint: input: (0, 131072), inbf: 524288, tss: 8388608 -> (131072, 0)
 * 5
../lib/compress/zstdmt_compress.c: findSynchronizationPoint: input: (0, 131072), inbf: 655360, tss: 8388608 -> (131072, 0)
 * 6
../lib/compress/zstdmt_compress.c: findSynchronizationPoint: input: (0, 131072), inbf: 786432, tss: 8388608 -> (131072, 0)
 7
../lib/compress/zstdmt_compress.c: findSynchronizationPoint: input: (0, 131072), inbf: 917504, tss: 8388608 -> (131072, 0)
 8
../lib/compress/zstdmt_compress.c: findSynchronizationPoint: input: (0, 131072), inbf: 1048576, tss: 8388608 -> (131072, 0)
 9
../lib/compress/zstdmt_compress.c: findSynchronizationPoint: input: (0, 131072), inbf: 1179648, tss: 8388608 -> (131072, 0)
 10
../lib/compress/zstdmt_compress.c: findSynchronizationPoint: input: (0, 131072), inbf: 1310720, tss: 8388608 -> (131072, 0)
 11
../lib/compress/zstdmt_compress.c: findSynchronizationPoint: input: (0, 131072), inbf: 1441792, tss: 8388608 -> (131072, 0)
 12
../lib/compress/zstdmt_compress.c: findSynchronizationPoint: input: (0, 131072), inbf: 1572864, tss: 8388608 -> (87647, 1)
 13
../lib/compress/zstdmt_compress.c: findSynchronizationPoint: input: (87647, 131072), inbf: 0, tss: 8388608 -> (43425, 0)
../lib/compress/zstdmt_compress.c: findSynchronizationPoint: input: (0, 131072), inbf: 43425, tss: 8388608 -> (131072, 0)
../lib/compress/zstdmt_compress.c: findSynchronizationPoint: input: (0, 131072), inbf: 174497, tss: 8388608 -> (131072, 0)
../lib/compress/zstdmt_compress.c: findSynchronizationPoint: input: (0, 131072), inbf: 305569, tss: 8388608 -> (131072, 0)
 */
#[cfg(feature = ""zstd"")]
#[test]
fn zstd_cuts_0_2mb() {
    cut_test_sz(
        0,
        1024 * 1024 * 2,
        hash_roll::zstd::Zstd::default(),
        //&[1660511],
        &[12 * 131072 + 87647],
    )
}

#[cfg(feature = ""gear"")]
#[test]
fn gear32_cuts_0() {
    cut_test(0, hash_roll::gear::Gear32::default(), &[11031, 7789, 10463])
}

#[cfg(feature = ""fastcdc"")]
#[test]
fn fastcdc_cuts_incr_0() {
    cut_test_incr(
        0,
        8192 * 4,
        hash_roll::fastcdc::FastCdcIncr::default(),
        &[8463, 9933, 9029],
    )
}

#[cfg(feature = ""fastcdc"")]
#[test]
fn fastcdc_cuts_0() {
    cut_test(
        0,
        hash_roll::fastcdc::FastCdc::default(),
        &[8463, 9933, 9029],
    )
}

#[cfg(feature = ""ram"")]
#[test]
fn ram_cuts_0() {
    cut_test(0, hash_roll::ram::Ram::with_w(8192), &[8264, 8368, 8341])
}
".

Definition tests_cuts_qc_rs : source :=
"// check the following are equivalent:
//  - find_chunk_edge() with 1 set of buffer sizes vs another set of buffer sizes
//  - incrimental with 1 set of buffer sizes vs another set of buffer sizes
//  - find_chunk_edge() vs incrimental
//
//  - simd vs non-simd algorithms

use hash_roll::Chunk;
use proptest::prelude::*;

fn splits_fce<C: Chunk>(chunker: &C, buf: &[u8], buf_sizes: &[usize]) -> Vec<usize> {
    let mut splits = Vec::new();
    let mut i = 0;
    let mut ss = chunker.to_search_state();
    let mut last_split_point = 0;
    let mut curr_discard = 0;
    let mut prev_buf_size = 0;
    loop {
        if buf.len() == curr_discard {
            break;
        }

        // use adative methods to ensure buf size grows
        let buf_size = buf_sizes[i % buf_sizes.len()] + prev_buf_size;
        i += 1;
        let buf_size = std::cmp::min(buf_size, buf.len() - curr_discard);

        let b = &buf[curr_discard..(buf_size + curr_discard)];
        println!(
            ""{{ PRE: curr_discard: {}, buf_size: {}"",
            curr_discard, buf_size
        );
        let (split, discard_ct) = chunker.find_chunk_edge(&mut ss, b);
        println!(
            ""}} POST: discard_ct: {}, next_discard: {}"",
            discard_ct,
            curr_discard + discard_ct
        );

        match split {
            Some(split_point) => {
                // `split_point` is translated into the entire buffer (from the one passed to fce),
                // and the length is determined by tracking the previous split.
                let split_point_global = curr_discard + split_point;
                let split_len = split_point_global - last_split_point;
                splits.push(split_len);
                last_split_point = split_point_global;
                prev_buf_size = 0;
            }
            None => {
                // at end of buffer without a split point
                if buf_size == (buf.len() - curr_discard) {
                    break;
                }

                prev_buf_size = buf_size;
            }
        }

        curr_discard += discard_ct;
        println!(""-- curr_discard = {}"", curr_discard);
    }

    splits
}

proptest! {
    #[test]
    #[cfg(feature = ""gzip"")]
    fn gzip_fce_self_consistent_with_varying_buf_size(
        data in prop::collection::vec(0u8..=255u8, 0..10000),
        buf_sizes_1 in prop::collection::vec(1usize..5000, 1..10000),
        buf_sizes_2 in prop::collection::vec(1usize..5000, 1..10000))
    {
        let chunker = hash_roll::gzip::GzipRsyncable::default();
        let s1 = splits_fce(&chunker, &data[..], &buf_sizes_1[..]);
        let s2 = splits_fce(&chunker, &data[..], &buf_sizes_2[..]);
        assert_eq!(s1, s2);
    }

    #[test]
    #[cfg(feature = ""mii"")]
    fn mii_fce_self_consistent_with_varying_buf_size(
        data in prop::collection::vec(0u8..=255u8, 0..10000),
        buf_sizes_1 in prop::collection::vec(1usize..5000, 1..10000),
        buf_sizes_2 in prop::collection::vec(1usize..5000, 1..10000))
    {
        let chunker = hash_roll::mii::Mii::default();
        let s1 = splits_fce(&chunker, &data[..], &buf_sizes_1[..]);
        let s2 = splits_fce(&chunker, &data[..], &buf_sizes_2[..]);
        assert_eq!(s1, s2);
    }

    #[test]
    #[cfg(feature = ""buzhash_big"")]
    fn buzhash_fce_self_consistent_with_varying_buf_size(
        seed: u8,
        data in prop::collection::vec(0u8..=255u8, 0..10000),
        buf_sizes_1 in prop::collection::vec(1usize..5000, 1..10000),
        buf_sizes_2 in prop::collection::vec(1usize..5000, 1..10000))
    {
        let chunker = hash_roll::buzhash::BuzHash::new_nom(seed);
        let s1 = splits_fce(&chunker, &data[..], &buf_sizes_1[..]);
        let s2 = splits_fce(&chunker, &data[..], &buf_sizes_2[..]);
        assert_eq!(s1, s2);
    }

    #[test]
    #[cfg(feature = ""buzhash"")]
    fn buzhash_short_fce_self_consistent_with_varying_buf_size(
        data in prop::collection::vec(0u8..=255u8, 0..100),
        buf_sizes_1 in prop::collection::vec(1usize..100, 1..100),
        buf_sizes_2 in prop::collection::vec(1usize..100, 1..100))
    {
        let chunker = hash_roll::buzhash::BuzHash::new(
            7,
            (1 << 4u32) - 1,
            hash_roll::buzhash::BuzHashTableByteSaltHash::from((0, &hash_roll::buzhash_table::GO_BUZHASH)),
            1 << 10,
        );
        let s1 = splits_fce(&chunker, &data[..], &buf_sizes_1[..]);
        let s2 = splits_fce(&chunker, &data[..], &buf_sizes_2[..]);
        assert_eq!(s1, s2);
    }

    #[test]
    #[cfg(feature = ""zpaq"")]
    fn zpaq_fce_self_consistent_with_varying_buf_size(
        data in prop::collection::vec(0u8..=255u8, 0..10000),
        buf_sizes_1 in prop::collection::vec(1usize..5000, 1..10000),
        buf_sizes_2 in prop::collection::vec(1usize..5000, 1..10000))
    {
        let chunker = hash_roll::zpaq::Zpaq::with_average_size_pow_2(13);
        let s1 = splits_fce(&chunker, &data[..], &buf_sizes_1[..]);
        let s2 = splits_fce(&chunker, &data[..], &buf_sizes_2[..]);
        assert_eq!(s1, s2);
    }

    #[test]
    #[cfg(feature = ""pigz"")]
    fn pigz_fce_self_consistent_with_varying_buf_size(
        data in prop::collection::vec(0u8..=255u8, 0..10000),
        buf_sizes_1 in prop::collection::vec(1usize..5000, 1..10000),
        buf_sizes_2 in prop::collection::vec(1usize..5000, 1..10000))
    {
        let chunker = hash_roll::pigz::PigzRsyncable::default();
        let s1 = splits_fce(&chunker, &data[..], &buf_sizes_1[..]);
        let s2 = splits_fce(&chunker, &data[..], &buf_sizes_2[..]);
        assert_eq!(s1, s2);
    }

    #[test]
    #[cfg(feature = ""bup"")]
    fn bup_fce_self_consistent_with_varying_buf_size(
        data in prop::collection::vec(0u8..=255u8, 0..10000),
        buf_sizes_1 in prop::collection::vec(1usize..5000, 1..10000),
        buf_sizes_2 in prop::collection::vec(1usize..5000, 1..10000))
    {
        let chunker = hash_roll::bup::RollSum::default();
        let s1 = splits_fce(&chunker, &data[..], &buf_sizes_1[..]);
        let s2 = splits_fce(&chunker, &data[..], &buf_sizes_2[..]);
        assert_eq!(s1, s2);
    }

    #[test]
    #[cfg(feature = ""zstd"")]
    fn zstd_fce_self_consistent_with_varying_buf_size(
        data in prop::collection::vec(0u8..=255u8, 0..100000),
        buf_sizes_1 in prop::collection::vec(1usize..5000, 1..10000),
        buf_sizes_2 in prop::collection::vec(1usize..5000, 1..10000))
    {
        let chunker = hash_roll::zstd::Zstd::default();
        let s1 = splits_fce(&chunker, &data[..], &buf_sizes_1[..]);
        let s2 = splits_fce(&chunker, &data[..], &buf_sizes_2[..]);
        assert_eq!(s1, s2);
    }

    #[test]
    #[cfg(feature = ""gear"")]
    fn gear_fce_self_consistent_with_varying_buf_size(
        data in prop::collection::vec(0u8..=255u8, 0..100000),
        buf_sizes_1 in prop::collection::vec(1usize..5000, 1..10000),
        buf_sizes_2 in prop::collection::vec(1usize..5000, 1..10000))
    {
        let chunker = hash_roll::gear::Gear32::default();
        let s1 = splits_fce(&chunker, &data[..], &buf_sizes_1[..]);
        let s2 = splits_fce(&chunker, &data[..], &buf_sizes_2[..]);
        assert_eq!(s1, s2);
    }

    #[test]
    #[cfg(feature = ""fastcdc"")]
    fn fastcdc_fce_self_consistent_with_varying_buf_size(
        data in prop::collection::vec(0u8..=255u8, 0..100000),
        buf_sizes_1 in prop::collection::vec(1usize..5000, 1..10000),
        buf_sizes_2 in prop::collection::vec(1usize..5000, 1..10000))
    {
        let chunker = hash_roll::fastcdc::FastCdc::default();
        let s1 = splits_fce(&chunker, &data[..], &buf_sizes_1[..]);
        let s2 = splits_fce(&chunker, &data[..], &buf_sizes_2[..]);
        assert_eq!(s1, s2);
    }

    #[test]
    #[cfg(feature = ""ram"")]
    fn ram_fce_self_consistent_with_varying_buf_size(
        data in prop::collection::vec(0u8..=255u8, 0..100000),
        buf_sizes_1 in prop::collection::vec(1usize..5000, 1..10000),
        buf_sizes_2 in prop::collection::vec(1usize..5000, 1..10000))
    {
        let chunker = hash_roll::ram::Ram::with_w(8192);
        let s1 = splits_fce(&chunker, &data[..], &buf_sizes_1[..]);
        let s2 = splits_fce(&chunker, &data[..], &buf_sizes_2[..]);
        assert_eq!(s1, s2);
    }
}
".

Definition tests_fastcdc_rs : source :=
"#![cfg(feature = ""fastcdc"")]

use hash_roll::fastcdc::FastCdcIncr;
use hash_roll::ChunkIncr;
use rand_pcg::Pcg64;

#[derive(Debug, Clone, PartialEq, Eq)]
struct Vec8K {
    data: Vec<u8>,
}

impl quickcheck::Arbitrary for Vec8K {
    fn arbitrary<G: quickcheck::Gen>(g: &mut G) -> Self {
        // FIXME: the intention is to raise this >8KB, but that makes the tests take far too
        // long to run.
        let l = 1 * 1024 + g.size();

        let mut d = vec![0; l];

        g.fill_bytes(&mut d[..]);

        Vec8K { data: d }
    }

    fn shrink(&self) -> Box<dyn Iterator<Item = Self>> {
        // use the normal Vec shrinkers
        let chain = self.data.shrink().map(|x| Vec8K { data: x });
        Box::new(chain)
    }
}

fn oracle_1(d: Vec8K) -> bool {
    let mut cdc = FastCdcIncr::default();
    let v1 = fast_cdc_8kb(&d.data[..]);
    let v2 = cdc.push(&d.data[..]);

    v1 == v2.unwrap_or(0)
}

fn oracle_1_test(data: &[u8]) {
    let mut cdc = FastCdcIncr::default();
    let v1 = fast_cdc_8kb(&data[..]);
    let v2 = cdc.push(&data[..]).unwrap_or(0);
    assert_eq!(v1, v2);
}

#[test]
fn o1_empty() {
    oracle_1_test(&vec![0]);
}

#[test]
fn o1_qc() {
    quickcheck::quickcheck(oracle_1 as fn(Vec8K) -> bool);
}

fn o1_8k_seed(state: u128) {
    use rand::RngCore;
    let l = 8 * 1024 * 1024 + 1;
    let mut d = Vec::with_capacity(l);
    let c = d.capacity();
    unsafe { d.set_len(c) };
    println!(""seed: {:#x}"", state);
    println!(""len: {}"", c);
    let mut rng = Pcg64::new(state, 0xa02bdbf7bb3c0a7ac28fa16a64abf96);
    for _ in 0..10 {
        rng.fill_bytes(&mut d);
        oracle_1_test(&d);
    }
}

#[test]
fn o1_8k1() {
    let state: u128 = ::rand::random();
    o1_8k_seed(state);
}

#[test]
fn o1_8k_t1() {
    o1_8k_seed(0x6362eca4ca113c1bd10d40b8b10e9ad4);
}

#[test]
fn o1_8k_t2() {
    o1_8k_seed(0x22e622e48004575fe4229bf0da6341c9);
}

#[test]
fn feed_until_5_chunks() {
    use rand::RngCore;
    let mut cdc = FastCdcIncr::default();
    let mut ct = 0;
    let mut rng = ::rand::thread_rng();
    let mut d = [0u8; 256];
    rng.fill_bytes(&mut d);
    loop {
        rng.fill_bytes(&mut d);
        let mut data = &d[..];
        loop {
            let p = cdc.push(&data[..]);
            println!(""p: {:?}, cdc: {:?}"", p, cdc);

            if p == None || p.unwrap() == data.len() {
                break;
            } else {
                ct += 1;
                if ct > 5 {
                    return;
                }
                data = &data[p.unwrap()..];
            }
        }
    }
}

/// A 1-buffer implimentation of FastCDC8KB designed to match the reference pseudocode
fn fast_cdc_8kb(src: &[u8]) -> usize {
    use hash_roll::gear_table::GEAR_64;
    use std::num::Wrapping;
    // these masks are taken from the paper and could be adjusted/adjustable.
    const MASK_S: u64 = 0x0003590703530000;
    //const MASK_A: u64 = 0x0000d90303530000;
    const MASK_L: u64 = 0x0000d90003530000;
    const MIN_SIZE: u64 = 2 * 1024; // 2KB
    const MAX_SIZE: u64 = 64 * 1024; // 64KB
    const NORMAL_SIZE: u64 = 8 * 1024; // 8KB

    let mut fp = Wrapping(0);
    let mut n = src.len();
    let mut normal_size = NORMAL_SIZE as usize;
    if n <= (MIN_SIZE as usize) {
        // Diverge from the reference here:
        //  return 0 to indicate no split found rather than src.len()
        return 0;
    }

    if n >= (MAX_SIZE as usize) {
        n = MAX_SIZE as usize;
    } else if n <= normal_size {
        normal_size = n;
    }

    for i in (MIN_SIZE as usize)..normal_size {
        fp = (fp << 1) + Wrapping(GEAR_64[src[i] as usize]);
        if (fp.0 & MASK_S) == 0 {
            return i;
        }
    }

    for i in normal_size..n {
        fp = (fp << 1) + Wrapping(GEAR_64[src[i] as usize]);
        if (fp.0 & MASK_L) == 0 {
            return i;
        }
    }

    // Diverge from the reference here:
    //  return MAX_SIZE when we've gotten to MAX_SIZE
    //  return 0 to indicate no split found rather than src.len()
    if n == MAX_SIZE as usize {
        n
    } else {
        0
    }
}
".

Definition tests_qc_bup_rs : source :=
"#![cfg(feature = ""bup"")]
use quickcheck::quickcheck;

use hash_roll::ChunkIncr;

quickcheck! {
    fn simple_eq(xs: Vec<u8>) -> bool {
        let mut m1 = hash_roll::bup::RollSumIncr::default();
        let mut m2 = rollsum::Bup::default();

        let v1 = m1.push(&xs);
        let v2 = m2.find_chunk_edge(&xs);

        v1 == v2.map(|x| x.0)
    }

    fn iter_eq(xs: Vec<u8>) -> bool {
        let mut m1 = hash_roll::bup::RollSumIncr::default();
        let mut m2 = rollsum::Bup::default();

        let mut x = &xs[..];
        loop {
            let v1 = m1.push(&x);
            let v2 = m2.find_chunk_edge(&x);

            if v1 != v2.map(|x| x.0) {
                return false
            }

            if v1 == None {
                return true
            }

            let v1 = v1.unwrap();

            x = &x[v1..];
            if x.len() == 0 {
                return true
            }
        }
    }
}

fn chk_a(x: &[u8]) {
    let mut m1 = hash_roll::bup::RollSumIncr::default();
    let mut m2 = rollsum::Bup::default();

    let v1 = m1.push(&x);
    let v2 = m2.find_chunk_edge(&x);

    assert_eq!(v1, v2.map(|x| x.0));
}

fn chk_b(x: &[u8]) {
    use rollsum::Engine;
    let mut m1 = hash_roll::bup::RollSumIncr::default();
    let mut m2 = rollsum::Bup::default();
    let cm = (1 << rollsum::bup::CHUNK_BITS) - 1;

    for (i, &v) in x.iter().enumerate() {
        m1.roll_byte(v);
        m2.roll_byte(v);
        println!(""i={}, v={}"", i, v);
        assert_eq!(m1.digest(), m2.digest());
        assert_eq!(m1.at_split(), (m2.digest() & cm) == cm);
    }
}

#[test]
fn simple_eq_1() {
    chk_a(&[
        92, 6, 28, 35, 68, 82, 35, 71, 34, 19, 9, 45, 97, 17, 11, 6, 53, 39, 93, 49, 29, 17, 37, 6,
        39,
    ]);
}

#[test]
fn simple_eq_1b() {
    chk_b(&[
        92, 6, 28, 35, 68, 82, 35, 71, 34, 19, 9, 45, 97, 17, 11, 6, 53, 39, 93, 49, 29, 17, 37, 6,
        39,
    ]);
}

#[test]
fn simple_eq_2() {
    chk_a(&[67, 3, 23, 73, 86, 64, 26, 25, 81, 53, 26, 82, 98, 86, 28]);
}

#[test]
fn simple_eq_3() {
    chk_a(&[
        40, 58, 57, 0, 16, 2, 32, 88, 0, 22, 23, 74, 90, 88, 95, 99, 86,
    ]);
}
".
