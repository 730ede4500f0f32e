# Formal model of google/riegeli in Rocq (Coq 8.16.1)

## 1. Layout

* `rocq/theories/Base/` – byte lists, `Z`-indexed list operations, 64-bit wrap-around, tactics.
* `rocq/theories/Model/` – definitions only, one file per C++ translation unit, each definition
  citing the file and lines in /repo that it models and saying where it simplifies.
* `rocq/theories/Spec/` – the small specifications against which the properties are stated.
* `rocq/theories/Proof/` – lemmas.
* `rocq/theories/Props/` – nothing but the property theorems (closed by `exact lemma`), a
  `Print Assumptions` under each and an `Example` showing that a non-trivial case meets the hypotheses.

Only the standard library (List, ZArith, Lia, Bool, Sorting) is used.

## 2. Modelling conventions

* A byte string is a `list Z`; `bytes l` says that each element is in [0,256).
* Unsigned machine integers are `Z`; wherever the code can wrap, the model writes `mod 2^64`
  (or `mod 2^32`) explicitly; wherever the code *asserts* (RIEGELI_ASSERT) or relies on absence of
  overflow, the theorem's hypothesis is that assertion.
* Undefined behaviour or a violated assertion is a distinct outcome (`None`/`Fault`), never a default value.
* A loop is structural recursion, or recursion on fuel with a distinct out-of-fuel outcome, which the theorem excludes.
* HighwayHash is a Section variable `hash : list Z -> Z`; the theorems hold for every such function
  (with values in [0,2^64)). Compressors are Section variables with `decompress (compress x) = Some x`.
* A `Reader` source is its content and a position; a failed `Read` moves to the end of the content.
  A growing source is a source whose content is extended between calls.
  A `Writer` destination is the list of bytes written so far.
* A full property that is false of the faithful model is kept in view as a theorem `..._refuted` with a
  concrete witness, next to a guarded positive theorem.

## 3. Properties: what is modelled and how it is proved

| id | model | method |
|----|-------|--------|
| C01-C03 | varint_writing.h, varint_reading.{h,cc} | unrolled loops as recursion over bytes; induction on encoding length |
| C04-C05 | ordered_varint_{reading,writing} | case analysis on lengths, lexicographic order lemma on big-endian digits |
| C06 | endian_{reading,writing}.h | induction on width |
| C07-C08 | records/block.h, ChunkEnd | `Z` arithmetic against a counting spec (number of non-header bytes) |
| C09 | chunk_writer.cc WritePadding / PosAfterPadding | refutation by witness; positive theorem under a guard |
| C10 | chunk.{h,cc}, block.h header layout | little-endian codec lemmas |
| C11-C12 | chunk_writer.cc, chunk_reader.cc | byte-level layout spec; induction on the number of block crossings |
| C13-C14 | chunk_reader.cc with truncated and growing source | simulation: an interrupted read resumes as an uninterrupted one |
| C15 | chunk_reader.cc on arbitrary bytes | invariant over every call sequence |
| C16-C17 | ChunkReader::Recover | layout lemma for block headers; refutation witness for the unguarded progress claim |
| C18 | SeekToChunk | measure + layout lemma; refutation for arbitrary bytes |
| C19-C20 | simple_encoder.cc, simple_decoder.cc, chunk_decoder.cc | codec lemmas |
| C21-C25, C31 | record_writer.cc (serial), record_reader.cc | abstraction to a list of records with positions |
| C26-C27 | record_writer.cc ParallelWorker | labelled transition system; invariant over all interleavings |
| C28-C29 | record_position.cc | codec lemmas; refutation for 16-byte encodings |
| C30 | binary_search.h | loop invariant |
| C32-C34, C40, C43 | linear_/chunked_sorted_string_set.cc | induction over elements; refutation for the equality of split elements and of sets cut differently |
| C35 | csv_writer.cc, csv_reader.cc | character-level automaton in lockstep with the buffered source; refutations |
| C36 | line_reading.cc, line_writing.h, text_{reader,writer}.cc | induction over text, for every buffering |
| C37 | limiting_reader.{h,cc}, limiting_writer.{h,cc} | refinement over the models and the invariants of C45 and C38: the buffer is a part of the buffer of the original reader or writer; any history of calls, limits and scopes against a byte string with a cursor and a limit |
| C38 | writer.{h,cc}, buffered_writer.cc, buffer_options.{h,cc}, fd_writer.cc | refinement: any history of calls against a file with a cursor, system calls under an oracle |
| C39 | chain_base.h, chain_details.h, chain.cc | refinement: a heap of reference counted blocks; invariant (reference counts are exact, a block which is changed has one owner, offsets of blocks modulo 2^64, external blocks within blocks) for each function; then any history over any number of Chains and Blocks against plain strings |
| C41 | transpose_encoder.cc, transpose_decoder.cc | staged: message splitting (callbacks run backwards restore the records), buffers, state machine (every transition is found, no implicit loop), serialization; refutation for lengths of 2^32 and more |
| C42 | base/object.{h,cc} | state machine over a heap of statuses; invariant over every history |
| C44 | bytes/byte_fill.{h,cc} | induction over blocks; refutation for the move constructor |
| C46 | record_reader.cc: CheckFileFormat, ReadSerializedMetadata, ParseMetadata, FailReading | refinement: the cursor of C23 is not moved; the second chunk of a file written by sessions is known; refutation for growing sources |
| C47 | transpose_decoder.cc, chunk_decoder.cc | the bound on iterations in the model is a parameter of the result and never matters: rank of implicit transitions from ContainsImplicitLoop, each other iteration takes a transition byte or one of three repetitions; invariant: limits descend within what is written |
| C48 | record_reader.cc: ReadRecordImpl with TryRecovery, Recover | simulation: the record reader follows the run of the chunk reader of C16/C17 event by event, C20/C47 for chunks with arbitrary contents |
| C49 | compact_string.h, compact_string.cc | refinement: memory is a list of allocations with their bytes, every access outside, wrong deallocation and failed assertion is an explicit failure; invariant: the allocations in use are exactly those of the strings, each once; then any history over any number of CompactStrings against plain strings |
| C50 | riegeli/text/write_int.{h,cc}, riegeli/bytes/write_int_internal.{h,cc}, Write() of integers in writer.cc and backward_writer.cc | every function is shown to produce the fixed length numeral of least sufficient length (one lemma per branch, joining high and low parts); the digit table arithmetic on 16-bit words is lifted from single bytes and 16-bit values checked exhaustively by computation inside the kernel; sizes by the table of thresholds |
| C51 | background_cleaning.{h,cc} | transition system: each critical section is a step, waiting is a guard, the background thread has its own program state; invariant: entries before next_ have no deadline, those from next_ on are sorted by it, a waiting thread was told of every earlier deadline; refinement to a map from tokens to due times, and progress by running the thread from any reachable state |
| C52 | base/arithmetic.h | an integer type is its signedness and width; each comparison and operation first applies the promotions and usual conversions of C++ to its operands, results are reduced to the type; a failed assertion is None. Proved that no conversion changes a compared value (by cases over the types), then by linear arithmetic; rounding by the meaning of the bitwise operations |
| C45 | reader.{h,cc}, buffered_reader.cc, buffer_options.cc, fd_reader.cc | refinement: weakest preconditions of each function over an invariant (the buffer is a slice of the file), any history of calls against a byte string with a cursor, system calls under an oracle |

Status of each property, with the theorem names: MANIFEST.json (properties without a proved theorem are not listed there).

### What is modelled, file by file, and what is left out

* `Model/Varint.v`, `OrderedVarint.v`, `Endian.v`: the array and the Reader variants; not the Cord/Chain overloads that call them.
* `Model/Chain.v`, `ChainWorld.v`: Chain and Chain::Block: all functions which change a Chain, comparison, search by index. Blocks are in a heap with reference counts; a freed block has no bytes. Left out: Cord, AppendFrom(CordIterator), Chain::FromExternal on types with their own conversions, the position of block pointers in their array (only whether it is allocated), estimates of memory, threads (C++ memory order), appending a Chain to itself. Hypothesis `platform_ok`: the allocator gives at least what is asked for and offset + capacity is at most 2 * asked + 512 (RawBlock::Copy() asserts it).
* `Model/CompactString.v`: all functions of CompactString, at the level of bytes in memory. Left out: hashing, memory estimation, poisoning.
* `Model/WriteInt.v`: all functions of write_int_internal and write_int, with SSSE3 and without; characters written before or after a pointer are the returned list, the space asked for is checked. char and bool arguments are left out.
* `Model/Cleaner.v`: all of BackgroundCleaner; std::list with iterators as identities of entries, an invalid iterator is a failure. absl::Mutex and the thread pool are trusted; Clean() itself is a call which begins and ends, during which anything else may happen.
* `Model/Arithmetic.v`: all functions of arithmetic.h; the comparisons and operations with the conversions which C++ applies (int of 32 bits).
* `Model/Block.v`, `Chunk.v`, `ChunkWriter.v`, `ChunkReader.v`: all functions. Sources are contents with a position; growing is
  modelled, shrinking of the file between calls is not (C15 says so).
* `Model/SimpleChunk.v`, `ChunkDecoder.v`: all; field projection "all fields".
* `Model/RecordWriter.v` (serial), `ParallelWriter.v`: options relevant to layout; the destination of the serial model does not fail,
  that of the parallel model fails at any request chosen by the schedule.
* `Model/RecordReader.v`, `RecordSearch.v`, `BinarySearch.v`: no recovery function; records as byte strings; no metadata parsing by
  protobuf.
* `Model/RecordMetadata.v`: CheckFileFormat, ReadSerializedMetadata; parsing the metadata message and the recovery function are left out.
* `Model/RecordPosition.v`: text and binary codecs, comparison.
* `Model/StringSet.v`, `ChunkedStringSet.v`: builders, iterators, queries, comparison, encoding; not memory estimation, not hashing
  (the function hashed is the list of elements), not lifetimes (see finding 15).
* `Model/BufferedSource.v`, `Lines.v`, `Csv.v`: the source is any buffering of a byte string, ending or failing. Csv: without headers,
  without status texts, the destination does not fail, line numbers do not overflow.
* `Model/Object.v`: states, statuses and their heap; OnFail() of derived classes is not modelled; nor is the atomicity of concurrent
  reads of the state.
* `Model/BufferSizer.v`, `BufferedWriter.v`, `ByteFill.v`: Writer over BufferedWriter over FdWriter; not ReadMode(), EINTR, bad_alloc.
* `Model/BufferedReader.v`: Reader over BufferedReader over FdReader; not Copy(), NewReader(), EINTR, bad_alloc; the file does not change
  while it is being read.
* `Model/LimitingReader.v`: LimitingReader and ScopedLimiter over `Model/BufferedReader.v`; not Copy(), NewReader(), moving, ReaderSpan.
* `Model/LimitingWriter.v`: LimitingWriter over `Model/BufferedWriter.v`; not ReadMode(), moving.
* `Model/TransposeEncoder.v`, `TransposeDecoder.v`: splitting of messages, buffers and buckets, the state machine with its private and
  public lists and NoOp states, serialization; parsing, implicit loop check, the decoding loop. The projection is "all fields" (so
  buckets are decompressed at once, not when needed); kInvalidPos is `None`, so indices and sizes are below 2^32 by the hypotheses of
  the theorems; hash maps are iterated in an arbitrary order; a priority queue is a sorted list.

Not modelled: memory safety and allocation failure, thread scheduling below the level of queue
operations, performance, protobuf reflection.

## 4. Trusted base

Coq's kernel (and coqchk), the statements in `Spec/` and `Props/`, and the faithfulness of `Model/` to the
C++ source, which was read, not run. `Print Assumptions` is under each theorem; see section 5 for the list.

## 5. Print Assumptions

Every theorem in `Props/`: "Closed under the global context" (no axioms). Functions which are parameters of
the theorems (hash, compression, transposed encoding) are universally quantified in the statements, with the
assumptions about them as explicit hypotheses (`codecs` in Spec/SessionSpec.v; `toy_codecs` in Props/RecordProps.v shows
that they can be met; C41_codecs proves that the modelled transposed encoding meets those about it). A listing of the whole environment shows seven axioms of Coq.ssr.ssrunder, a file of the standard library
loaded by others; no theorem depends on them.

## 6. Findings about the code

Each was found by a proof that could not be completed. Those with a theorem name are proved of the model with a witness.

1. PosAfterPadding / WritePadding miss the target for some paddings (C09_padding_refuted).
2. ChunkReader::Recover may not make progress on crafted block headers (C17 `_refuted`).
3. SeekToChunk* may loop for ever on arbitrary bytes (C18_seek_refuted).
4. RecordPosition::FromBytes takes an encoding of exactly 16 bytes for the old format (C29_round_trip_refuted).
5. Equality of split elements of LinearSortedStringSet has inverted conditions (C34_split_equal_refuted).
6. CSV: without a quote character a leading BOM is lost; HasNextRecord() is false with ok() after a CR without LF (C35).
7. The padding region of a chunk is skipped by Seek without checking the block headers inside.
8. A source that shrinks and grows again between reads can give a chunk that never was there (why C15 excludes shrinking).
9. DeferredEncoder::AddRecords lacks the overflow check of decoded_data_size that its siblings have.
10. RecordReader::SeekBack visits empty chunks twice (harmless).
11. The comment of RecordPosition::ToBytes does not describe the format.
12. Search() on a truncated file returns `greater` although the searched record may be missing (C31 `_refuted`).
13. Search() with a test that reads ahead skips chunks (C31 `_refuted`).
14. The parallel writer deadlocks if encoding of a chunk fails (C26 `_refuted`).
15. SplitElementIterator's default copy and move leave prefix_ pointing into the source object (lifetimes are not modelled).
16. ChunkedSortedStringSet with chunk size 0 is undefined behaviour (C40_chunk_size_zero).
17. TextReader does not report a failure of its source (C36_text_reader_failure_refuted).
18. CSV with quote character 0xEF can write output that starts with a BOM (C35).
19. CSV recovery after a too long field depends on the buffering of the source (C35).
20. BufferedReader::ShareBufferTo gives a new reader a buffer that begins before the base position of its sizer (debug assertion).
21. FdWriter created beyond the end of the file: Seek/Truncate (C38_seek_beyond_end_refuted).
22. The move constructor of ByteFill::Blocks leaves out a member (C44_move_refuted).
23. Truncate() with assumed_pos (C38_truncate_assumed_refuted).
24. Seek() after Fail() called by the user (C38_seek_after_fail_refuted).
25. Seek() when lseek() fails while random access is being checked (C38_seek_unknown_refuted).
26. Transposed chunks: the length of a non-proto record is written as a varint64 and read as a varint32 (C41_long_record_refuted).
27. Transposed chunks: a string field with a length close to 2^32 is encoded but cannot be decoded (C41_long_string_refuted).
28. ReadMetadata()/ReadSerializedMetadata() cannot be repeated after it returned false with ok() because the source ended within the metadata: it fails when the source has grown, unlike ReadRecord() (C46_growing_refuted).
29. FdReader opened beyond the end of the file (independent_pos): after a read which returns nothing, Size() returns the position instead of the size (C45_beyond_end_refuted).
30. FdReader with independent_pos or growing_source: SupportsRandomAccess() is true while SupportsSize() is false, against the invariant documented in reader.h:421 (C45_supports_size_refuted).
31. Sync() on a failed reader moves pos() over data which the user has not read (C45_sync_failed_refuted).
32. LimitingReader: set_max_pos() before pos() leaves the original reader where it is; if the limit is then raised (set_max_pos(), clear_limit(),
    the end of a ScopedLimiter) reading continues from there, not from pos() (C37_behind_refuted).
33. A ScopedLimiter always makes the LimitingReader exact, even if neither its options nor the LimitingReader are: reading to the end of
    a shorter source fails, and Size() returns the limit, even 2^64-1 (C37_scope_exact_refuted, C37_scope_size_refuted). limiting_reader.h:411-419 documents that it is similar to making another LimitingReader.
34. LimitingReader::Close() with fail_if_longer() returns true if reading the unowned source fails while its end is being verified (C37_longer_unverified_refuted).
35. limiting_reader.h:437-439 documents the precondition of ~ScopedLimiter() inverted with respect to its assertion (745-749).
36. LimitingWriter::SetWriteSizeHint() has no check of ok() (limiting_writer.h:386-397): after the limit was exceeded an assertion fails, or without
    assertions the cursor of the original writer becomes null (C37_hint_after_failure_refuted).
37. LimitingWriter: after Seek() back within the buffer, and decreasing the limit below what was written before, bytes beyond the limit which are accepted to
    the buffer overwrite what was there; the writer fails, but these bytes get to the file (C37_overwrite_beyond_limit_refuted).
38. LimitingWriter::Truncate() to a size beyond the limit returns true although it has made the writer fail (C37_truncate_beyond_limit_refuted).
39. LimitingWriter::SupportsRandomAccess() does not synchronize the buffer after a call which can make the original writer fail: the limiting writer stays ok()
    and accepts bytes to a buffer which the original writer does not have (C37_random_access_refuted).
40. pos() of a LimitingWriter which has failed in Close() because of exact() goes back to the start of the buffer (C37_writer_exact_example).

41. Chain::Append(Block) and Prepend(Block) of an empty block, next to an empty block which is shared, with a size hint equal to size() (or a zero min_block_size): NewBlockCapacity() is 0 and the assertion of RawBlock::NewInternal() fails (Chain_empty_block_fails).
42. CompactString: capacities between 2^64 - 31 and max_size() pass the check in MakeReprSlow(), but RoundUp<16>() in EstimatedAllocatedSize() wraps around to 0, so the header is written outside of an allocation of length 0 (CompactString_max_size_fails). Only reachable with absurd arguments of reserve() or resize().
43. UnsignedMax() and UnsignedClamp() of two different unsigned types narrower than int return int (std::common_type_t applies the promotions), not "their widest type" as documented; the value is right (Min_Max), but a third argument does not compile. RoundUp() wraps around to 0 when the multiple does not fit (RoundUp_least); its documentation does not say so.

## 7. Wrong programs

`seeded/LOG.jsonl` has one line per wrong program tried (`tools/mutate.py` applies the edit to a copy, rebuilds what depends on it and
records which proofs fail).
