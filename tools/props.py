#!/usr/bin/env python3
# Source of truth for properties.jsonl (run: python3 tools/props.py > properties.jsonl)
import json
P=[]
def p(i,t,s,q,w,a): P.append(dict(id=i,title=t,statement=s,quantifier=q,why_tests_cant=w,anchors=a))
V="riegeli/varint/"; R="riegeli/records/"; CE="riegeli/chunk_encoding/"
p("C01","Varint round trip",
 "Writing any uint32/uint64 with WriteVarint32/64 and reading it back with ReadVarint32/64 (or the canonical variant), whatever bytes follow it, returns the same value and consumes exactly the bytes written, and LengthVarint32/64 equals that number of bytes (at most 5/10).",
 "every 32/64-bit value and every continuation of the byte stream","2^64 values times arbitrary suffixes",
 [V+"varint_writing.h: WriteVarint64, LengthVarint64",V+"varint_reading.cc: ReadVarintFromArray"])
p("C02","Varint reading rejects malformed input and never over-reads",
 "ReadVarint64/32 on an arbitrary byte array succeeds exactly when the array begins with a varint encoding of at most 10/5 bytes whose value fits in 64/32 bits; the value returned is the base-128 value of those bytes; otherwise it fails. The canonical variant succeeds exactly when, in addition, the encoding is the shortest one.",
 "every byte array, of every length","the space of malformed encodings is unbounded",
 [V+"varint_reading.cc: ReadVarintFromArray",V+"varint_reading.h: ReadVarint64, ReadCanonicalVarint64"])
p("C03","Zigzag signed varint bijection",
 "EncodeVarintSigned32/64 followed by DecodeVarintSigned32/64 is the identity in both directions and maps values of small magnitude to small unsigned values (0,-1,1,-2,... to 0,1,2,3,...).",
 "every signed and unsigned 32/64-bit value","2^64 inputs",
 [V+"varint_writing.h: EncodeVarintSigned64",V+"varint_reading.h: DecodeVarintSigned64"])
p("C04","Ordered varint round trip and canonicity",
 "ReadOrderedVarint32/64 applied to the output of WriteOrderedVarint32/64 followed by any bytes returns the value and consumes exactly LengthOrderedVarint bytes; conversely any byte string accepted by the reader is exactly the writer's output for the returned value.",
 "every value, every byte string","2^64 values; arbitrary malformed inputs",
 ["riegeli/ordered_varint/ordered_varint_reading.cc","riegeli/ordered_varint/ordered_varint_writing.cc"])
p("C05","Ordered varint preserves order",
 "For any two uint64 values a < b, the encoding of a is lexicographically smaller (as unsigned bytes) than the encoding of b, even when each is followed by arbitrary further bytes.",
 "every pair of values and suffixes","2^128 pairs",["riegeli/ordered_varint/ordered_varint_writing.h"])
p("C06","Fixed-width endian codecs",
 "ReadLittleEndian/ReadBigEndian invert WriteLittleEndian/WriteBigEndian for every width (8..64 bits), both directions, and big-endian encoding preserves order lexicographically.",
 "every value of each width; every byte array of the width","2^64 values",
 ["riegeli/endian/endian_reading.h","riegeli/endian/endian_writing.h"])
p("C07","Block overhead arithmetic agrees with the byte-level block layout",
 "For a chunk beginning at any possible chunk boundary, the position reported after `length` chunk bytes (AddWithOverhead) is the least position such that exactly `length` non-block-header bytes lie between; DistanceWithoutOverhead counts the non-header bytes between any chunk boundary and any later position and inverts AddWithOverhead.",
 "every chunk boundary and length below the 2^64 overflow limit","unbounded positions; boundary cases at every block edge",
 [R+"block.h: AddWithOverhead, DistanceWithoutOverhead"])
p("C08","Chunk end is the minimal legal end",
 "ChunkEnd is the least position that is a possible chunk boundary, is not before the end of the chunk's header and data (with intervening block headers), and is at least num_records bytes after the chunk begin; RoundUpToPossibleChunkBoundary returns the least possible chunk boundary at or after a position.",
 "every chunk begin, data size and record count below overflow","unbounded domain",
 [R+"block.h: ChunkEnd, RoundUpToPossibleChunkBoundary, IsPossibleChunkBoundary"])
p("C09","Padding target position",
 "WritePadding(padding) leaves the writer at a multiple of `padding` which is a possible chunk boundary, and the padding chunk it writes is well formed (non-negative data length); nothing is written if the position already is a multiple or padding <= 1; the search for the position terminates.",
 "every position and every padding >= 1","padding/position pairs are unbounded; failing ones are sparse",
 [R+"chunk_writer.cc: PosAfterPadding, WritePadding"])
p("C10","Chunk header codec",
 "A ChunkHeader built from data, type, number of records (< 2^56) and decoded size returns exactly these fields from its accessors, is 40 bytes long, and its stored header hash equals its computed header hash; BlockHeader likewise (24 bytes).",
 "every data chain, type, num_records <= kMaxNumRecords, decoded size","2^56 x 2^64 field values",
 [CE+"chunk.h: ChunkHeader",R+"block.h: BlockHeader"])
p("C11","Chunk writer emits the documented file layout",
 "Writing any sequence of chunks from any start position yields bytes in which every block boundary carries a block header with a correct hash, previous_chunk = distance to the beginning of the interrupted chunk and next_chunk = distance to its end, and in which removing the block headers leaves header ++ data ++ zero padding of each chunk in order; the final position is the sum of the chunk extents.",
 "every sequence of chunks, every start position","unbounded sequences and sizes crossing block boundaries anywhere",
 [R+"chunk_writer.cc: WriteChunk, WriteSection, WritePadding"])
p("C12","Chunk write/read round trip",
 "Reading a file produced by the chunk writer returns exactly the chunks written, in order, then reports end of source with ok(); Close() succeeds.",
 "every hash function, every sequence of chunks","unbounded chunk sizes, alignment with blocks",
 [R+"chunk_writer.cc: WriteChunk",R+"chunk_reader.cc: ReadChunk, PullChunkHeader, ReadChunkHeader"])
p("C13","Truncated file yields exactly the complete chunks",
 "If a valid file is cut at an arbitrary byte (crash while appending), reading returns exactly the chunks wholly contained in the prefix, then false with ok(); Close() then reports truncation iff the cut is strictly inside a chunk.",
 "every valid file and every cut position (crash point)","a crash can occur at every byte",
 [R+"chunk_reader.cc: ReadChunk, FailReading, Done"])
p("C14","Reading a growing file is schedule independent",
 "If the source grows by arbitrary increments between read attempts (a reader tailing a writer), the sequence of chunks returned over all attempts equals the chunks of the final contents, independent of where the growth steps fell.",
 "every growth schedule","infinitely many schedules, resumption inside headers",
 [R+"chunk_reader.cc: PullChunkHeader, ReadChunkHeader, ReadBlockHeader, ReadChunk"])
p("C15","No chunk with a mismatching hash is ever returned",
 "On any byte sequence whatsoever (corrupted arbitrarily), every chunk returned by ReadChunk, with any interleaving of Seek/Recover calls, has a header whose stored hash matches its contents and data whose hash and size match the header.",
 "every file content and call sequence","corruption space is all byte strings",
 [R+"chunk_reader.cc: ReadChunk, ReadChunkHeader, Recover"])
p("C16","Recovery after corruption is local",
 "If a valid file is corrupted arbitrarily before some block boundary B and the failure was detected there, Recover() followed by reading returns exactly the chunks of the original file beginning at or after the chunk boundary designated by the first intact block header, and the reported skipped region ends there.",
 "every valid file and every corruption of a prefix","corruptions are unbounded",
 [R+"chunk_reader.cc: Recover"])
p("C17","Recovery makes progress",
 "Each successful Recover() strictly advances the position (the skipped region is non-empty and does not go backwards), so reading with automatic recovery terminates on every file.",
 "every file content","needs adversarial contents with valid hashes",
 [R+"chunk_reader.cc: Recover",R+"record_reader.cc: ReadRecordImpl"])
p("C18","Seeking to a chunk",
 "In a valid file, SeekToChunkContaining(pos)/SeekToChunkBefore/SeekToChunkAfter position the reader at the chunk which contains the record position pos / the last chunk beginning at or before pos / the first chunk beginning at or after pos, from any starting position, and terminate.",
 "every valid file, target position and starting state","unbounded files; interplay with block headers",
 [R+"chunk_reader.cc: SeekToChunk"])
p("C19","Simple chunk codec round trip",
 "For any list of byte-string records and any compression algorithm for which decompression inverts compression, decoding the chunk produced by SimpleEncoder (via AddRecord or AddRecords) yields exactly the records, with num_records and decoded_data_size equal to their count and total size.",
 "every list of records","unbounded lists and sizes",
 [CE+"simple_encoder.cc",CE+"simple_decoder.cc",CE+"chunk_decoder.cc"])
p("C20","Simple chunk decoder soundness on arbitrary input",
 "On arbitrary chunk data and header fields the decoder either fails or returns exactly num_records records whose sizes sum to decoded_data_size and whose concatenation is the decompressed values; it never reads past the data.",
 "every byte string and header","malformed inputs are unbounded",
 [CE+"simple_decoder.cc: Decode",CE+"chunk_decoder.cc: Parse"])
p("C21","RecordWriter/RecordReader end-to-end round trip",
 "For any sequence of WriteRecord and Flush calls with any chunk size and padding, after Close() reading the file with RecordReader returns exactly the written records in order and then end of file with ok().",
 "every operation history and option setting","unbounded histories",
 [R+"record_writer.cc: WriteRecordImpl, Flush, Done",R+"record_reader.cc: ReadRecordImpl, ReadChunk"])
p("C22","Flushed records survive a crash",
 "After Flush() returned true, every record written before it is returned by a reader of any later prefix of the file that includes the flushed bytes, whatever happens afterwards.",
 "every history, every later crash point","crash points and histories are unbounded",
 [R+"record_writer.cc: Flush, SerialWorker::CloseChunk"])
p("C23","Record positions are unique, increasing and seekable",
 "LastPos() of successive writes is strictly increasing both as a pair and as numeric(); Seek(LastPos()) on a reader makes the next ReadRecord return that very record, and the reader's last_pos() equals the writer's LastPos().",
 "every write history and every record","all pairs of records of all files",
 [R+"record_writer.cc: LastPos",R+"record_position.h: RecordPosition",R+"record_reader.cc: Seek"])
p("C24","Numeric seek lands on the next record",
 "In a valid file Seek(Position p) for any p in [0, file size] makes the next ReadRecord return the first record whose numeric position is >= p (or end of file).",
 "every valid file and every p","every integer position",
 [R+"record_reader.cc: Seek(Position)"])
p("C25","SeekBack inverts ReadRecord",
 "In a valid file, from any position reached by reading, SeekBack() moves to the previous record (so the next ReadRecord returns it) and returns false with ok() exactly at the beginning of the file.",
 "every file and position","unbounded runs of empty chunks in between",
 [R+"record_reader.cc: SeekBack"])
p("C26","Parallel writer equals serial writer",
 "With parallelism > 0, for every interleaving of the user thread, the encoder tasks and the chunk writer thread, the bytes written equal those of the serial writer for the same calls, requests are performed in submission order, and the queue never exceeds its bound (plus the closing request).",
 "every schedule and call history","schedules cannot be enumerated",
 [R+"record_writer.cc: ParallelWorker"])
p("C27","Future record positions are correct",
 "A FutureRecordPosition obtained from the parallel writer at any moment resolves to the position at which the chunk is eventually written, regardless of how many pending requests were already performed when it was taken.",
 "every schedule and moment of the call","race between position snapshot and queue draining",
 [R+"record_writer.cc: ParallelWorker::ChunkBegin",R+"record_position.cc: FutureChunkBegin::Unresolved::Resolve"])
p("C28","RecordPosition text codec",
 "FromString(ToString(p)) = p for every record position, and FromString rejects positions whose numeric value overflows 64 bits.",
 "every position","2^128 positions",[R+"record_position.cc: ToString, FromString"])
p("C29","RecordPosition binary codec and order",
 "FromBytes(ToBytes(p)) = p for every record position, and byte-wise order of serialized positions equals the order of positions.",
 "every position and pair of positions","failing positions are sparse",[R+"record_position.cc: ToBytes, FromBytes"])
p("C30","Binary search contract",
 "For any test function satisfying the documented ordering precondition (less before equivalent before greater, unordered anywhere) BinarySearch returns: equivalent with an equivalent position if one exists, else greater with the earliest greater position, else less/unordered with the end of range; it terminates and never tests a position twice nor outside the narrowed range.",
 "every range and test function","functions are infinite objects",["riegeli/base/binary_search.h: BinarySearch"])
p("C31","RecordReader::Search contract",
 "In a valid file Search(test) satisfies the documented result for any test on records that is monotone: it points to some equivalent record, else to the earliest greater record, else to the end of file.",
 "every valid file and test function","functions and files are unbounded",[R+"record_reader.cc: SearchImpl"])
p("C32","LinearSortedStringSet represents the set",
 "Building a LinearSortedStringSet from any strictly increasing sequence and iterating it yields that sequence; size(), first(), last(), contains() (with its index) agree with the mathematical set.",
 "every sorted sequence of byte strings, every query","unbounded strings and sharing patterns",
 ["riegeli/containers/linear_sorted_string_set.cc"])
p("C33","LinearSortedStringSet decode validation",
 "Decode(Encode(s)) = s; on arbitrary bytes Decode with validation either fails or yields a set whose elements are strictly increasing and whose iteration never reads out of bounds.",
 "every byte string","malformed encodings are unbounded",["riegeli/containers/linear_sorted_string_set.cc: DecodeImpl"])
p("C34","Split element comparison agrees with string comparison",
 "Equality and three-way comparison of split elements (prefix + suffix) agree with equality/comparison of the concatenated strings, hence set equality depends only on elements and not on how they are encoded.",
 "every pair of split strings","the faulty split combinations are specific",
 ["riegeli/containers/linear_sorted_string_set.cc: SplitElement::Equal, SplitElement::Compare"])
p("C35","CSV round trip",
 "Reading with CsvReader what CsvWriter wrote (compatible options, non-empty records) returns the same records, for any field contents including separators, quotes, newlines and comment characters; with quoting disabled, the writer reports an error instead of writing an ambiguous record.",
 "every list of records, every option combination","field contents are unbounded",
 ["riegeli/csv/csv_writer.cc","riegeli/csv/csv_reader.cc"])
p("C36","Line reading splits exactly",
 "ReadLine over any text with any newline convention returns the lines separated by newlines, in order, each once; concatenating lines written by WriteLine and reading them back is the identity for lines without newline characters.",
 "every byte string","unbounded texts, CR LF split across buffers",["riegeli/lines/line_reading.cc","riegeli/lines/line_writing.h"])
p("C37","Limiting reader/writer never exceed the limit",
 "For any sequence of calls of Reader functions, set_max_pos(), set_max_length(), clear_limit(), set_exact(), set_fail_if_longer(), ScopedLimiters which begin and end, and Close() on a LimitingReader, over an original reader in any state: every result and pos() are those of the byte string of the original reader ending at the limit; nothing beyond the limit is read; with exact() it fails if and only if data before the limit are asked for which the source does not have; after Sync() or Close() the original reader is at pos(); with fail_if_longer() Close() at the limit returns true only if the source ends there; no assertion fails. For any sequence of calls of Writer functions, limit changes, Flush() and Close() on a LimitingWriter, owning the original writer or not: the original writer gets exactly the bytes below the limit; bytes beyond it may be accepted to the buffer, and then the writer fails at the next call which writes the buffer unless the limit is increased before; with exact() Close() fails if the limit was not reached; Seek() does not go beyond the limit; once it has failed, nothing more is written; no assertion fails.",
 "every operation sequence, limits, buffers of the original reader, failures of system calls","unbounded histories of calls and limits; interplay of the limit with buffer boundaries",["riegeli/bytes/limiting_reader.h","riegeli/bytes/limiting_reader.cc","riegeli/bytes/limiting_writer.h","riegeli/bytes/limiting_writer.cc"])
p("C38","A buffered writer is a file with a cursor",
 "For any sequence of writes of any sizes and forms, Push, Flush, Seek, Size, Truncate, size hints, any buffer sizes, any short writes: if the writer is good then the results, pos() and the content the file will have are those of a file with a cursor; after Flush() or Close() returns true the file has that content; Close() returning true means that nothing failed before; if system calls fail while writing sequentially at the end of the file then the file has a prefix of what was written; no assertion fails; without failures of system calls nothing fails.",
 "every operation sequence, buffer sizes, short writes and failures of system calls","buffer boundary cases and failure points are unbounded",["riegeli/bytes/buffered_writer.cc","riegeli/bytes/writer.h","riegeli/bytes/writer.cc","riegeli/bytes/fd_writer.cc"])
p("C45","A buffered reader is a byte string with a cursor",
 "For any sequence of Pull, Read (to memory, view, Chain/Cord), ReadByte, ReadSome, ReadHint, SetReadAllHint, Sync, Seek, Skip, Size, VerifyEnd and Close, any buffer sizes, any short reads and failures of system calls: every result and pos() are those of the byte string of the source with a cursor (what is read are consecutive pieces of the source; less than asked for only at the end or on failure); results do not depend on buffer sizes or on how much each system call reads; after Sync() or Close() the file descriptor is at pos(); a reader with an independent position does not move the file descriptor; no assertion fails; without failures of system calls nothing fails. (The reader is opened not beyond the end of the file: otherwise Size() may be wrong.)",
 "every operation sequence, buffer sizes, short reads and failures of system calls","buffer boundary cases and failure points are unbounded",["riegeli/bytes/buffered_reader.cc","riegeli/bytes/fd_reader.cc","riegeli/bytes/reader.h","riegeli/bytes/reader.cc","riegeli/bytes/buffer_options.cc"])
p("C39","Chain is a byte string",
 "For any program with any number of Chains and Chain::Blocks which share data and any sequence of calls (Append and Prepend of strings, external objects, Chains and Blocks, copied or moved; AppendBuffer, PrependBuffer, RemovePrefix, RemoveSuffix, Clear, assignment, move, swap, Flatten, taking a Block out of a Chain, destruction), with any options: each call has on the contents of the Chains the effect of the corresponding operation on flat byte strings, and changes no other Chain or Block; size(), iteration over blocks, comparison, and the search of a block by index agree with the contents; no assertion fails as long as sizes fit in size_t; no block is used after it is freed, and every block is freed when all Chains and Blocks are destroyed.",
 "every history of calls on every number of Chains and Blocks, options, block structures and allocated capacities","block structures and sharing are unbounded",["riegeli/base/chain.cc","riegeli/base/chain_base.h","riegeli/base/chain_details.h"])
p("C40","ChunkedSortedStringSet represents the set",
 "Building a ChunkedSortedStringSet with any chunk size yields the same elements on iteration, contains() and size() agree with the mathematical set.",
 "every sorted sequence and chunk size","unbounded",["riegeli/containers/chunked_sorted_string_set.cc"])
p("C41","Transposed chunk round trip",
 "For any list of byte-string records (serialized messages with any nesting, or arbitrary bytes, in any mix), any compression and any bucket size, the transposed encoder does not fail and decoding what it wrote returns the same records. (Sizes are 32-bit in the code: the number of records plus twice their total size is below 2^29; for records of 2^32 bytes the claim is false.)",
 "every list of records, compression, bucket size and order of iteration over hash maps","the encoding is stateful with unbounded nesting",[CE+"transpose_encoder.cc",CE+"transpose_decoder.cc"])
p("C42","Object failure state is sticky",
 "Once an object fails, its status is the first failure until it is reset/recovered, ok() is false, and later failures do not overwrite it; Close() is idempotent.",
 "every call history","histories unbounded",["riegeli/base/object.h","riegeli/base/object.cc"])
p("C43","ChunkedSortedStringSet serialization and comparison",
 "Decode() accepts exactly the documented representations within the given limits (with no empty chunks and, with validation, sorted and unique elements across chunks); Decode(Encode(s)) = s; three-way comparison of two sets is the lexicographic comparison of their elements whatever their chunk sizes and representations; equality holds iff the elements are the same.",
 "every byte string, every pair of sets and chunk sizes","unbounded inputs, independent representations of the same set",["riegeli/containers/chunked_sorted_string_set.cc","riegeli/containers/chunked_sorted_string_set.h"])
p("C44","A ByteFill is a repeated byte",
 "Iterating over the blocks of a ByteFill (as Write(ByteFill), Chain and Cord conversions do) yields non-empty blocks which together are exactly size copies of the fill byte; moving the Blocks object does not change them.",
 "every size and fill byte","block boundaries and sizes up to 2^64 cannot be enumerated",["riegeli/base/byte_fill.h: Blocks","riegeli/base/byte_fill.cc"])
p("C46","File metadata and file format check",
 "For a file written by one or more sessions: CheckFileFormat() of a new reader succeeds, and ReadSerializedMetadata(), also after CheckFileFormat(), returns the metadata from the options of the session which created the file (no metadata of later sessions), or empty ones; false without a failure is returned only if there are neither metadata nor records; afterwards the reader is at the first record. CheckFileFormat() at any other moment does not disturb reading. Metadata which cannot be decoded are reported as a failure, and recovery skips exactly their chunk.",
 "every sequence of sessions, options, records and reader calls","file contents and histories of calls are unbounded",["riegeli/records/record_reader.cc: CheckFileFormat, ReadSerializedMetadata, ParseMetadata","riegeli/records/record_writer.cc: metadata"])
p("C47","Decoding arbitrary transposed chunks",
 "Decoding a transposed chunk with arbitrary (corrupted or malicious) contents ends: no state machine in the chunk makes the decoder loop forever. If the chunk is accepted, exactly the declared number of records with the declared total size can be read, also after seeking within the chunk; otherwise decoding fails.",
 "every source, declared number of records and declared size, every decompression function","inputs are arbitrary bytes, and the state machine they describe is an arbitrary program",["riegeli/chunk_encoding/transpose_decoder.cc: Parse, ContainsImplicitLoop, Decode","riegeli/chunk_encoding/chunk_decoder.cc"])
p("C48","Reading records from damaged files",
 "Reading records with recovery (calling Recover() whenever ReadRecord() fails, or with a recovery function) ends with ok() on any content with credible block headers; record positions only go forward, skipped regions are not empty, and chunks which cannot be decoded are skipped exactly. If part of a file written by any sessions is overwritten (without forging a hash), exactly the original records, with their original positions, of all chunks not near the damage are returned; the position of each record which is not returned is in a reported skipped region.",
 "every content, every sequence of sessions, every damaged range, every recovery function","file contents, damage and answers of the recovery function are arbitrary",["riegeli/records/record_reader.cc: ReadRecordImpl, Recover, ReadChunk","riegeli/records/record_reader.h: TryRecovery","riegeli/records/chunk_reader.cc: Recover"])
p("C49","CompactString is a byte string",
 "For any program with any number of CompactStrings and any sequence of calls (construction from a size, a string, another CompactString, ForCStr; assignment of strings, of a part of itself, of other CompactStrings and of itself; move; set_size, resize with and without a used size, reserve, shrink_to_fit, append of a length, a string or a part of itself, c_str, assignment of characters, destruction): each call has the effect of the corresponding operation on a byte string, and changes no other CompactString; the view, size() and comparisons agree with it; capacity() is at least the size and what was reserved; c_str() is the string followed by a NUL; nothing outside of allocated memory is accessed, memory is freed once with its length, and all of it when all CompactStrings are destroyed; no assertion fails.",
 "every history of calls on every number of CompactStrings, every allocator, string lengths up to 2^60","the representation changes with the length (in place, one, two or eight byte headers), and histories are unbounded",["riegeli/base/compact_string.h","riegeli/base/compact_string.cc","riegeli/base/estimated_allocated_size.h"])
p("C50","Integers as text",
 "Dec(v, width), Hex(v, width) and HexUpperCase(v, width) of any value of any integer type from 8 to 128 bits write the numeral of the value: '-' if it is negative, then digits of the given case, padded with zeros to the width (which includes the sign) and without other leading zeros. Writing to a Writer, conversion with absl::StrCat() and the text size computed in advance agree; Write(v) to a Writer or BackwardWriter writes the decimal numeral without padding. No text is longer than the space asked for. The text does not depend on the type or on the availability of SSSE3, and different values have different texts.",
 "every value of every integer type, every width","there are up to 2^128 values and the code has different paths by magnitude, width and processor",["riegeli/text/write_int.h: DecType, HexType","riegeli/text/write_int.cc","riegeli/bytes/write_int_internal.h","riegeli/bytes/write_int_internal.cc","riegeli/bytes/writer.cc: Write","riegeli/bytes/backward_writer.cc: Write"])
p("C51","Background cleaning",
 "For any interleaving of Register, ScheduleCleaning, CancelCleaning, Unregister (from any number of threads) and of the background thread, with any clock: Clean() is called only for a registered cleanee with a pending cleaning, not before its deadline (the earliest of those scheduled since the last cleaning or cancellation), earliest deadline first, once for each, and one at a time; when CancelCleaning() or Unregister() returns, the cleanee is not being cleaned and will not be unless scheduled again; they wait only for a cleaning of this cleanee, other calls never wait. A pending cleaning which is due begins as soon as the background thread runs (no wakeup is lost, a thread exists whenever something is pending). The destructor waits for no deadline and leaves no thread running. No assertion fails and no invalid iterator is used.",
 "every interleaving of calls and thread steps, every clock","schedules of threads cannot be enumerated by tests",["riegeli/base/background_cleaning.h","riegeli/base/background_cleaning.cc"])
p("C52","Integer conversions and saturating arithmetic",
 "For values of any integer types of 8 to 128 bits: IntCast<A>(v) is v if A can represent v and otherwise an assertion fails; UnsignedCast and NegatingUnsignedCast give the value and its negation (also for the least value of the type) or fail an assertion; SaturatingIntCast<A>(v), SaturatingAdd and SaturatingSub give the value of the type nearest to the mathematical result; SignedMin, SignedMax, UnsignedMin, UnsignedMax and UnsignedClamp of arguments of different types are the mathematical minimum, maximum and clamp, with min winning over max; RoundDown<alignment>(v) is the greatest multiple not above v; RoundUp<alignment>(v) is the least multiple not below v, or 0 when the type cannot represent it; PtrDistance(first, last) is the number of elements between the pointers, or an assertion fails when they are in the wrong order or only one is nullptr.",
 "every pair of types and every value of them","2^128 pairs of 64-bit values, with implicit conversions which differ for each pair of types",["riegeli/base/arithmetic.h: IntCast, UnsignedCast, NegatingUnsignedCast, SaturatingIntCast, SaturatingAdd, SaturatingSub, SignedMin, SignedMax, UnsignedMin, UnsignedMax, UnsignedClamp, RoundDown, RoundUp"])
for x in P: print(json.dumps(x,ensure_ascii=False))
