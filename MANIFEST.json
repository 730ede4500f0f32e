{
 "claims": [
  {
   "property": "C01",
   "status": "proved",
   "theorems": [
    "C01_varint64_round_trip",
    "C01_varint32_round_trip"
   ],
   "note": "array and buffered-reader reading, canonical and not, length and skip"
  },
  {
   "property": "C02",
   "status": "proved",
   "theorems": [
    "C02_read_varint_exact",
    "C02_skip_and_count"
   ],
   "note": ""
  },
  {
   "property": "C03",
   "status": "proved",
   "theorems": [
    "C03_zigzag"
   ],
   "note": ""
  },
  {
   "property": "C04",
   "status": "proved",
   "theorems": [
    "C04_ordered_varint64",
    "C04_ordered_varint32"
   ],
   "note": ""
  },
  {
   "property": "C05",
   "status": "proved",
   "theorems": [
    "C05_ordered_varint_order"
   ],
   "note": ""
  },
  {
   "property": "C06",
   "status": "proved",
   "theorems": [
    "C06_fixed_width",
    "C06_signed"
   ],
   "note": ""
  },
  {
   "property": "C07",
   "status": "proved",
   "theorems": [
    "C07_block_overhead",
    "C07_distance"
   ],
   "note": ""
  },
  {
   "property": "C08",
   "status": "proved",
   "theorems": [
    "C08_chunk_end",
    "C08_round_up",
    "C08_boundary"
   ],
   "note": ""
  },
  {
   "property": "C09",
   "status": "partial",
   "theorems": [
    "C09_pos_after_padding",
    "C09_write_padding",
    "C09_no_padding",
    "C09_padding_refuted"
   ],
   "note": "the unguarded property is false of the code: C09_padding_refuted gives witnesses; proved for paddings which divide the block size (at least 64) or are multiples of it"
  },
  {
   "property": "C10",
   "status": "proved",
   "theorems": [
    "C10_chunk_header",
    "C10_block_header",
    "C10_chunk_serialization"
   ],
   "note": ""
  },
  {
   "property": "C11",
   "status": "proved",
   "theorems": [
    "C11_layout"
   ],
   "note": ""
  },
  {
   "property": "C12",
   "status": "proved",
   "theorems": [
    "C12_round_trip",
    "C12_read_any_valid_file"
   ],
   "note": ""
  },
  {
   "property": "C13",
   "status": "proved",
   "theorems": [
    "C13_truncation"
   ],
   "note": ""
  },
  {
   "property": "C14",
   "status": "proved",
   "theorems": [
    "C14_growing_file",
    "C14_expected"
   ],
   "note": ""
  },
  {
   "property": "C15",
   "status": "proved",
   "theorems": [
    "C15_only_valid_chunks"
   ],
   "note": "for sources whose contents never shrink between calls"
  },
  {
   "property": "C16",
   "status": "proved",
   "theorems": [
    "C16_local"
   ],
   "note": ""
  },
  {
   "property": "C17",
   "status": "partial",
   "theorems": [
    "C17_progress",
    "C17_progress_refuted",
    "C17_recover_refuted"
   ],
   "note": "the unguarded property is false of the code (witnesses in the _refuted theorems); proved for files whose block headers with a correct hash carry plausible offsets"
  },
  {
   "property": "C18",
   "status": "proved",
   "theorems": [
    "C18_seek_to_chunk",
    "C18_seek_refuted"
   ],
   "note": "valid files; C18_seek_refuted shows that on arbitrary bytes the search may not terminate"
  },
  {
   "property": "C19",
   "status": "proved",
   "theorems": [
    "C19_simple_round_trip"
   ],
   "note": ""
  },
  {
   "property": "C20",
   "status": "proved",
   "theorems": [
    "C20_decoder_sound"
   ],
   "note": ""
  },
  {
   "property": "C21",
   "status": "proved",
   "theorems": [
    "C21_round_trip",
    "C21_round_trip_transposed"
   ],
   "note": "serial writer; any number of sessions appending to one file; compression is any lossless function; the transposed encoding is any one which restores the records (C21_round_trip), in particular the modelled one (C21_round_trip_transposed; then chunks, records and metadata are below 2^28 bytes); paddings as in C09; total size up to 2^62"
  },
  {
   "property": "C22",
   "status": "proved",
   "theorems": [
    "C22_flushed_survive"
   ],
   "note": ""
  },
  {
   "property": "C23",
   "status": "proved",
   "theorems": [
    "C23_cursor",
    "C23_seek_to_record"
   ],
   "note": ""
  },
  {
   "property": "C24",
   "status": "proved",
   "theorems": [
    "C24_numeric_seek",
    "C23_cursor"
   ],
   "note": "C23_cursor shows that each file left by writers reads_as a view"
  },
  {
   "property": "C25",
   "status": "proved",
   "theorems": [
    "C25_seek_back",
    "C23_cursor"
   ],
   "note": ""
  },
  {
   "property": "C28",
   "status": "proved",
   "theorems": [
    "C28_text"
   ],
   "note": ""
  },
  {
   "property": "C29",
   "status": "partial",
   "theorems": [
    "C29_binary_partial",
    "C29_order",
    "C29_round_trip_refuted"
   ],
   "note": "the round trip is false of the code for encodings of exactly 16 bytes, which are taken for the old format (C29_round_trip_refuted); proved when either component is below 2^42 or the encoding does not have 16 bytes; the order is proved for all"
  },
  {
   "property": "C30",
   "status": "proved",
   "theorems": [
    "C30_history",
    "C30_result",
    "C30_cost",
    "C30_cancel"
   ],
   "note": "default traits on mathematical integers; C30_history for any test, even stateful"
  },
  {
   "property": "C31",
   "status": "proved",
   "theorems": [
    "C31_search",
    "C31_truncated_refuted",
    "C31_reading_ahead_refuted"
   ],
   "note": "files left by writers, the Search variant which reads the record for the test; the _refuted theorems show that the documented result is not ensured for truncated files, nor for tests which read on into the next chunk"
  },
  {
   "property": "C26",
   "status": "proved",
   "theorems": [
    "C26_serial",
    "C26_same_as_serial",
    "C26_read_back",
    "C26_prefix",
    "C26_flush",
    "C26_no_fault",
    "C26_queue",
    "C26_no_deadlock",
    "C26_terminates",
    "C26_no_deadlock_if_encoding_fails_refuted"
   ],
   "note": "all schedules of the user thread, the encoder tasks and the chunk writer thread, at the granularity of queue and promise operations, with faults of the destination at any request; for runs in which encoding a chunk does not fail: if it fails then the threads deadlock (the _refuted theorem)"
  },
  {
   "property": "C27",
   "status": "proved",
   "theorems": [
    "C26_same_as_serial",
    "C27_seen_so_far"
   ],
   "note": "positions obtained from futures are part of what the user sees, which equals what a user of the serial writer sees; C23-C25 tell what these positions are"
  },
  {
   "property": "C32",
   "status": "proved",
   "theorems": [
    "C32_builder",
    "C32_builder_canonical",
    "C32_from_sorted",
    "C32_from_sorted_checked",
    "C32_from_unsorted",
    "C32_iteration",
    "C32_split_elements",
    "C32_contains",
    "C32_index",
    "C32_contains_skip_first"
   ],
   "note": "strings below 2^62 bytes"
  },
  {
   "property": "C33",
   "status": "proved",
   "theorems": [
    "C33_decode",
    "C33_decode_whole",
    "C33_decoded_set_usable",
    "C33_round_trip"
   ],
   "note": "sources below 2^62 bytes which do not fail"
  },
  {
   "property": "C34",
   "status": "partial",
   "theorems": [
    "C34_split_compare",
    "C34_split_compare_string",
    "C34_split_equal_string",
    "C34_split_access",
    "C34_split_equal_partial",
    "C34_split_equal_refuted",
    "C34_set_compare",
    "C34_set_equal_sound_partial",
    "C34_built_sets_equal",
    "C34_set_equal_refuted"
   ],
   "note": "comparison is right for all; equality of split elements is false of the code when the left prefix is shorter (inverted conditions, C34_split_equal_refuted); equality of sets is right for sets made by builders and never holds for different sets, but a decoded set with another representation may be unequal to an equal set (C34_set_equal_refuted)"
  },
  {
   "property": "C40",
   "status": "proved",
   "theorems": [
    "C40_builder",
    "C40_builder_canonical",
    "C40_from_sorted",
    "C40_from_unsorted",
    "C40_iteration",
    "C40_linear",
    "C40_contains",
    "C40_contains_total"
   ],
   "note": "strings below 2^62 bytes, chunk size at least 1 (with chunk size 0 the first insertion is undefined behaviour: C40_chunk_size_zero)"
  },
  {
   "property": "C43",
   "status": "partial",
   "theorems": [
    "C40_decode",
    "C40_decode_whole",
    "C40_round_trip",
    "C40_decoded_set_usable",
    "C40_compare",
    "C40_equal_sound_partial",
    "C40_built_sets_equal",
    "C40_equal_refuted"
   ],
   "note": "comparison and serialization are right; equality never holds for different sets and is right for sets built with the same chunk size, but it is false of the code for sets with the same elements in chunks of different sizes (C40_equal_refuted)"
  },
  {
   "property": "C36",
   "status": "proved",
   "theorems": [
    "C36_split",
    "C36_read_line",
    "C36_read_line_end",
    "C36_read_all",
    "C36_keep_newline",
    "C36_write_read",
    "C36_skip_bom",
    "C36_text_writer",
    "C36_text_reader",
    "C36_text_round_trip",
    "C36_text_reader_failure_refuted"
   ],
   "note": "every buffering of the source, also failing sources; finding: a TextReader does not report a failure of its source (C36_text_reader_failure_refuted)"
  },
  {
   "property": "C35",
   "status": "proved",
   "theorems": [
    "C35_read_record",
    "C35_unambiguous",
    "C35_recovery",
    "C35_round_trip",
    "C35_standalone_round_trip",
    "C35_write_fails",
    "C35_has_next",
    "C35_has_next_cr_refuted",
    "C35_no_quote_bom_refuted",
    "C35_quote_bom_refuted",
    "C35_recovery_buffering_refuted",
    "C35_escaped_line_refuted"
   ],
   "note": "every buffering of the source and every separator, quote, escape and comment character; the header of a file is not modelled; findings, each with a witness: without a quote character a leading byte order mark in the first field is lost, a quote character 0xEF makes the output start with one, HasNextRecord is false with ok() after a CR without LF, the text skipped by recovery after a too long field depends on buffering, an escaped line feed is not counted"
  },
  {
   "property": "C42",
   "status": "proved",
   "theorems": [
    "C42_state",
    "C42_memory",
    "C42_progress",
    "C42_fail",
    "C42_fail_without_annotation",
    "C42_first_failure_wins",
    "C42_close",
    "C42_close_again",
    "C42_stays_closed",
    "C42_move",
    "C42_recovery",
    "C42_reset",
    "C42_set_status",
    "C42_other_objects",
    "C42_status_or_annotate"
   ],
   "note": "any number of objects, any history including nested operations of Done(), moves and destruction, with the allocation of statuses; OnFail() of derived classes is not modelled"
  },
  {
   "property": "C44",
   "status": "partial",
   "theorems": [
    "C44_blocks",
    "C44_move_single",
    "C44_move_refuted"
   ],
   "note": "the blocks are right for all sizes and bytes; moving a Blocks object of more than one block loses its data (byte_fill.h leaves out a member: C44_move_refuted)"
  },
  {
   "property": "C38",
   "status": "proved",
   "theorems": [
    "C38_writer",
    "C38_flush",
    "C38_close",
    "C38_safe",
    "C38_prefix",
    "C38_live",
    "C38_seek_beyond_end_refuted",
    "C38_truncate_assumed_refuted",
    "C38_seek_after_fail_refuted",
    "C38_seek_unknown_refuted"
   ],
   "note": "FdWriter over BufferedWriter over Writer, as a state monad over a file with an oracle for short writes and failures of system calls. Four claims which do not hold are refuted by concrete histories: Seek on a writer created beyond the end of the file, Truncate with an assumed position, Seek after Fail called by the user, Seek when lseek fails while random access is being checked; the positive theorems are guarded against exactly these."
  },
  {
   "property": "C41",
   "status": "proved",
   "theorems": [
    "C41_round_trip",
    "C41_codecs",
    "C41_long_record_refuted",
    "C41_long_string_refuted"
   ],
   "note": "records with zlen rs + 2 * total size < 2^29 (32-bit tag indices and sizes in the code); without a bound it is false, as the two refuted theorems show. Compression is any lossless function, hash map iteration order is arbitrary; field projection is not modelled."
  },
  {
   "property": "C46",
   "status": "proved",
   "theorems": [
    "C46_metadata",
    "C46_check_any_time",
    "C46_bad_metadata",
    "C46_growing_refuted"
   ],
   "note": "for a source which does not change; when the source ends within the metadata and then grows, ReadSerializedMetadata() cannot be repeated although it returned false with ok() (C46_growing_refuted)"
  },
  {
   "property": "C47",
   "status": "proved",
   "theorems": [
    "C47_terminates",
    "C47_sound",
    "C47_decoder_sound"
   ],
   "note": "field projection is not modelled; decompression is an arbitrary function which may fail"
  },
  {
   "property": "C48",
   "status": "proved",
   "theorems": [
    "C48_recovering",
    "C48_local",
    "C48_sound_transposed"
   ],
   "note": "for a source which does not change; the recovery function does not touch the reader; block headers credible (C17 shows what happens otherwise)"
  },
  {
   "property": "C45",
   "status": "proved",
   "theorems": [
    "C45_reader",
    "C45_open",
    "C45_stream",
    "C45_transparent",
    "C45_independent",
    "C45_beyond_end_refuted",
    "C45_supports_size_refuted",
    "C45_sync_failed_refuted"
   ],
   "note": "BufferedReader over FdReader, any history of calls and any outcome of system calls. Hypothesis: the file is opened not beyond its end (C45_beyond_end_refuted shows why). Not modelled: Copy(), NewReader(), EINTR, changes of the file while it is being read."
  },
  {
   "property": "C37",
   "status": "proved",
   "theorems": [
    "C37_writer",
    "C37_writer_sequential",
    "C37_hint_after_failure_refuted",
    "C37_overwrite_beyond_limit_refuted",
    "C37_truncate_beyond_limit_refuted",
    "C37_random_access_refuted",
    "C37_limiter",
    "C37_never_beyond",
    "C37_fragment",
    "C37_behind_refuted",
    "C37_scope_exact_refuted",
    "C37_scope_size_refuted",
    "C37_longer_unverified_refuted"
   ],
   "note": "the reader over the modelled FdReader in any state, the writer over the modelled FdWriter after sequential calls. C37_writer: states after the limit of a writer was decreased below what was written, or after the original writer has failed, are only safe. SetWriteSizeHint() is not called on a failed writer. Claims which do not hold are refuted: raising the limit after it was set before the position; a ScopedLimiter with non-exact options; fail_if_longer() when checking fails."
  },
  {
   "property": "C39",
   "status": "proved",
   "theorems": [
    "Chain_call",
    "Chain_read",
    "Chain_compare",
    "Chain_compare_string",
    "Chain_index",
    "Chain_index_end",
    "Chain_block_index",
    "Chain_flat",
    "Chain_blocks_alive",
    "Chain_no_leak",
    "Chain_empty_block_fails"
   ],
   "note": "source and destination of Append(Chain), Prepend(Chain), assignment and swap are different Chains. An empty Block is only appended or prepended with options which ask for some capacity (Chain_empty_block_fails shows the assertion which fails otherwise). Hypothesis on the platform: granted capacities are not much larger than asked for, which the code asserts. Not modelled: Cord, AppendFrom(), where pointers are in their array, threads."
  },
  {
   "property": "C49",
   "status": "proved",
   "theorems": [
    "CompactString_call",
    "CompactString_read",
    "CompactString_reserve",
    "CompactString_c_str",
    "CompactString_compare",
    "CompactString_no_leak",
    "CompactString_max_size_fails"
   ],
   "note": "64-bit little endian words; strings of up to 2^60 bytes, up to 2^32 CompactStrings, an allocator which gives memory not in use, aligned to 8. CompactString_max_size_fails: a capacity near max_size() passes the check, but the rounding wraps around to an allocation of length 0 which is then written to. Not modelled: hashing, memory estimation, poisoning of uninitialized bytes."
  },
  {
   "property": "C50",
   "status": "proved",
   "theorems": [
    "Dec_text",
    "Hex_text",
    "Write_integer_text",
    "Integer_text_unique",
    "Integer_text_same",
    "Integer_text_injective"
   ],
   "note": "value_of lists the values of the types of 8, 16, 32, 64 and 128 bits; other integer types are cast to these. With SSSE3 the bytes of the vector registers which are stored are modelled."
  },
  {
   "property": "C51",
   "status": "proved",
   "theorems": [
    "Cleaner_refines",
    "Cleaner_blocking",
    "Cleaner_timely",
    "Cleaner_awake",
    "Cleaner_destroy",
    "Cleaner_cancelled"
   ],
   "note": "critical sections are atomic steps (absl::Mutex is trusted), Await() and AwaitWithDeadline() are guards; the thread pool eventually runs a scheduled task. The user uses valid tokens and unregisters everything before the destructor, as documented. Cleaner_timely and Cleaner_destroy give a bound on the number of steps of the background thread."
  },
  {
   "property": "C52",
   "status": "proved",
   "theorems": [
    "IntCast_exact",
    "UnsignedCast_exact",
    "SaturatingIntCast_nearest",
    "SaturatingAdd_nearest",
    "SaturatingSub_nearest",
    "Min_Max",
    "Min_Max_of_many",
    "PtrDistance_exact",
    "UnsignedClamp_nearest",
    "RoundDown_greatest",
    "RoundUp_least"
   ],
   "note": "promotion and the usual arithmetic conversions of C++ are modelled for int of 32 bits. UnsignedMax of more than two arguments: types of at least 32 bits (narrower ones do not compile unless they are all the same). RoundUp wraps around to 0 when the multiple does not fit, which its documentation does not say."
  }
 ]
}