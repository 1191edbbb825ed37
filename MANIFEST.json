{
 "claims": [
  {
   "property": "C01",
   "status": "proved",
   "theorems": [
    "C01_record_framing",
    "C01_headers_are_complete"
   ],
   "note": ""
  },
  {
   "property": "C02",
   "status": "partial",
   "theorems": [
    "C02_stream_partial",
    "C02_aligned",
    "C02_refuted"
   ],
   "note": "Holds for every list of records that are readable one by one (side conditions of C21) with arrays aligned where the source lends chunks; record streams whose sizes are multiples of 8 meet that (C02_aligned). Refuted in full: a stream with one record the code cannot read stops early. C63_stream_partial says exactly which streams are read back."
  },
  {
   "property": "C03",
   "status": "partial",
   "theorems": [
    "C03_same_bytes_partial",
    "C03_foreign_order",
    "C03_copied",
    "C03_copied_stream",
    "C03_pieces",
    "C03_lent_pieces_partial",
    "C03_whole",
    "C03_whole_stream",
    "C03_misaligned_refuted",
    "C03_text_poke_refuted"
   ],
   "note": "Proved for all contract-abiding pairs of sources under `tame`: TEXT_POKE records with an empty part read in pieces, and host-order arrays lent at misaligned addresses are left out. Both exclusions are shown to be necessary by the _refuted theorems (concrete witnesses of wrong results in the crate). Between sources that never lend memory (readers) nothing is left out: C03_copied, and C03_copied_stream for any number of calls, C03_pieces for lists of pieces. Between sources that lend everything as one piece (slices) nothing is left out either: C03_whole and C03_whole_stream, for addresses equal up to the alignment of a word (C03_misaligned_refuted: otherwise false)."
  },
  {
   "property": "C04",
   "status": "proved",
   "theorems": [
    "C04_parsers",
    "C04_attr",
    "C04_record",
    "C04_record_enum",
    "C04_progress",
    "C04_stream_ends"
   ],
   "note": "Panics (overflow, out-of-range slicing, capacity overflow, explicit panics) and loop fuel are outcomes of the model, so Ok-or-Err excludes them. For parsers used outside a record the bound on hints must fit isize; for records and attrs no bound is needed."
  },
  {
   "property": "C05",
   "status": "proved",
   "theorems": [
    "C05_u8",
    "C05_u16",
    "C05_u32",
    "C05_u64",
    "C05_every_string_encodes",
    "C05_short"
   ],
   "note": ""
  },
  {
   "property": "C06",
   "status": "proved",
   "theorems": [
    "C06_is_native",
    "C06_elements"
   ],
   "note": ""
  },
  {
   "property": "C07",
   "status": "partial",
   "theorems": [
    "C07_parse_bytes_partial",
    "C07_short",
    "C07_parse_bytes_refuted"
   ],
   "note": "Holds for n > 0 and whenever the source is not exhausted. parse_bytes(0) at the end of the source fails instead of returning nothing (refuted with a witness)."
  },
  {
   "property": "C08",
   "status": "partial",
   "theorems": [
    "C08_parse_rest_partial",
    "C08_trim_partial",
    "C08_error",
    "C08_parse_rest_refuted"
   ],
   "note": "Holds unless nothing is left: parse_rest on an exhausted source fails instead of returning the empty rest (refuted with a witness)."
  },
  {
   "property": "C09",
   "status": "proved",
   "theorems": [
    "C09_fields_are_borrowed"
   ],
   "note": "Byte fields of every record type parsed from one slice are borrows of the range they occupy (address and length); records without arrays reserve no capacity. Bodies must be non-empty (an empty one has no byte fields). Samples: the position is tied to the length word before the data."
  },
  {
   "property": "C10",
   "status": "partial",
   "theorems": [
    "C10_u64_partial",
    "C10_namespace_partial",
    "C10_branch_partial",
    "C10_short",
    "C10_skipped_refuted",
    "C10_misaligned_refuted",
    "C10_empty_refuted"
   ],
   "note": "Holds unless the source lends a misaligned External chunk in the host byte order (the code consumes the bytes, then decodes the elements after them) or no element is asked for at the end. Both refuted; in the first case the elements asked for are always skipped (C10_skipped_refuted)."
  },
  {
   "property": "C11",
   "status": "proved",
   "theorems": [
    "C11_sample_id",
    "C11_any_bytes",
    "C11_off"
   ],
   "note": ""
  },
  {
   "property": "C12",
   "status": "proved",
   "theorems": [
    "C12_metadata",
    "C12_no_trailer",
    "C12_body_parser"
   ],
   "note": ""
  },
  {
   "property": "C13",
   "status": "proved",
   "theorems": [
    "C13_header_too_small",
    "C13_no_room_for_sample_id",
    "C13_truncated",
    "C13_truncated_header"
   ],
   "note": ""
  },
  {
   "property": "C14",
   "status": "proved",
   "theorems": [
    "C14_attr",
    "C14_read_format",
    "C14_high_bits",
    "C14_default",
    "C14_updates"
   ],
   "note": ""
  },
  {
   "property": "C15",
   "status": "proved",
   "theorems": [
    "C15_rejected",
    "C15_wrong_kind",
    "C15_accepted"
   ],
   "note": "Stated for any ParseBuf, with or without the contract; an UnsupportedConfig error of the source itself is excluded by hypothesis."
  },
  {
   "property": "C16",
   "status": "partial",
   "theorems": [
    "C16_value",
    "C16_group_partial",
    "C16_empty_refuted"
   ],
   "note": "Single values hold in full. Groups hold for all lengths, formats and byte orders except where arrays are lent misaligned (C10_misaligned_refuted) or there are no counters and nothing follows (refuted with a witness)."
  },
  {
   "property": "C17",
   "status": "proved",
   "theorems": [
    "C17_counters",
    "C17_entry",
    "C17_len",
    "C17_get",
    "C17_get_by_id"
   ],
   "note": ""
  },
  {
   "property": "C18",
   "status": "proved",
   "theorems": [
    "C18_to_group",
    "C18_of_group",
    "C18_round_trip",
    "C18_parsed",
    "C18_entry"
   ],
   "note": "ReadValue has no equality of its own; equality is of all accessors, and of all fields for parsed values."
  },
  {
   "property": "C19",
   "status": "proved",
   "theorems": [
    "C19_deque",
    "C19_no_repeats",
    "C19_each_once"
   ],
   "note": ""
  },
  {
   "property": "C20",
   "status": "partial",
   "theorems": [
    "C20_sample_partial",
    "C20_presence",
    "C20_empty_last_refuted",
    "C20_no_regs_refuted",
    "C20_weight_struct_refuted"
   ],
   "note": "Holds for every sample whose encoding does not end in an empty field, whose register dumps are present and without WEIGHT_STRUCT; each excluded case is refuted with a witness. Presence of each optional field exactly for its sample_type bit is proved without conditions. C63_sample_partial: these conditions are necessary, too."
  },
  {
   "property": "C21",
   "status": "partial",
   "theorems": [
    "C21_record_partial",
    "C21_plain",
    "C21_mmap",
    "C21_mmap_refuted",
    "C21_namespaces_refuted",
    "C21_mmap_name_refuted"
   ],
   "note": "Holds for all kinds except as follows: NAMESPACES with no entries fails, and MMAP with a trailing sample_id keeps the trailer in the file name (both refuted with witnesses). SWITCH is C26, TEXT_POKE C35, SAMPLE C20. C63_record_partial: exactly which records are read back; C21_mmap_name_refuted: what every MMAP record reads as."
  },
  {
   "property": "C22",
   "status": "proved",
   "theorems": [
    "C22_padding",
    "C22_raw"
   ],
   "note": ""
  },
  {
   "property": "C23",
   "status": "partial",
   "theorems": [
    "C23_stack_partial",
    "C23_too_long",
    "C23_empty_refuted"
   ],
   "note": "Holds unless the dump is empty and nothing follows it; then parsing fails (refuted with a witness). With 32-bit pointers, for words below 2^32 (C47)."
  },
  {
   "property": "C24",
   "status": "partial",
   "theorems": [
    "C24_dispatch",
    "C24_unknown_partial",
    "C24_empty_refuted"
   ],
   "note": "C24_dispatch is the full statement but for SWITCH, which goes to visit_unknown (C26). C24_unknown_partial: unknown types with a body; C24_empty_refuted: without one the visitor is not called at all, the result is Eof."
  },
  {
   "property": "C25",
   "status": "proved",
   "theorems": [
    "C25_record_enum",
    "C25_never_unimplemented"
   ],
   "note": "record_kind lists the variants by type; SWITCH (14) is read as Unknown if at all (C26)."
  },
  {
   "property": "C26",
   "status": "partial",
   "theorems": [
    "C26_switch_refuted",
    "C26_switch_never_delivered_refuted",
    "C26_switch_skipped_partial",
    "C26_switch_fails_refuted"
   ],
   "note": "False of the code: the dispatcher has no case for type 14, so visit_switch is never called. Refuted with a witness for every visitor; what does hold (the record is passed over) is _partial. C26_switch_fails_refuted: every SWITCH record gives Eof."
  },
  {
   "property": "C27",
   "status": "proved",
   "theorems": [
    "C27_switch",
    "C27_mmap2"
   ],
   "note": ""
  },
  {
   "property": "C28",
   "status": "proved",
   "theorems": [
    "C28_build_id",
    "C28_rejected"
   ],
   "note": "C27_mmap2 states the same for whole records."
  },
  {
   "property": "C29",
   "status": "proved",
   "theorems": [
    "C29_into_mmap"
   ],
   "note": ""
  },
  {
   "property": "C30",
   "status": "partial",
   "theorems": [
    "C30_decoding_partial",
    "C30_alone_refuted",
    "C30_refuted",
    "C30_exact"
   ],
   "note": "Field values, zeros beyond the size and the number of bytes consumed are proved for all sizes, orders and sources, given that four more bytes follow (zero ones for sizes beyond version 8). The stated property is false: size+4 bytes are consumed (src/impls/perf_event_attr.rs:44 subtracts 4 after 8 bytes were read); C30_alone_refuted shows that an attr without four bytes after it never parses, C30_refuted has concrete witnesses, C30_exact gives both outcomes."
  },
  {
   "property": "C31",
   "status": "partial",
   "theorems": [
    "C31_invalid_size",
    "C31_valid_sizes_accepted",
    "C31_nonzero_tail_partial",
    "C31_nonzero_tail_refuted"
   ],
   "note": "Invalid sizes are rejected with InvalidRecord and no valid size is; a non-zero extension is rejected with UnsupportedData when four more bytes follow. C31_nonzero_tail_refuted: without them the error is Eof."
  },
  {
   "property": "C32",
   "status": "proved",
   "theorems": [
    "C32_record",
    "C32_slice",
    "C32_any_source",
    "C32_reader",
    "C32_attr"
   ],
   "note": "Reservations are the parser log of the model: every with_capacity and reserve call made by the parser. Growth of a Vec by push is not counted."
  },
  {
   "property": "C33",
   "status": "proved",
   "theorems": [
    "C33_new",
    "C33_clone",
    "C33_default",
    "C33_drop",
    "C33_sample_id",
    "C33_sample"
   ],
   "note": "Fields of all types are values of one sum type; an uninitialised field is None and reading it is an error value."
  },
  {
   "property": "C34",
   "status": "partial",
   "theorems": [
    "C34_split_partial",
    "C34_split_borrowed",
    "C34_split_refuted",
    "C34_truncate"
   ],
   "note": "Truncation and splitting of borrowed data hold in full. Splitting owned data swaps the parts at 0 and at the length (refuted with a witness); _partial covers all other positions."
  },
  {
   "property": "C35",
   "status": "partial",
   "theorems": [
    "C35_text_poke_partial",
    "C35_refuted",
    "C35_outcome"
   ],
   "note": "Holds in full on contiguous slices. From other sources it needs old bytes and something after them: the owned split swaps its parts otherwise (refuted with a witness). C35_outcome: what is read in every case."
  },
  {
   "property": "C36",
   "status": "partial",
   "theorems": [
    "C36_accessors_partial",
    "C36_uts_partial",
    "C36_uts_refuted"
   ],
   "note": "All accessors but uts; uts returns the USER entry (refuted with a witness, and right exactly when the two entries agree)."
  },
  {
   "property": "C37",
   "status": "partial",
   "theorems": [
    "C37_slice",
    "C37_slice_history",
    "C37_reader",
    "C37_cursor_partial",
    "C37_cursor_refuted"
   ],
   "note": "Proved for slices after every history of calls; BufReader gives no hint. For record cursors the hint is proved to be the remaining length plus everything advanced so far (the new length is computed and dropped, src/parsebuf.rs:236-238), hence wrong after the first advance: C37_cursor_refuted."
  },
  {
   "property": "C38",
   "status": "proved",
   "theorems": [
    "C38_record_cursor",
    "C38_cursor_bytes",
    "C38_truncated",
    "C38_histories"
   ],
   "note": ""
  },
  {
   "property": "C39",
   "status": "partial",
   "theorems": [
    "C39_parsers_partial",
    "C39_record_partial",
    "C39_refuted"
   ],
   "note": "The promise in the documentation is false: C39_refuted shows that a truncated integer is consumed from every source. What is proved of failed parses: the configuration is unchanged and the parser continues with a suffix of the same bytes."
  },
  {
   "property": "C40",
   "status": "partial",
   "theorems": [
    "C40_reader_like_memory_partial",
    "C40_cuts",
    "C40_io_error",
    "C40_io_error_in_header",
    "C40_error_after_the_record"
   ],
   "note": "Reader equals memory under `tame` (see C03); I/O errors inside a header or record are reported as such for all read schedules; a failure after the record does not matter. Between two readers nothing is left out: C40_cuts, for any number of records."
  },
  {
   "property": "C41",
   "status": "proved",
   "theorems": [
    "C41_parsers",
    "C41_attr",
    "C41_record",
    "C41_no_external"
   ],
   "note": "Also: every other error is one of the messages of the crate, with the kind that belongs to it."
  },
  {
   "property": "C42",
   "status": "partial",
   "theorems": [
    "C42_more_data_follows",
    "C42_only_the_record_partial",
    "C42_copied",
    "C42_lent",
    "C42_across_refuted"
   ],
   "note": "C42_more_data_follows is the full statement for contiguous memory (equality down to addresses). Between two sources: C42_copied if neither lends memory, C42_lent if both lend it in one piece at addresses equal up to the alignment of a word, C42_only_the_record_partial for all other pairs under `tame` (C03), errors included each time. C42_across_refuted: memory and a reader differ on a TEXT_POKE without old bytes."
  },
  {
   "property": "C43",
   "status": "proved",
   "theorems": [
    "C43_into_owned"
   ],
   "note": "The six records with an into_owned method."
  },
  {
   "property": "C44",
   "status": "proved",
   "theorems": [
    "C44_data_source",
    "C44_snoop"
   ],
   "note": "The bit-field unit of bindgen is modelled bit by bit; the header declares the fields in reverse order for big-endian hosts."
  },
  {
   "property": "C45",
   "status": "proved",
   "theorems": [
    "C45_branch",
    "C45_words"
   ],
   "note": ""
  },
  {
   "property": "C46",
   "status": "partial",
   "theorems": [
    "C46_partial",
    "C46_refuted"
   ],
   "note": "False: nibbles are swapped and digits A-F are wrong (refuted); the partial theorem says exactly when the output is right."
  },
  {
   "property": "C47",
   "status": "partial",
   "theorems": [
    "C47_callchain_partial",
    "C47_branch_stack_partial",
    "C47_aux_partial",
    "C47_namespaces_partial",
    "C47_group_partial",
    "C47_stack_partial",
    "C47_refuted"
   ],
   "note": "Counts below 2^pl_bits (all, with 64-bit pointers) are honoured or rejected at each of the six places where a 64-bit count is cast. C47_refuted: with 32-bit pointers the upper half is dropped at each of them."
  },
  {
   "property": "C48",
   "status": "proved",
   "theorems": [
    "C48_from_sample"
   ],
   "note": ""
  },
  {
   "property": "C49",
   "status": "proved",
   "theorems": [
    "C49_header",
    "C49_lost",
    "C49_exit",
    "C49_throttle",
    "C49_aux",
    "C49_itrace_start",
    "C49_lost_samples",
    "C49_aux_output_hw_id",
    "C49_switch_cpu_wide",
    "C49_bpf_event",
    "C49_read_value",
    "C49_distinct"
   ],
   "note": "Records without optional parts, SAMPLE ids (C11_any_bytes) and counter values."
  },
  {
   "property": "C50",
   "status": "proved",
   "theorems": [
    "C50_byte_str",
    "C50_stray",
    "C50_unique",
    "C50_text"
   ],
   "note": "std::str::from_utf8, chars and escape_ascii are modelled from their documentation; char::escape_debug is any function."
  },
  {
   "property": "C51",
   "status": "proved",
   "theorems": [
    "C51_read_value",
    "C51_read_value_inj",
    "C51_group",
    "C51_group_inj"
   ],
   "note": "The form over several lines ({:#?}) of groups is in C64_values."
  },
  {
   "property": "C52",
   "status": "proved",
   "theorems": [
    "C52_sample_id",
    "C52_sample_id_inj",
    "C52_metadata_inj",
    "C52_sample_inj",
    "C52_data_src_inj"
   ],
   "note": "The Debug impls of the flag types (bitflags!, c_enum!) and of bindgen are parameters, assumed to tell values apart and to print commas and closing brackets only inside brackets; an instance is given in C52_example."
  },
  {
   "property": "C53",
   "status": "partial",
   "theorems": [
    "C53_display_partial",
    "C53_refuted",
    "C53_identifies",
    "C53_debug",
    "C53_wording",
    "C53_attr_size",
    "C53_build_id"
   ],
   "note": "Without a source the message is the expected one. C53_refuted: with a source it never is; the test for External is the wrong way round (src/error.rs:124), so other kinds run into the text of the source and external errors begin with a colon. C53_display_partial gives the text that is printed. C53_identifies: the text still tells the errors of the crate apart; C53_attr_size and C53_build_id: it names the offending number; C53_debug is the derived Debug text."
  },
  {
   "property": "C54",
   "status": "proved",
   "theorems": [
    "C54_hex_addr",
    "C54_hex_addr_inj"
   ],
   "note": ""
  },
  {
   "property": "C55",
   "status": "proved",
   "theorems": [
    "C55_no_panic",
    "C55_values"
   ],
   "note": "The Debug impls of other crates are assumed not to panic."
  },
  {
   "property": "C56",
   "status": "partial",
   "theorems": [
    "C56_same_contents",
    "C56_into_owned",
    "C56_same_bytes_partial",
    "C56_alike",
    "C56_across_refuted"
   ],
   "note": "Proved for all records with equal contents and for into_owned; for the same bytes from two sources of one kind (C56_alike), from others under the conditions of C03 (C56_same_bytes_partial). C56_across_refuted: memory and a reader show a TEXT_POKE without old bytes differently."
  },
  {
   "property": "C57",
   "status": "proved",
   "theorems": [
    "C57_config_inj",
    "C57_endian"
   ],
   "note": "Debug of the flag types as in C52."
  },
  {
   "property": "C58",
   "status": "proved",
   "theorems": [
    "C58_decimal",
    "C58_fixed",
    "C58_names",
    "C58_mmap2",
    "C58_lists",
    "C58_sample",
    "C58_metadata",
    "C58_config"
   ],
   "note": "For {:?}; C64 gives {:#?}. Debug impls of other crates are parameters, as in C52."
  },
  {
   "property": "C59",
   "status": "partial",
   "theorems": [
    "C59_branch_partial",
    "C59_branch_cross_refuted",
    "C59_attr_partial",
    "C59_attr_cross_refuted",
    "C59_session_refuted"
   ],
   "note": "Holds if the recording has the byte order of the host. Otherwise it is false: the kernel packs bit fields from the other end of the word, so that every flag of a branch entry reads as false and every configuration made of an attr says that there are no sample ids (refuted for all inputs)."
  },
  {
   "property": "C60",
   "status": "partial",
   "theorems": [
    "C60_framing",
    "C60_too_small",
    "C60_truncated",
    "C60_safe",
    "C60_elsewhere_partial",
    "C60_elsewhere_refuted",
    "C60_alike",
    "C60_elsewhere"
   ],
   "note": "Framing, rejections and absence of panics hold for all headers. The last part holds without conditions between sources that lend nothing and between memory of the same alignment (C60_elsewhere, C60_alike), otherwise under the conditions of C03 (C60_elsewhere_partial); C60_elsewhere_refuted: a body copied to an odd address fails although the record parses."
  },
  {
   "property": "C61",
   "status": "partial",
   "theorems": [
    "C61_visitor_partial",
    "C61_session_partial",
    "C61_cross_refuted"
   ],
   "note": "Proved for attrs of the byte order of the host and for the records of C21. C61_cross_refuted: with an attr of the other byte order the flags are read from the wrong bits and no record keeps its sample_id. C63_visitor_partial: exactly which streams reach a visitor as they were written."
  },
  {
   "property": "C62",
   "status": "proved",
   "theorems": [
    "C62_parts",
    "C62_records",
    "C62_sub_parsers",
    "C62_misc_only"
   ],
   "note": "For every parser, outcome and buffer, including buffers that break their contract."
  },
  {
   "property": "C63",
   "status": "partial",
   "theorems": [
    "C63_attr",
    "C63_sample_partial",
    "C63_group_partial",
    "C63_sample_fails_partial",
    "C63_record_partial",
    "C63_record_fails_partial",
    "C63_stream_partial",
    "C63_told_partial",
    "C63_visitor_partial",
    "C63_memory_refuted"
   ],
   "note": "Necessary and sufficient conditions for samples, groups of counters, attrs, records, streams and visitors. Left aside: TEXT_POKE records with an empty part from sources that lend some chunks but not one contiguous one, for which C35_outcome gives the two possible results, and arrays lent at unaligned addresses (C03, C10). C63_memory_refuted: at an unaligned address a NAMESPACES record with an entry is refused."
  },
  {
   "property": "C64",
   "status": "proved",
   "theorems": [
    "C64_record",
    "C64_values",
    "C64_errors",
    "C64_every"
   ],
   "note": "The layout is specified on trees (Layout.v) independently of pad, d_struct and d_list. Debug impls of other crates are parameters that may print several lines. Names as in C50, build ids as HexStr prints them (C46)."
  },
  {
   "property": "C65",
   "status": "partial",
   "theorems": [
    "C65_record_partial",
    "C65_refused_partial",
    "C65_one_reading",
    "C65_stream_partial",
    "C65_sample_partial",
    "C65_attr",
    "C65_reader",
    "C65_memory_refuted"
   ],
   "note": "The layouts are those of Wire.v with holes for the bytes nobody looks at (Accept.v). Sources as in C03: left aside by C65_record_partial are arrays lent at unaligned addresses, and TEXT_POKE records with an empty part from sources that do not lend one contiguous chunk (C35_outcome). C65_reader leaves nothing aside for sources that never lend. On arrays in the byte order of the host at unaligned addresses it is false: C65_memory_refuted, the array is read from behind itself."
  },
  {
   "property": "C66",
   "status": "partial",
   "theorems": [
    "C66_flags",
    "C66_codes_partial",
    "C66_codes_refuted",
    "C66_asked",
    "C66_no_other_bits",
    "C66_reported",
    "C66_masks"
   ],
   "note": "True of all flags. C66_codes_refuted: BranchType has no name for PERF_BR_SYSRET (and later additions), MemLevelNum none for CXL and IO; the values are still kept. The kernel constants are those of linux/perf_event.h (Header.v); that the bindings crate has them is assumed."
  },
  {
   "property": "C67",
   "status": "partial",
   "theorems": [
    "C67_record_partial",
    "C67_accepted_partial",
    "C67_agree",
    "C67_sample_partial",
    "C67_attr",
    "C67_value",
    "C67_group",
    "C67_reader",
    "C67_memory_refuted"
   ],
   "note": "Faults.v says where each part ends or what is wrong with it, by lengths, counts and positions only; C67_agree shows it agrees with the layouts of C65. Sources as in C65; C67_reader leaves nothing aside for sources that never lend. Headers read by the caller: C60_elsewhere. C67_memory_refuted: at an unaligned address a complete record is refused for want of data."
  },
  {
   "property": "C68",
   "status": "partial",
   "theorems": [
    "C68_cut_short",
    "C68_told_partial",
    "C68_final",
    "C68_stays",
    "C68_refuted"
   ],
   "note": "C68_cut_short, C68_final and C68_stays: the data ending early always gives the error of the source, what is said of a complete record stays, and so does every other error. C68_refuted: a complete record whose body is too short gets Eof as well, whatever follows; the two are told apart only if the error of the source is not a plain Eof (C68_told_partial)."
  },
  {
   "property": "C69",
   "status": "proved",
   "theorems": [
    "C69_runs",
    "C69_config",
    "C69_flags",
    "C69_reaches",
    "C69_recordings"
   ],
   "note": "Unstructured and the impls for integers are described in Fuzz.v after the crate arbitrary, version 1."
  },
  {
   "property": "C70",
   "status": "proved",
   "theorems": [
    "C70_ends",
    "C70_same",
    "C70_alike_needed",
    "C70_frame",
    "C70_caught",
    "C70_local",
    "C70_more",
    "C70_custom"
   ],
   "note": "The programs are the terms of Client.v: contents of fields, not addresses or whether they are borrowed. C70_ends, C70_frame and C70_caught: every program on every source. C70_same, C70_local and C70_more compare two sources under alike: no array or TEXT_POKE asked for, or neither source lends, or both lend all as one piece at addresses congruent to the word alignment; C70_alike_needed shows why (the quirk of C10). Sources say at most isize::MAX bytes remain, as all real ones do."
  },
  {
   "property": "C71",
   "status": "partial",
   "theorems": [
    "C71_by_hand_partial",
    "C71_by_hand_refuted"
   ],
   "note": "C71_by_hand_partial: for all types that do not look at misc, and for MMAP2 and SWITCH_CPU_WIDE if the bit they look at is already in the configuration; on readers and slices always, on other sources under tame, as C03. C71_by_hand_refuted: parse_metadata leaves misc out of the configuration of the parser it returns and clients cannot put it there, so a build id is read as device numbers and a switch out as a switch in."
  },
  {
   "property": "C72",
   "status": "proved",
   "theorems": [
    "C72_calls",
    "C72_record",
    "C72_with_header",
    "C72_metadata",
    "C72_attr",
    "C72_recording",
    "C72_reservations",
    "C72_no_header"
   ],
   "note": "The calls are those a counting source (counted) sees, so calls made by the cursor of a record to itself are not among them; for these C72_calls applies with the cursor as the source. Reservations are those of the ghost log of C32; C72_example and C72_example_reservations reach 2n+3 and 8."
  },
  {
   "property": "C73",
   "status": "proved",
   "theorems": [
    "C73_parts",
    "C73_with_header",
    "C73_record",
    "C73_source",
    "C73_misc",
    "C73_sample_needed",
    "C73_ids_needed",
    "C73_others_needed"
   ],
   "note": "same_for (Matter.v) lists what matters; C73_record, C73_with_header and C73_parts: equal results and equal parsers but for the configuration, for any ParseBuf whatever. C73_sample_needed, C73_ids_needed and C73_others_needed: for each item, data that is read differently. The list is sufficient and irredundant, not the weakest possible: ID and IDENTIFIER alone in a sample_type cannot be told apart either."
  },
  {
   "property": "C74",
   "status": "partial",
   "theorems": [
    "C74_same_kind",
    "C74_elsewhere_partial",
    "C74_layout",
    "C74_stream_partial",
    "C74_plain",
    "C74_attr",
    "C74_empty_refuted",
    "C74_width_refuted",
    "C74_reason_refuted",
    "C74_alike",
    "C74_recording_alike",
    "C74_elsewhere_alike",
    "C74_stream_alike",
    "C74_alignment_refuted"
   ],
   "note": "Sources tame as in C03. C74_same_kind with errors; C74_elsewhere_partial and C74_stream_partial for what the wider, native host reads; without the conditions of C03 when both sources copy or both are memory of one alignment: C74_alike and C74_recording_alike with errors, C74_elsewhere_alike and C74_stream_alike for what the wider, native host reads; C74_alignment_refuted: hosts of one width and byte order which align words differently read the same memory differently; C74_layout the same of the layouts; C74_plain and C74_attr for any two hosts. Not in general: C74_empty_refuted, an empty callchain at the end is refused by a host of its byte order and read by the other; C74_width_refuted, counts are cut to 32 bits; C74_reason_refuted, a count whose size overflows is InvalidRecord on the one and Eof on the other."
  },
  {
   "property": "C75",
   "status": "partial",
   "theorems": [
    "C75_for_good",
    "C75_trickle",
    "C75_record",
    "C75_inside",
    "C75_whole",
    "C75_small",
    "C75_between_partial",
    "C75_program",
    "C75_ends",
    "C75_retry_refuted",
    "C75_obedient_needed"
   ],
   "note": "All but the last but one sentence: C75_retry_refuted, a LOST record whose second read is interrupted is gone, and calling again takes the rest of it for an unknown record; C75_inside says that this is so for every cut record. C75_between_partial for the records of C21. obedient (Falter.v) is the class of programs which stop at the first failure; C75_obedient_needed: parse_rest takes the end for success, and what is read after it comes from behind the end. C75_for_good: the sources of all other properties are the special case."
  },
  {
   "property": "C76",
   "status": "partial",
   "theorems": [
    "C76_program",
    "C76_any_source",
    "C76_record",
    "C76_room",
    "C76_memory",
    "C76_inside",
    "C76_stream",
    "C76_long_refuted",
    "C76_padded",
    "C76_raw"
   ],
   "note": "All but the first sentence, which C76_long_refuted refutes for 32-bit hosts: 107374183 LOST records read through a BufReader, the last one panics in a build with overflow checks. Otherwise: C76_program (exact, any program of Client.v), C76_record, C76_stream (exact, for the records of C21), C76_any_source (no contract needed), C76_room and C76_memory (never for memory), C76_inside (never inside a record), C76_padded and C76_raw (builds without checks)."
  },
  {
   "property": "C77",
   "status": "partial",
   "theorems": [
    "C77_record_partial",
    "C77_agree_partial",
    "C77_exact_partial",
    "C77_stream_partial",
    "C77_reader_refuted"
   ],
   "note": "For sources as in C65 (tame: see there); without that condition it is false, C77_reader_refuted: sources that copy show two TEXT_POKE records alike of which all old bytes differ. C77_record_partial (both directions: the bytes have the drawn layout, and whatever has it is read alike from any source), C77_agree_partial, C77_exact_partial, C77_stream_partial. The layouts are in Picture.v, drawn from the decoded value alone."
  },
  {
   "property": "C78",
   "status": "partial",
   "theorems": [
    "C78_frames",
    "C78_copied",
    "C78_whole",
    "C78_any_partial",
    "C78_damage",
    "C78_parts",
    "C78_order",
    "C78_pieces_refuted"
   ],
   "note": "C78_frames (every byte string), C78_copied (sources that never lend), C78_whole (memory in one piece; the alignment of each record matters), C78_any_partial (all sources, for records as in C03), and the consequences C78_damage, C78_parts, C78_order. Not for memory lent in several pieces: C78_pieces_refuted, two equal frames are read differently if one is cut."
  },
  {
   "property": "C79",
   "status": "proved",
   "theorems": [
    "C79_fill",
    "C79_defined",
    "C79_same",
    "C79_utf8"
   ],
   "note": "Raw.v spells the unsafe blocks out with memory cells; undefined behaviour is None. C79_fill, C79_defined (any ParseBuf), C79_utf8; C79_same: with the capacity asked for the results are those of Parser.v. The MaybeUninit fields of option structs are in C33."
  },
  {
   "property": "C80",
   "status": "partial",
   "theorems": [
    "C80_capacity_partial",
    "C80_lost_refuted",
    "C80_refuted"
   ],
   "note": "C80_capacity_partial: when the capacity is what was asked for, for sources without remaining_hint, and for data in memory. C80_lost_refuted: for any other source, whenever more is granted, bytes after the value are lost or a value that is there is refused, since parse_bytes fills all of spare_capacity_mut (src/parse.rs:247); C80_refuted has witnesses. The standard allocator grants exactly what is asked for today, the documentation of Vec does not promise it."
  },
  {
   "property": "C81",
   "status": "proved",
   "theorems": [
    "C81_body",
    "C81_parts",
    "C81_record",
    "C81_recording"
   ],
   "note": "C81_body and C81_parts hold for any ParseBuf whatever it does; C81_record and C81_recording for sources. Size.v counts each field with its width; reservations are the ghost log of Parser.v (capacities of Vec::with_capacity in bytes)."
  },
  {
   "property": "C82",
   "status": "proved",
   "theorems": [
    "C82_follow",
    "C82_pieces",
    "C82_eof",
    "C82_stall"
   ],
   "note": "The clients are programs of Follow.v (not in the crate) around parse_record; C82_follow for sources which do not lend memory or lend all of it, aligned like the recording; C82_eof says exactly how far the client by errors gets, C82_stall that it stays for ever behind a LOST record of 12 bytes."
  },
  {
   "property": "C83",
   "status": "proved",
   "theorems": [
    "C83_body",
    "C83_memory",
    "C83_record",
    "C83_recording",
    "C83_once_refuted"
   ],
   "note": "C83_record and C83_recording for sources (twice, once when the source lends all of its memory), C83_body for a body read alone, with the bound cap on the hints; C83_memory for any slice. C83_once_refuted: a sample with callers and a false count of branches, from a reader, reserves 656 bytes of 352. Reservations as in C81; the copies split_at makes of chunks that are not in memory are not reservations and not counted."
  },
  {
   "property": "C84",
   "status": "proved",
   "theorems": [
    "C84_source",
    "C84_session",
    "C84_held",
    "C84_released_refuted"
   ],
   "note": "The ring, the kernel and the client are in Ring.v (not in the crate): the kernel writes whole records, of whole words, and never over what is not released. C84_source: the contract of ParseBuf is met; C84_session: a session is one with a queue, and each result is that of any other source (tame, C03); C84_held: until release; C84_released_refuted: not after it."
  },
  {
   "property": "C85",
   "status": "proved",
   "theorems": [
    "C85_honest",
    "C85_record",
    "C85_safe",
    "C85_reserved",
    "C85_metadata",
    "C85_attr",
    "C85_attr_safe",
    "C85_pieces",
    "C85_hint",
    "C85_empty",
    "C85_hint_refuted"
   ],
   "note": "lively (Rogue.v) keeps of the rules of ParseBuf only that there are never more than B empty chunks in a row, for some B < 2^48 (the model counts rounds up to 2^64); chunks given as external are in memory, as their Rust type has it. C85_record: some chunks from an honest source (C85_honest) give the same result, offset and reservations; C85_safe and C85_reserved follow for any number of calls. C85_metadata, C85_attr and C85_attr_safe: the same of parse_metadata and of parse_attr, there for B < 2^31 since an attr may be of nearly 2^32 bytes. C85_hint: for every hint function. C85_empty: the model runs out of rounds, which is what not returning is in it. C85_hint_refuted: parse_bytes does need the hint."
  },
  {
   "property": "C86",
   "status": "partial",
   "theorems": [
    "C86_same",
    "C86_builtin",
    "C86_attr",
    "C86_metadata",
    "C86_default_partial",
    "C86_anywhere",
    "C86_safe",
    "C86_attr_safe",
    "C86_claim_refuted",
    "C86_empty_refuted",
    "C86_anywhere_alike",
    "C86_recording_alike",
    "C86_recording",
    "C86_default_alike"
   ],
   "note": "Endian.v has the parsers again with the four methods of an implementation in place of the byte orders of the crate; C86_builtin: with the methods of the crate it is the model of the other properties. C86_same: equal, for every source. C86_default_partial: what the own type reads is read; not conversely, since with the default an empty array at the end of a record is read where the own type gives Eof (C86_empty_refuted; the defect of C74). C86_anywhere needs of the conditions of C03 only the one on TEXT_POKE. C86_anywhere_alike, C86_recording_alike: without that between sources which copy and between memory of any alignment, for whole recordings; C86_default_alike: C86_default_partial for recordings from sources which copy, without conditions; C86_recording: C86_same for recordings. C86_safe, C86_attr_safe: for all methods whose results fit their types. C86_claim_refuted: a wrong is_native gives the numbers of an array in the wrong order; that nothing worse happens is C86_safe."
  },
  {
   "property": "C87",
   "status": "partial",
   "theorems": [
    "C87_same",
    "C87_elsewhere_partial",
    "C87_width_refuted",
    "C87_caught_refuted",
    "C87_named_refuted"
   ],
   "note": "C87_same: hosts of the same width, errors included. C87_elsewhere_partial: from a wider host to a narrower, what is read; a program must not catch errors nor repeat what takes no bytes. The full statement fails: lengths are cut to 32 bits, so a program reads what it could not (C87_width_refuted) and, catching the error, something else (C87_caught_refuted); and a program can ask for the name the configuration has for the byte order (C87_named_refuted), so it must be the same or not asked for."
  },
  {
   "property": "C88",
   "status": "proved",
   "theorems": [
    "C88_calls",
    "C88_linear",
    "C88_plain",
    "C88_nothing_refuted"
   ],
   "note": "asks (ClientWork.v) counts the calls a program makes, from its text; C88_calls bounds the calls of the source and the reservations for every source and outcome, C88_linear and C88_plain follow. C88_nothing_refuted: repeating what takes no bytes makes as many rounds as the count says, which is why asks has that condition."
  },
  {
   "property": "C89",
   "status": "partial",
   "theorems": [
    "C89_written",
    "C89_place_partial",
    "C89_metadata_partial",
    "C89_sorted",
    "C89_mixed_partial",
    "C89_mmap_refuted",
    "C89_both_refuted",
    "C89_one_refuted"
   ],
   "note": "whose (Mixed.v) takes the word behind the header of a sample and the last word of other records; sort_out is the program of a client which opens a parser per record with the configuration found by it. C89_written: it is where the kernel writes the identifier; C89_mixed_partial: records of several events are told as written (item_ok leaves out what C21 does); C89_sorted: for all bytes, each record is read as with the configuration of its event alone. C89_place_partial and C89_metadata_partial: the identifier the crate gives is that word, but for MMAP records (C89_mmap_refuted) and settings with PERF_SAMPLE_ID too (C89_both_refuted). C89_one_refuted: with one configuration for all, records of other events are read wrongly without an error."
  },
  {
   "property": "C90",
   "status": "partial",
   "theorems": [
    "C90_appended_partial",
    "C90_same_partial",
    "C90_recording_partial",
    "C90_names_refuted",
    "C90_alike",
    "C90_recording_alike"
   ],
   "note": "longer (Newer.v) is appending on byte strings, grown what becomes of the record. C90_appended_partial: any two sources, any bytes behind the records, configurations equal in what matters (C73). C90_same_partial: the fifteen types which stay as they are. C90_recording_partial: lists of records. Partial for the condition tame of C03 on the source, which C90_alike and C90_recording_alike do without: both sources lend nothing, or both lend memory of one alignment (in recordings, what is appended keeps it). C90_names_refuted: a name goes on with appended bytes which are not zeros."
  },
  {
   "property": "C91",
   "status": "partial",
   "theorems": [
    "C91_once_partial",
    "C91_twice",
    "C91_once_iff",
    "C91_parsers",
    "C91_attr",
    "C91_record",
    "C91_reader_refuted",
    "C91_refuted"
   ],
   "note": "False: Display prints the text of the cause and source() hands it out too (C91_twice, C91_refuted), so a report prints it twice. C91_once_iff says which errors keep the rule: those without a cause or with one that has no text. C91_parsers, C91_record, C91_attr: from a source that ends as slices do, running out of data keeps it and every other error breaks it; C91_reader_refuted: the end of a Read breaks it too. Missing: the rule for errors with a cause, which is false."
  }
 ]
}
