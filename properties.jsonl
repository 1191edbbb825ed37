{"id": "C01", "title": "Record framing and resynchronisation", "statement": "When a source holds a complete record (an 8 byte header whose size field is at least 8 and at least that many bytes), one call to parse_record removes exactly header.size bytes from the source, whether the record body is accepted, rejected or of an unknown type; so the next call starts at the next record.", "quantifier": "every source, chunking, configuration, endianness, visitor, header and body content (well-formed or not)", "why_tests_cant": "the body is arbitrary untrusted data and every one of its parse failures has to leave the outer source at the same place", "anchors": ["src/parse.rs:parse_record", "src/parse.rs:parse_metadata_with_header_impl", "src/parse.rs:split_at", "src/parsebuf.rs:ParseBufCursor::new"]}
{"id": "C02", "title": "Streams of records decode in order", "statement": "A source holding the concatenation of the encodings of any list of supported records decodes, by repeated parse::<Record>() calls, to exactly those records in order and then reports Eof.", "quantifier": "every list of well-formed records of any length, every configuration, both byte orders, every chunking of the source", "why_tests_cant": "unbounded list of records, unbounded number of chunk boundaries falling anywhere inside records", "anchors": ["src/parse.rs:parse_record", "src/records/mod.rs:Record"]}
{"id": "C03", "title": "Chunking independence", "statement": "The value (or error) produced by parsing a record depends only on the bytes of the source, not on how the ParseBuf splits them into chunks nor on whether chunks are Temporary or External.", "quantifier": "all byte contents, all pairs of contract-abiding sources with the same bytes, all configurations", "why_tests_cant": "there are exponentially many ways of splitting a buffer, and the fast path, cursor path and slow paths all have to agree on every one", "anchors": ["src/parsebuf.rs:ParseBufCursor", "src/parse.rs:parse_bytes", "src/parse.rs:parse_array", "src/parse.rs:parse_rest", "src/parse.rs:parse_record_with_header"]}
{"id": "C04", "title": "No panic and no infinite loop on untrusted input", "statement": "Parsing a record, any record body, or a perf_event_attr from any bytes under any configuration always returns Ok or Err: it never panics, indexes out of bounds, or loops forever, provided the ParseBuf obeys its contract.", "quantifier": "all byte strings, configurations, platforms and contract-abiding sources", "why_tests_cant": "fuzzing only samples inputs; the claim is about all of them", "anchors": ["src/parse.rs", "src/parsebuf.rs", "src/records/*", "src/impls/perf_event_attr.rs"]}
{"id": "C05", "title": "Integer decoding", "statement": "parse_u16, parse_u32 and parse_u64 return the number whose little-endian (resp. big-endian, resp. host) encoding is the next 2/4/8 bytes and consume exactly those bytes, wherever chunk boundaries fall.", "quantifier": "all values of each width, all endians (Native, Little, Big, Dynamic), both host byte orders, every source", "why_tests_cant": "2^64 values times all chunk splits", "anchors": ["src/endian.rs", "src/parse.rs:parse_u16", "src/parse.rs:parse_u32", "src/parse.rs:parse_u64", "src/parse.rs:parse_array"]}
{"id": "C06", "title": "Native reinterpretation agrees with decoding", "statement": "is_native() is true exactly when the declared source byte order is the host's; and when it is, reinterpreting source memory as a slice of elements gives the same elements as decoding them one by one.", "quantifier": "all endians, both hosts, all slices of u64, branch entries and namespace entries", "why_tests_cant": "quantifies over all contents; the transmute is only sound if the two always agree", "anchors": ["src/endian.rs:is_native", "src/parse.rs:parse_slice_direct"]}
{"id": "C07", "title": "parse_bytes is exact", "statement": "parse_bytes(len) returns exactly the next len bytes of the source and consumes exactly len, or fails with the source's end error exactly when fewer than len bytes remain.", "quantifier": "every len, every source and chunking", "why_tests_cant": "lengths come from untrusted input and meet every combination of hint, chunk kind and chunk size", "anchors": ["src/parse.rs:parse_bytes", "src/parse.rs:parse_bytes_direct", "src/parse.rs:parse_bytes_slow", "src/parse.rs:parse_to_slice"]}
{"id": "C08", "title": "parse_rest and NUL trimming", "statement": "parse_rest returns everything left in the source; parse_rest_trim_nul returns it with precisely the trailing NUL bytes removed: the result does not end in NUL, and appending the removed NULs gives back the original bytes.", "quantifier": "every source, chunking and content (including interior NULs and all-NUL strings)", "why_tests_cant": "arbitrary content and number of chunks", "anchors": ["src/parse.rs:parse_rest", "src/parse.rs:parse_rest_trim_nul", "src/util/cow.rs:truncate"]}
{"id": "C09", "title": "Borrowing is exact and copy-free on contiguous input", "statement": "Parsing a record from one contiguous borrowed slice makes every variable-length byte field a borrow of exactly the input range it occupies (right address, right length) and reserves no heap capacity for it.", "quantifier": "every contiguous input, every record type with byte fields", "why_tests_cant": "address arithmetic must be right for every offset and length", "anchors": ["src/parse.rs:parse_bytes_direct", "src/parsebuf.rs:ParseBufChunk", "src/parse.rs:parse_record_with_header"]}
{"id": "C10", "title": "parse_slice yields the next len elements", "statement": "parse_slice(len) returns the next len elements of the source, decoded in the source byte order, and consumes exactly their bytes, whether or not the buffer is suitably aligned for a zero-copy reinterpretation.", "quantifier": "every element type used by the crate, every len, address, alignment, endianness and source", "why_tests_cant": "depends on the run-time address of the buffer, which tests cannot choose exhaustively", "anchors": ["src/parse.rs:parse_slice", "src/parse.rs:parse_slice_direct", "src/parse.rs:parse_repeated"]}
{"id": "C11", "title": "SampleId length and contents", "statement": "SampleId::parse consumes exactly SampleId::estimate_len(config) bytes; each field is Some exactly when its sample_type bit is set (id also via IDENTIFIER) and holds the encoded value; with sample_id_all off it is empty and consumes nothing.", "quantifier": "all sample_type masks, both settings of sample_id_all, all field values, all sources", "why_tests_cant": "2^6 masks times all values, and the estimate is what locates the trailer of every record", "anchors": ["src/records/mod.rs:SampleId::estimate_len", "src/records/mod.rs:SampleId::parse"]}
{"id": "C12", "title": "Record metadata comes from the header and the record trailer", "statement": "For every record type other than MMAP and SAMPLE the metadata's sample_id is decoded from the last estimate_len bytes of the record and the record parser sees exactly the bytes before them; MMAP and SAMPLE records get an empty sample_id and see the whole body; type and misc are the header's.", "quantifier": "all headers, bodies, configurations, sources", "why_tests_cant": "arbitrary record types and lengths", "anchors": ["src/parse.rs:parse_metadata_with_header_impl", "src/visitor.rs:RecordMetadata"]}
{"id": "C13", "title": "Invalid record sizes are rejected", "statement": "A header whose size is below 8, or a record too short for the configured sample_id, yields an InvalidRecord error, and a record whose body extends past the end of the source yields the source's end error; in no such case is a record delivered to the visitor.", "quantifier": "all headers, configurations and sources", "why_tests_cant": "arithmetic on untrusted sizes must be right for every combination", "anchors": ["src/parse.rs:parse_metadata_with_header_impl", "src/parse.rs:split_at"]}
{"id": "C14", "title": "Configuration packing is lossless", "statement": "A ParseConfig built from a perf_event_attr reports the attr's sample_type, sample_id_all, branch HW_INDEX setting, user and interrupt register masks and supported read_format bits; setting misc, sample_type or read_format changes that setting and no other.", "quantifier": "all attr values with sample_type below 2^40, all misc values, all update sequences", "why_tests_cant": "64-bit packing with shifts and masks over all field combinations", "anchors": ["src/config.rs:ConfigFlags", "src/config.rs:RawParseConfig", "src/config.rs:ParseConfig"]}
{"id": "C15", "title": "Unsupported read_format bits are never silently ignored", "statement": "If the attr's read_format has any bit this crate does not know, parsing a ReadValue or ReadGroup fails with UnsupportedConfig before consuming anything; otherwise it never fails with UnsupportedConfig when the GROUP bit matches the type being parsed.", "quantifier": "all 64-bit read_format values", "why_tests_cant": "2^64 values folded into a 6-bit field", "anchors": ["src/config.rs:set_read_format", "src/records/read.rs:ReadValue::parse", "src/records/read.rs:ReadGroup::parse"]}
{"id": "C16", "title": "READ values decode to what was encoded", "statement": "A counter read (single or group) encoded as the kernel ABI describes for a read_format decodes to the same value, times, ids and lost counts, with each optional accessor Some exactly when its read_format bit is set.", "quantifier": "all read_formats, all values, groups of any length, both byte orders, all sources", "why_tests_cant": "unbounded group sizes and all bit combinations", "anchors": ["src/records/read.rs"]}
{"id": "C17", "title": "Group entry access", "statement": "ReadGroup::len is the encoded number of counters; get(i) is the i-th entry and None past the end; get_by_id(id) is the first entry with that id, and None if ids are not recorded or the id is absent.", "quantifier": "all groups of any length, all indices, all ids, all read_formats", "why_tests_cant": "unbounded lengths", "anchors": ["src/records/read.rs:ReadGroup", "src/records/read.rs:GroupIter"]}
{"id": "C18", "title": "ReadValue and ReadGroup conversions", "statement": "Converting a ReadValue to a ReadGroup gives a one-entry group with the same value, times, id and lost; converting back succeeds and returns an equal value; converting a group to a ReadValue succeeds exactly for one-entry groups; from_group_and_entry carries the entry's and group's fields.", "quantifier": "all values and groups", "why_tests_cant": "all read_format and length combinations", "anchors": ["src/records/read.rs:TryFrom", "src/records/read.rs:From", "src/records/read.rs:from_group_and_entry"]}
{"id": "C19", "title": "GroupIter is a double-ended queue of the entries", "statement": "Any interleaving of next, nth, next_back, nth_back, len, count and last on GroupIter behaves like the same operations on the list of entries; no entry is yielded twice or skipped, and len is always the number still to come.", "quantifier": "all groups and all finite operation sequences", "why_tests_cant": "unbounded histories of mixed front and back operations", "anchors": ["src/records/read.rs:GroupIter"]}
{"id": "C20", "title": "SAMPLE records decode to what the kernel encoded", "statement": "A sample encoded field by field in the kernel ABI order for a sample_type decodes to the same values, each accessor being Some exactly when its sample_type bit is set.", "quantifier": "all sample_type masks, all register masks and read_formats, all field values, all sources", "why_tests_cant": "2^24 masks times unbounded variable-length fields", "anchors": ["src/records/sample.rs:Sample"]}
{"id": "C21", "title": "Fixed-layout and string records decode to what was encoded", "statement": "LOST, EXIT/FORK, THROTTLE/UNTHROTTLE, READ, AUX, ITRACE_START, LOST_SAMPLES, SWITCH_CPU_WIDE, NAMESPACES, KSYMBOL, BPF_EVENT, CGROUP, COMM, MMAP, MMAP2 and AUX_OUTPUT_HW_ID bodies encoded as in perf_event.h decode to the same field values.", "quantifier": "all field values, both byte orders, any NUL padding, all sources", "why_tests_cant": "all values of all fields", "anchors": ["src/records/*.rs"]}
{"id": "C22", "title": "PERF_SAMPLE_RAW padding", "statement": "A raw field of any size returns exactly size bytes, and consumes the u32 length, the bytes, and just enough padding for the total to be a multiple of 8.", "quantifier": "all sizes below 2^32 and contents, all sources and starting offsets", "why_tests_cant": "every residue class and chunking", "anchors": ["src/parse.rs:parse_padded", "src/records/sample.rs:Sample::parse"]}
{"id": "C23", "title": "User stack dumps are cut to dyn_size", "statement": "A STACK_USER field returns exactly the first dyn_size bytes of the dump; dyn_size greater than size is rejected as InvalidRecord; a zero size has no dyn_size word.", "quantifier": "all sizes, dyn_sizes and contents", "why_tests_cant": "all combinations of untrusted lengths", "anchors": ["src/records/sample.rs:Sample::parse"]}
{"id": "C24", "title": "Visitor dispatch", "statement": "parse_record calls exactly one visitor method, the one for the header's type, with the decoded body; unknown types go to visit_unknown with the unparsed body bytes; methods that are not overridden fall back to visit_unimplemented, except that visit_mmap2 falls back to visit_mmap with the equivalent MMAP.", "quantifier": "all record types (32-bit), all sets of overridden methods, all bodies", "why_tests_cant": "2^32 type values and 2^23 override sets", "anchors": ["src/parse.rs:parse_record_impl", "src/visitor.rs:Visitor"]}
{"id": "C25", "title": "Record parsing never hits the unimplemented path", "statement": "Parsing any input to the Record enum never invokes visit_unimplemented (which would panic), and the Record variant corresponds to the header's type.", "quantifier": "all inputs and types", "why_tests_cant": "all 2^32 types", "anchors": ["src/records/mod.rs:RecordVisitor", "src/records/mod.rs:Record"]}
{"id": "C26", "title": "SWITCH records", "statement": "A PERF_RECORD_SWITCH record (header plus optional sample_id, no body) is delivered to visit_switch, and parses as Record::Switch.", "quantifier": "all configurations, misc values and sources", "why_tests_cant": "the only record type without a body; must hold under every configuration", "anchors": ["src/parse.rs:parse_record_impl", "src/visitor.rs:visit_switch", "src/records/mod.rs:Record::Switch"]}
{"id": "C27", "title": "misc-dependent layouts", "statement": "SWITCH_CPU_WIDE yields Out exactly when the header misc has SWITCH_OUT and In otherwise; MMAP2 yields a build id exactly when misc has MMAP_BUILD_ID, otherwise device and inode numbers; the misc used is the current record's header, not an earlier one.", "quantifier": "all misc values, all bodies, all sources", "why_tests_cant": "2^16 misc values and histories of records", "anchors": ["src/records/switch_cpu_wide.rs", "src/records/mmap2.rs", "src/config.rs:with_misc", "src/parse.rs:parse_record_impl"]}
{"id": "C28", "title": "Build ids are in range", "statement": "A parsed MMAP2 build id has at most 20 bytes and is exactly the announced prefix of the 20 byte field; larger announced lengths are rejected as InvalidRecord; the accessor never panics on a parsed record.", "quantifier": "all announced lengths and contents", "why_tests_cant": "must hold for all 256 lengths times contents; accessor indexing safety", "anchors": ["src/records/mmap2.rs:MmapDetail", "src/records/mmap2.rs:build_id"]}
{"id": "C29", "title": "Mmap2 to Mmap conversion", "statement": "into_mmap, to_mmap and From<Mmap2> keep pid, tid, addr, len, pgoff and filename.", "quantifier": "all Mmap2 values", "why_tests_cant": "all values", "anchors": ["src/records/mmap2.rs:into_mmap", "src/records/mmap.rs"]}
{"id": "C30", "title": "perf_event_attr decoding", "statement": "A serialized perf_event_attr of size VER0..VER8 (or larger with a zero tail) decodes to the same field values, fields beyond its size are zero, and exactly `size` bytes are consumed.", "quantifier": "all sizes and field values, both byte orders, all sources", "why_tests_cant": "all versions times all values", "anchors": ["src/impls/perf_event_attr.rs"]}
{"id": "C31", "title": "perf_event_attr validation", "statement": "A size that is neither a published version nor larger than VER8 is rejected as InvalidRecord; a larger size whose extra bytes are not all zero is rejected as UnsupportedData.", "quantifier": "all 32-bit sizes and contents", "why_tests_cant": "2^32 sizes", "anchors": ["src/impls/perf_event_attr.rs"]}
{"id": "C32", "title": "Allocation is bounded by the input", "statement": "The heap capacity the parser reserves up front for a field never exceeds the number of bytes the source says it holds (or 16 KiB when it cannot say), no matter what lengths the input claims; for a record it never exceeds 65527 bytes.", "quantifier": "all inputs and claimed lengths, all sources", "why_tests_cant": "an attacker picks the claimed length out of 2^64", "anchors": ["src/parse.rs:safe_capacity_bound", "src/parse.rs:parse_bytes", "src/parse.rs:parse_repeated"]}
{"id": "C33", "title": "Optional-field structs return what was stored", "statement": "For SampleId and Sample, each accessor returns Some(v) exactly when the value was given at construction, default() is all None, clone preserves all fields, only initialised fields are ever read, and drop releases each present field exactly once.", "quantifier": "all subsets of present fields and all values", "why_tests_cant": "2^25 subsets; reads of uninitialised memory are undefined behaviour that tests need not reveal", "anchors": ["src/macros.rs:option_struct"]}
{"id": "C34", "title": "Cow splitting and truncation", "statement": "Splitting a Cow slice at len yields the first len elements and the remaining ones, in that order, for borrowed and owned data; truncate keeps exactly the first min(len, n) elements.", "quantifier": "all slices and lengths, both Cow variants", "why_tests_cant": "all lengths including both extremes", "anchors": ["src/util/cow.rs:CowSliceExt"]}
{"id": "C35", "title": "TEXT_POKE records", "statement": "A TEXT_POKE record with any old and new lengths (either may be zero) decodes to exactly the old bytes and the new bytes, from any source.", "quantifier": "all old/new lengths and contents, all sources", "why_tests_cant": "all combinations of lengths and source kinds", "anchors": ["src/records/text_poke.rs", "src/util/cow.rs:split_at"]}
{"id": "C36", "title": "Namespace accessors", "statement": "Each namespace accessor (network, uts, ipc, pid, user, cgroup) returns the entry at the kernel's index for that namespace, or None if the record has fewer entries.", "quantifier": "all NAMESPACES records of any length", "why_tests_cant": "all lengths and contents", "anchors": ["src/records/namespaces.rs"]}
{"id": "C37", "title": "remaining_hint is accurate", "statement": "Whenever a ParseBuf provided by the crate returns Some(n) from remaining_hint, exactly n bytes remain.", "quantifier": "all sequences of chunk and advance calls on slices and record cursors", "why_tests_cant": "unbounded histories", "anchors": ["src/parsebuf.rs:remaining_hint"]}
{"id": "C38", "title": "Record cursors deliver exactly the record", "statement": "The sub-parser handed out for a record delivers exactly the record's bytes in order and then Eof, whatever the chunking of the parent source.", "quantifier": "all sources, lengths, chunkings and read patterns", "why_tests_cant": "unbounded chunk sequences", "anchors": ["src/parsebuf.rs:ParseBufCursor"]}
{"id": "C39", "title": "Failed parses leave the parser unmodified", "statement": "If Parser::parse fails, the parser is not modified (as its documentation promises).", "quantifier": "all types, inputs and sources", "why_tests_cant": "all failure points", "anchors": ["src/parse.rs:parse"]}
{"id": "C40", "title": "BufReader sources", "statement": "Parsing through a BufReader gives the same result as parsing the whole byte string from memory for every way the underlying reader may split its reads; an I/O error met while more bytes are needed is reported as External (or Eof for UnexpectedEof) and never as a truncated record.", "quantifier": "all read schedules and failure points", "why_tests_cant": "all short-read schedules and fault points", "anchors": ["src/parsebuf.rs:BufReader", "src/error.rs:From<io::Error>"]}
{"id": "C41", "title": "Error kinds", "statement": "If the source's own errors are Eof errors, parsing never returns an External error; every error of kind External is the source's error passed through unchanged.", "quantifier": "all inputs, configurations and sources", "why_tests_cant": "all failure paths", "anchors": ["src/error.rs:ErrorKind", "src/parse.rs"]}
{"id": "C42", "title": "Successful parses do not depend on what follows", "statement": "If a record parses successfully from a source, it parses to the same value from any source holding the same bytes followed by more data, and the extra data is left unread.", "quantifier": "all inputs and all extensions", "why_tests_cant": "unbounded suffixes", "anchors": ["src/parse.rs:parse_record"]}
{"id": "C43", "title": "into_owned keeps contents", "statement": "into_owned/to_owned on records gives a record with the same field values whose data no longer borrows from the input.", "quantifier": "all records", "why_tests_cant": "all values and both Cow variants", "anchors": ["src/records/*.rs:into_owned"]}
{"id": "C44", "title": "Data source accessors", "statement": "Each DataSource accessor returns exactly its bit field of the 64-bit data_src word, and mem_snoop combines both snoop fields without loss.", "quantifier": "all 64-bit words", "why_tests_cant": "2^64 words", "anchors": ["src/records/sample.rs:DataSource", "src/records/sample.rs:MemSnoop"]}
{"id": "C45", "title": "Flag word accessors", "statement": "Txn::abort is the upper 32 bits, AuxFlags::pmu_format_type is bits 8..15, and the BranchEntry accessors return their fields of the flags word.", "quantifier": "all 64-bit words", "why_tests_cant": "2^64 words", "anchors": ["src/records/sample.rs:Txn", "src/records/aux_record.rs:AuxFlags", "src/records/sample.rs:BranchEntry"]}
{"id": "C46", "title": "Debug output of build ids is hexadecimal", "statement": "The hexadecimal Debug helper used for build ids prints each byte as its two hexadecimal digits, high digit first.", "quantifier": "all byte strings", "why_tests_cant": "all bytes", "anchors": ["src/util/fmt.rs:HexStr"]}
{"id": "C47", "title": "Lengths are not truncated on 32-bit hosts", "statement": "Element counts and byte counts read as u64 from the input are either honoured or rejected, never silently reduced, on every pointer width.", "quantifier": "all 64-bit counts, 32- and 64-bit platforms", "why_tests_cant": "tests run on one platform", "anchors": ["src/records/sample.rs", "src/records/read.rs", "src/records/namespaces.rs"]}
{"id": "C48", "title": "SampleId from a Sample", "statement": "SampleId::from_sample copies pid, tid, time, id, stream_id and cpu of the sample, present or not.", "quantifier": "all samples", "why_tests_cant": "all presence combinations", "anchors": ["src/records/mod.rs:from_sample"]}
{"id": "C49", "title": "Fixed-layout decoding loses nothing", "statement": "For records without variable-length parts, re-encoding the decoded record gives back the bytes consumed, so distinct inputs never decode to equal records.", "quantifier": "all byte strings of the right length, both byte orders", "why_tests_cant": "all contents", "anchors": ["src/records/*.rs"]}
{"id": "C50", "title": "Debug output of byte strings", "statement": "The Debug helper for byte strings terminates on every byte string and consumes every byte exactly once, printing valid UTF-8 runs and escaping invalid bytes.", "quantifier": "all byte strings", "why_tests_cant": "all invalid UTF-8 sequences", "anchors": ["src/util/fmt.rs:ByteStr"]}
{"id": "C51", "title": "Debug output of counter values", "statement": "Debug of ReadValue and ReadGroup prints exactly the fields the read_format has, with the entries of a group in order, on one line and in pretty form; two values print the same exactly when no accessor tells them apart.", "quantifier": "all values, formats and data lengths; both Debug forms", "why_tests_cant": "all combinations of flags and all data lengths", "anchors": ["src/records/read.rs", "src/macros.rs:debug_if"]}
{"id": "C52", "title": "Debug output of samples", "statement": "Debug of SampleId, RecordMetadata and Sample prints exactly the fields that are present, so that two values print the same exactly when they hold the same data, as far as it can be asked for (a data_src and a group of counters by their accessors).", "quantifier": "all values; both Debug forms; any unambiguous Debug of the flag types of other crates", "why_tests_cant": "all presence combinations and nested values", "anchors": ["src/records/mod.rs:SampleId", "src/records/sample.rs:Sample", "src/visitor.rs:RecordMetadata", "src/macros.rs:option_struct"]}
{"id": "C53", "title": "Error messages", "statement": "Display of a ParseError is the description of its kind followed by a colon and the text of its source if it has one; an external error prints the text of its source.", "quantifier": "all kinds and sources", "why_tests_cant": "all combinations of kind and source", "anchors": ["src/error.rs:Display"]}
{"id": "C54", "title": "Debug output of addresses", "statement": "Addresses print as 0x and upper-case hexadecimal digits, padded with zeros to a total width of 16, whose value is the address.", "quantifier": "all addresses", "why_tests_cant": "2^64 addresses", "anchors": ["src/util/fmt.rs:HexAddr"]}
{"id": "C55", "title": "Debug of parsed records does not panic", "statement": "Debug formatting of every record that Record::parse returns succeeds, whatever the input bytes and however they are chunked.", "quantifier": "all byte strings, configurations, platforms and sources; both Debug forms", "why_tests_cant": "all inputs", "anchors": ["src/records/*.rs:Debug", "src/util/fmt.rs"]}
{"id": "C56", "title": "Debug does not depend on borrowing", "statement": "The Debug text of a record depends on its contents only: it is the same for borrowed and owned data, after into_owned, and for the same bytes read from any source.", "quantifier": "all records, all pairs of sources with the same bytes", "why_tests_cant": "all chunkings", "anchors": ["src/records/*.rs:Debug", "src/util/cow.rs"]}
{"id": "C57", "title": "Debug output of ParseConfig", "statement": "Two configurations print the same exactly when all getters and register masks agree; the byte order is not part of the text.", "quantifier": "all configurations", "why_tests_cant": "all flag words and masks", "anchors": ["src/config.rs:Debug"]}
{"id": "C58", "title": "One-line Debug text of records", "statement": "{:?} of a record prints its variant, the name of its type and every field once, in order of declaration, with its name and value: integers in decimal without leading zeros, addresses as in C54, byte strings as in C50, lists in brackets; a sample prints exactly the fields it has.", "quantifier": "all records, samples, metadata and configurations", "why_tests_cant": "all field values, lengths and presence combinations", "anchors": ["src/records/*.rs:Debug", "src/visitor.rs:RecordMetadata", "src/config.rs:Debug"]}
{"id": "C59", "title": "Bit fields of recordings", "statement": "The flags of branch entries and of perf_event_attr mean what the recording kernel wrote, whatever the byte orders of the recording machine and of the host; in particular the configuration made of a parsed attr describes the records that follow it.", "quantifier": "all flag values, both orders of the recording and of the host, all sources", "why_tests_cant": "needs machines of both byte orders and recordings of the other one", "anchors": ["src/impls/perf_event_attr.rs:_bitfield_1", "src/records/sample.rs:BranchEntry", "src/config.rs:RawParseConfig"]}
{"id": "C60", "title": "Records with a header read by the caller", "statement": "parse_record_with_header and Record::parse_with_header take size - 8 bytes for whatever header they are given, never panic, reject sizes below 8 without taking anything and report missing data as the error of the source; with the header of a record they give what parse_record gives for the whole record, wherever the body is read from.", "quantifier": "all headers (including ones that do not belong to the data), all sources, visitors and configurations", "why_tests_cant": "headers and bodies from unrelated places; all pairs of sources", "anchors": ["src/parse.rs:parse_record_with_header", "src/parse.rs:parse_metadata_with_header", "src/records/mod.rs:Record::parse_with_header"]}
{"id": "C61", "title": "Whole sessions", "statement": "An attr followed by records: the configuration made of the parsed attr describes the records, and a visitor reading them one after the other is told each record once, in order, with its type, misc, sample_id and contents as encoded, and then gets the error of the source.", "quantifier": "all attrs, all record lists, all visitors, sources and configurations", "why_tests_cant": "every combination of attr and records, all chunkings", "anchors": ["src/impls/perf_event_attr.rs", "src/config.rs:From<perf_event_attr>", "src/parse.rs:parse_record", "src/visitor.rs"]}
{"id": "C62", "title": "Reading leaves the configuration alone", "statement": "No parser changes the configuration of the Parser it runs on, whether it succeeds, fails or panics and whatever the buffer does; the sub-parsers of split_at and parse_metadata start with that configuration, and the body of a record is read under it with only the misc replaced by the header's.", "quantifier": "all parsers, inputs, buffers (lawful or not) and configurations", "why_tests_cant": "every outcome at every point of every input, with arbitrary buffers", "anchors": ["src/parse.rs:Parser", "src/parse.rs:split_at", "src/parse.rs:parse_metadata_with_header", "src/parse.rs:parse_record_impl", "src/config.rs:with_misc"]}
{"id": "C63", "title": "Exactly what is read back", "statement": "A sample is read back as it was written exactly when its read_format has only known flags, WEIGHT_STRUCT is not asked for without WEIGHT, no empty variable-length part comes last and every register set asked for was dumped; a record exactly when its body is, MMAP needing a sample_id of zero bytes only (none, for a visitor), SWITCH never, NAMESPACES an entry in host byte order, TEXT_POKE a contiguous source or bytes on both sides, unknown records a body; a stream exactly when each of its records is.  Where only an empty last part is wrong, the result is the error of the source's end.", "quantifier": "all values, settings, byte orders, misc values, sources and record lists", "why_tests_cant": "both directions over all combinations of settings and contents", "anchors": ["src/records/sample.rs:Sample", "src/parse.rs:parse_record_impl", "src/parse.rs:parse_slice", "src/parse.rs:parse_rest", "src/records/text_poke.rs", "src/records/mmap.rs"]}
{"id": "C64", "title": "Debug texts over several lines", "statement": "For {:#?} every record, sample, sample_id, counter value, group, metadata, configuration and error prints one part per line: the name and an opening bracket, the parts indented by four spaces with their label and a comma after the last line of each, two dots where more may follow, and the closing bracket; empty structs and lists stay on one line.  {:?} prints the same parts in the same order on one line.  Every record that can be read prints this way.", "quantifier": "all records, samples, values, errors and configurations; all sources", "why_tests_cant": "all field values, presence combinations and nestings, for both flags", "anchors": ["src/records/*.rs:Debug", "src/visitor.rs:RecordMetadata", "src/config.rs:Debug", "src/error.rs:Debug", "src/macros.rs:option_struct"]}
{"id": "C65", "title": "Exactly which bytes are a record", "statement": "parse_record gives a record and takes n bytes if and only if those n bytes are laid out as that record: a header whose size is theirs, the fields of its type in order with values in range, then, after a body of fixed size, bytes nobody reads, and the sample_id; free are only the reserved bytes of CPU and build id fields, padding, an id that is there twice and, with 32-bit pointers, the upper halves of counts.  All other byte strings are refused with an error, no byte string begins with two different records, and a sequence of records is given exactly for their concatenation.  Samples and attrs read on their own are given for exactly the bytes laid out as one: an attr for its known fields up to its size, zeros where the size goes beyond them, and the four bytes read too many.", "quantifier": "all byte strings, settings, byte orders, pointer widths and sources", "why_tests_cant": "arbitrary bytes: both directions, every prefix length", "anchors": ["src/parse.rs:parse_record_impl", "src/parse.rs:parse_metadata_with_header", "src/records/*.rs:Parse", "src/parse.rs:parse_slice", "src/impls/perf_event_attr.rs"]}
{"id": "C66", "title": "Names of flags and codes", "statement": "Every named constant of the flag types and codes has the value of the kernel constant of that name, and every kernel constant of those kinds has a name.  The DataSource accessors contain a flag exactly when the recorded word contains PERF_MEM_S of it, every bit they return has a name, and for a word the kernel puts together from sets of flags and numbers they report exactly those, on hosts of both byte orders.", "quantifier": "all constants; all 64-bit words; all sets of flags; both byte orders of the host", "why_tests_cant": "all words and all sets of flags; names and values of all constants at once", "anchors": ["src/flags.rs:SampleFlags", "src/flags.rs:ReadFormat", "src/records/sample.rs:MemOp", "src/records/sample.rs:MemSnoop", "src/records/sample.rs:DataSource", "src/records/sample.rs:BranchType", "src/records/aux_record.rs:AuxFlags", "src/records/ksymbol.rs:KSymbolType", "src/records/bpf_event.rs:BpfEventType"]}
{"id": "C67", "title": "Which error refused data gets", "statement": "What parse_record refuses, it refuses with the error of the first thing wrong in the order the format is read, and no other: the end of the source if header or body are not all there, a size below 8, no room for the sample_id, and within the body the end of the frame, a read_format that is of the other kind or has unknown flags, a group or array too large for an address, a used stack size above the dumped one, a build id longer than 20.  It accepts exactly the rest, taking the size in the header.  Samples, attrs, values and groups of counters read on their own likewise.", "quantifier": "all byte strings, settings, byte orders, pointer widths and sources", "why_tests_cant": "arbitrary bytes with several things wrong at once; which one is reported", "anchors": ["src/parse.rs:parse_metadata_with_header", "src/parse.rs:parse_slice", "src/records/*.rs:Parse", "src/records/read.rs", "src/records/sample.rs", "src/records/mmap2.rs", "src/impls/perf_event_attr.rs", "src/error.rs"]}
{"id": "C68", "title": "What an Eof error tells", "statement": "parse_record gives the error for the end of the data if and only if the data ends before the record does, so that reading on may help; any other error stays, whatever follows.", "quantifier": "all byte strings and continuations, settings and sources", "why_tests_cant": "every prefix of every input, with every continuation", "anchors": ["src/error.rs:ErrorKind::Eof", "src/error.rs:ParseError::eof", "src/parse.rs:parse_record", "src/parse.rs:split_at"]}
{"id": "C69", "title": "Fuzz targets", "statement": "Both fuzz targets end without a panic on every input.  The first 24 bytes of the input, continued with zeros if there are fewer, are the configuration of fuzz_record, as three little-endian words, and the rest is what it parses; every configuration, among them those of all recordings, is tried with every data after it by some input.", "quantifier": "all inputs, addresses, configurations and pointer widths", "why_tests_cant": "all inputs: fuzzing samples them", "anchors": ["fuzz/fuzz_targets/fuzz_record.rs", "fuzz/fuzz_targets/fuzz_record_basic.rs", "src/config.rs:fuzzing", "src/flags.rs:fuzzing", "src/config.rs:RawParseConfig"]}
{"id": "C70", "title": "Programs of clients", "statement": "A program put together from the public calls of Parser (integers, byte strings, repeated values, arrays, sample_id, attr, records, visitors, parse_metadata, with any control flow in between and errors caught or not) ends on every source with a value or an error, never a panic or endless loop, within the bytes there are, with the configuration as it was and no single reservation above a fixed bound.  It does the same on two sources of the same bytes (same value or error, equally many bytes taken), if it asks for no array or TEXT_POKE, or neither source lends memory, or both are one piece at addresses equal up to word alignment.  With the parser that parse_metadata hands out it sees nothing but that record, and however it ends the outer parser is past the record and no further.  Programs which do not ask for the rest of the data give the same when more data follows.  The custom sample of the documentation is read back for all values of its fields.", "quantifier": "all programs, byte strings, sources and ways to end, configurations and pointer widths", "why_tests_cant": "all programs; all ways to cut the data; failures at every point", "anchors": ["src/parse.rs:28-96", "src/parse.rs:Parser::parse", "src/parse.rs:parse_metadata", "src/parse.rs:parse_metadata_with_header", "src/parse.rs:parse_repeated", "src/lib.rs:doctest"]}
{"id": "C71", "title": "Records read by hand", "statement": "parse_metadata followed by parse for the type of the record gives the record, the metadata, the error and the position that parse_record gives.", "quantifier": "all byte strings, sources, configurations and record types", "why_tests_cant": "every record with every misc word and configuration", "anchors": ["src/parse.rs:parse_metadata", "src/parse.rs:parse_record_impl", "src/config.rs:with_misc", "src/records/mmap2.rs:191", "src/records/switch_cpu_wide.rs:65"]}
{"id": "C72", "title": "Work goes with the bytes taken", "statement": "parse_record calls chunk and advance of its source at most 2n+3 times for the n bytes it takes, 2n+4 if it fails, with header, sample_id and body of any type in them; parse_record_with_header 2n (2n+1), parse_metadata 2n+3 (2n+4), parse_attr 2n+2 (2n+3), every other public parser 4n+18.  A recording of j records is read with 2n+3j+4 calls, and j is at most n/8: no input makes the parser go over bytes again.  A record makes at most 8 reservations of memory, none above the size its header gives for the body.", "quantifier": "all byte strings, sources and ways to cut them, configurations, visitors and numbers of records", "why_tests_cant": "crafted counts and lengths, and sources which give one byte at a time, at any length", "anchors": ["src/parse.rs:parse_record", "src/parse.rs:parse_metadata_with_header", "src/parse.rs:parse_bytes", "src/parse.rs:parse_slice", "src/parse.rs:parse_repeated", "src/parsebuf.rs:ParseBufCursor::new", "src/parsebuf.rs:TrackingParseBuf", "src/impls/perf_event_attr.rs"]}
{"id": "C73", "title": "What of the configuration matters", "statement": "How a record is read depends, of the configuration, only on the byte order of the data and: for a SAMPLE, which of the 24 parts that are read sample_type asks for, with counter values on read_format, with a branch stack on the HW_INDEX setting, with registers on their masks; for every other record but MMAP, sample_id_all and, if it is on, the six sample_id flags of sample_type; for a READ, also read_format.  Everything else, among it the misc bits a configuration holds, can be changed without any effect on value, error, bytes taken or memory reserved; and nothing of what is listed can be left out.", "quantifier": "all configurations, byte strings and sources (also those that break the contract), visitors and headers", "why_tests_cant": "pairs of configurations which differ in what should not matter", "anchors": ["src/config.rs:ParseConfig", "src/parse.rs:parse_metadata_with_header", "src/parse.rs:parse_record_impl", "src/records/mod.rs:SampleId", "src/records/sample.rs:Sample", "src/records/read.rs", "src/records/mmap2.rs", "src/records/switch_cpu_wide.rs", "src/impls/perf_event_attr.rs"]}
{"id": "C74", "title": "The same recording on another host", "statement": "A recording read on two hosts, each told the byte order of the data in its own terms (Native on one, Little on the other), gives the same records, with the same metadata and bytes taken, and the same errors, if the hosts have pointers of the same width and both or neither have the byte order of the data.  What is read where pointers are at least as wide, by a host with the byte order of the data if the other has it, is read alike by the other; so what a 64-bit host reads of its own data, every host reads alike, whole recordings included.  Records other than SAMPLE and NAMESPACES, and attrs, are read and refused alike on any two hosts.", "quantifier": "all byte strings, sources, configurations and pairs of hosts (byte orders, pointer widths, alignments)", "why_tests_cant": "tests run on one host", "anchors": ["src/endian.rs", "src/parse.rs:parse_slice", "src/parse.rs:parse_record", "src/records/sample.rs:Sample", "src/records/namespaces.rs", "src/records/read.rs:ReadGroup", "src/impls/perf_event_attr.rs"]}
{"id": "C75", "title": "Sources which fail and then go on", "statement": "A read that fails (interrupted, would block) or finds nothing yet (a file still being written) need not be the end.  Up to its next failure such a source is like an ordinary one that ends there: parse_record, and every program of public calls which stops at the first failure, gives the same value or error, offset and reservations.  A complete record is taken as a whole, whatever it holds, and the failure is left for the next call; the failure is reported exactly for a record that is cut by it, once, and the next call goes on with the bytes after it.  If the failures fall between records, every record still arrives, in order, with one error per failure in between.  A failed read does not harm a record: calling parse_record again gives it.  No program on such a source panics, loops for ever or reserves more than on an ordinary one, also if it goes on after failures.", "quantifier": "all sources, numbers and kinds of failures and places where they fall, configurations, programs and visitors", "why_tests_cant": "failures at every point between and inside records, in any number", "anchors": ["src/parsebuf.rs:ParseBuf", "src/parsebuf.rs:134-153", "src/parse.rs:parse_record", "src/parse.rs:parse_metadata_with_header", "src/parse.rs:parse_rest", "src/parse.rs:parse_to_slice", "src/parsebuf.rs:ParseBufCursor::new", "src/error.rs"]}
{"id": "C76", "title": "The count of bytes taken is a usize", "statement": "How much has been read before does not matter. In particular: in builds without overflow checks the byte count of TrackingParseBuf wraps around and every value, padding included, is read the same; in builds with overflow checks any program or record is read as by an unbounded count if the bytes taken so far fit a usize, and panics otherwise, and never for data in memory or inside a record.", "quantifier": "for all sources, parser programs, visitors, platforms, streams of records and positions in them", "why_tests_cant": "the difference shows only after 4 GiB on a 32-bit host (or 2^64 bytes on a 64-bit one); no test reads that much", "anchors": ["src/parsebuf.rs:255-292", "src/parse.rs:347-364", "src/records/sample.rs:202-207"]}
{"id": "C77", "title": "Nothing of a record is lost", "statement": "From a record as it was decoded, its metadata and its size, its bytes can be told again, but for a fixed list of bytes: padding of raw data and text pokes, the unused rest of a user stack (whose length is not kept), the PERF_SAMPLE_IDENTIFIER word where PERF_SAMPLE_ID is there too, the reserved half of a cpu number, the three reserved bytes of a build id, upper halves of counts where pointers have 32 bits, and bytes between the fields of a record and its sample_id or end.  Whatever is put in those places, the same is read.  So two records of the same size which are read alike agree in all other bytes, a record without such places can be written back byte for byte, and a whole recording can be written anew from what was read such that the same is read again.", "quantifier": "all byte strings, sources, configurations, record types, hosts and recordings", "why_tests_cant": "a field dropped or changed for rare values; all contents of the places that are not kept", "anchors": ["src/parse.rs:parse_record", "src/records/mod.rs:SampleId", "src/records/sample.rs:Sample", "src/records/mmap2.rs", "src/records/read.rs:ReadGroup", "src/parse.rs:parse_string"]}
{"id": "C78", "title": "A recording is read record by record", "statement": "Any byte string, well-formed or not, falls in exactly one way into frames (as many bytes as the size in the header says, the header at least) and a rest that is too short for one.  Calling parse_record again and again gives one result per frame, which is a function of the bytes of that frame (and, in memory that is lent, of its alignment), and then the error of the source for ever.  So a byte changed in one record, other than in its size field, changes what is read of no other record; a recording cut between records can be read by several parsers; and records put in another order are read alike in that order.", "quantifier": "all byte strings, sources and ways to cut them, configurations, hosts, and numbers of calls", "why_tests_cant": "every damage at every place of every recording", "anchors": ["src/parse.rs:parse_record", "src/parse.rs:parse_metadata_with_header", "src/parsebuf.rs:ParseBufCursor::new", "src/parsebuf.rs:ParseBuf"]}
{"id": "C79", "title": "Unsafe code keeps to its memory", "statement": "Whatever a ParseBuf does, also one that breaks its contract, the unsafe code of the parser does nothing undefined: parse_to_slice copies only within the chunk it reads and the memory it was given, and returns with all of it written; parse_bytes never sets the length of a vector beyond its capacity or over bytes not written, whatever capacity the allocator grants; references to elements are aligned; and from_utf8_unchecked in the Debug helper is given UTF-8 only.", "quantifier": "all ParseBuf implementations, chunk sizes, lengths, capacities, element types and byte strings", "why_tests_cant": "undefined behaviour does not show in test results; arbitrary ParseBuf implementations cannot be enumerated", "anchors": ["src/parse.rs:236-306", "src/parse.rs:441-468", "src/util/fmt.rs:21", "src/parsebuf.rs:ParseBuf"]}
{"id": "C80", "title": "Only what was asked for, whatever the capacity", "statement": "parse_bytes(len) returns len bytes and takes len bytes from the source, whatever capacity Vec::with_capacity grants (which may be more than what was asked for).", "quantifier": "all sources, lengths and allocators", "why_tests_cant": "the allocator of the test host grants what is asked for", "anchors": ["src/parse.rs:236-250", "src/parse.rs:268-286"]}
{"id": "C81", "title": "No larger than its bytes", "statement": "What is decoded is no larger than the bytes it was read from: the bytes of its fields (each with the width of its type), of its strings and arrays, of its header and of its sample_id are together at most the bytes that were taken from the source, and no more memory was reserved for it than bytes were taken for its body.  The bodies and parts may come from any ParseBuf, also one that breaks its contract.  All records read from a recording are together no larger than the recording: there is no input which makes the parser hold more data than it was given.", "quantifier": "all ParseBuf implementations, byte strings, configurations, record types, hosts and recordings", "why_tests_cant": "a count in the data which yields more elements than there are bytes; every input", "anchors": ["src/parse.rs:parse_bytes", "src/parse.rs:parse_slice", "src/parse.rs:parse_repeated", "src/parse.rs:parse_record", "src/records/sample.rs:Sample", "src/records/read.rs:ReadGroup", "src/util/cow.rs"]}
{"id": "C82", "title": "Following a recording while it is written", "statement": "A client which keeps the bytes that have come and reads a record as soon as the size in its header is there tells its visitor, however the bytes come in pieces, of every record once, in order, and with the result that one parser over the whole recording gives for it; after each piece all complete records have been told and what it keeps is the unfinished one, also behind damaged records.  A client which instead reads until an error of kind Eof and takes that record up again when more has come gets exactly as far as the first complete record which is refused with Eof (a body too short for its type), and no further however much comes.", "quantifier": "all recordings, well-formed or not, ways to cut them into pieces, visitors, configurations, hosts, and sources the client makes for the bytes it keeps (which lend nothing, or all of it aligned like the recording)", "why_tests_cant": "all ways to cut all recordings; a client that stalls is seen only with damaged records", "anchors": ["src/parse.rs:parse_record", "src/parse.rs:parse_metadata_with_header", "src/error.rs:ErrorKind", "src/parsebuf.rs:ParseBuf"]}
{"id": "C83", "title": "Refusing a record costs no more memory than twice the record", "statement": "Whatever comes of a record - it is given to the visitor, refused with any error, or the visitor panics - the memory reserved ahead for its fields (Vec::with_capacity) is at most twice the bytes taken for its body, and nothing if not even its body could be cut out; for data in memory it is at most those bytes once.  A recording of records which are all refused makes the parser reserve at most twice its length.  Once the size is not enough for records copied from a reader: the hint of the cursor over the record does not go down, so a count late in the record has its size reserved again.", "quantifier": "all ParseBuf implementations which meet the contract, byte strings, configurations, record types, visitors, hosts, and outcomes", "why_tests_cant": "every refused input; what was reserved before an error is not visible in it", "anchors": ["src/parse.rs:safe_capacity_bound", "src/parse.rs:parse_bytes", "src/parse.rs:parse_bytes_slow", "src/parse.rs:parse_repeated", "src/parsebuf.rs:ParseBufCursor", "src/parse.rs:parse_record"]}
{"id": "C84", "title": "Reading a ring buffer while the kernel writes it", "statement": "A client which shows a perf ring buffer to the parser as a ParseBuf which lends what is there in at most two pieces, and releases what it has read afterwards, gets every record that found room, once, in order, with the result any other source gives for it, however the kernel's writes fall between and within its calls; records around the end of the ring included.  What was written after it looked at data_head comes the next time.  Borrowed parts of records stay as they were until the client releases them, whatever the kernel writes; after that they may be overwritten.", "quantifier": "all rings, positions, histories of writes, reads and releases, configurations, hosts, and records which are read alike from every source (C03)", "why_tests_cant": "all ways in which a concurrent writer and the parser's calls can be interleaved", "anchors": ["src/parsebuf.rs:ParseBuf", "src/parsebuf.rs:ParseBufChunk", "src/parse.rs:parse_record", "src/parse.rs:parse_bytes", "src/parse.rs:split_at"]}
{"id": "C85", "title": "What the requirements on a ParseBuf are needed for", "statement": "The documentation of ParseBuf asks that a chunk is never empty, that the data stay the same until advance is called, and that remaining_hint is accurate.  For reading records only the first is needed, and not even always: however a source that does not show empty chunks for ever behaves otherwise (other data whenever it is asked, advance ignored, errors that come and go), every call of parse_record returns with an error or the answer of the visitor, within the bound on reserved memory, and its result is that of some at most 65535 bytes from an honest source.  The same holds of parse_metadata and parse_attr.  Empty chunks leave nothing behind in the cursor over a record.  The hint of the source makes no difference to records at all.  A source of empty chunks alone makes parse_record run for ever, and a wrong hint makes parse_bytes panic.", "quantifier": "all ParseBuf implementations (states, chunks, hints), visitors, configurations, hosts, and numbers of calls", "why_tests_cant": "arbitrary misbehaving implementations cannot be enumerated; a call that does not return is not a test result", "anchors": ["src/parsebuf.rs:ParseBuf", "src/parsebuf.rs:ParseBufCursor::new", "src/parse.rs:parse_array", "src/parse.rs:parse_to_slice", "src/parse.rs:parse_bytes", "src/parse.rs:parse_record"]}
{"id": "C86", "title": "Byte orders implemented by users", "statement": "The parser takes any implementation of the Endian trait.  One which converts from a byte order and says truly whether that is the host's is as good as the crate's own type of that order, for every source: the same result, the same bytes taken.  One which leaves the default of is_native (false) reads every record which the crate's own type reads, with the same values and from the same bytes, and at any address of the data; attributes and metadata it reads alike in any case.  Whatever the methods return, also if is_native is wrongly true (for which the documentation announces undefined behaviour), every call ends with an error or the visitor's answer, within the bound on reserved memory: what is wrong then is the order of the numbers in arrays.", "quantifier": "all implementations of Endian, sources, visitors, configurations and hosts", "why_tests_cant": "the trait is open: tests know the crate's own four types", "anchors": ["src/endian.rs:14-32", "src/parse.rs:373-388", "src/parse.rs:441-485", "src/parse.rs:parse_record", "src/impls/perf_event_attr.rs"]}
{"id": "C87", "title": "Programs of clients on other hosts", "statement": "A program written with the public calls of the parser (numbers, arrays, strings, records, sub-parsers, errors of its own) which reads the same data with the same configuration does the same on every host: the same values or the same error, and the same bytes taken.  The byte order of the host makes no difference to a program which asks for no arrays of u64 and no whole records; to any other program it makes none if the sources lend no memory and the data is of the byte order of both hosts or of neither.  Between pointer widths, a program which catches no errors reads on the narrower host what it reads on the wider.", "quantifier": "all programs, hosts, byte strings, configurations and pairs of sources", "why_tests_cant": "programs of clients cannot be enumerated; tests run on one host", "anchors": ["src/parse.rs:Parser", "src/parse.rs:safe_capacity_bound", "src/parse.rs:441-468", "src/endian.rs", "src/lib.rs:1-140"]}
{"id": "C88", "title": "The work of programs of clients goes with the bytes they take", "statement": "A program written with the public calls of the parser, whose repetitions (parse_repeated) are of something that takes bytes, has the source called at most 4 + 18 j times for each byte it takes and 18 k times more, and memory reserved at most 8 j times for each byte and 8 k times more, where k is the number of calls the program makes and j what it makes for each round of a repetition: numbers which the text of the program determines, not the data.  So no count in the data makes such a program do more work than the data is long.  Where something that takes no bytes is repeated, the number of rounds is what the data says.", "quantifier": "all programs, sources and ways to cut them into chunks, byte strings, configurations and hosts, and whatever comes of it (value or error, caught or not)", "why_tests_cant": "a count in the data which makes a client loop without reading; programs of clients cannot be enumerated", "anchors": ["src/parse.rs:parse_repeated", "src/parse.rs:Parser", "src/parse.rs:safe_capacity_bound", "src/parsebuf.rs:ParseBuf"]}
{"id": "C89", "title": "Recordings of several events can be sorted out", "statement": "If every event has PERF_SAMPLE_IDENTIFIER and sample_id_all set, the identifier of the event is in every record at a place that does not depend on the other settings of the event: the word behind the header of a sample, the last word of any other record.  A client that looks there and makes a parser with the configuration of that event for the record is told records of any number of events, in any order and in any pieces, as they were written; whatever the bytes, it reads each of them as a parser with that configuration alone would.  The identifier the crate gives with a record is that word, and parse_metadata gives it with the configuration of any of the events.", "quantifier": "all numbers of events, their settings, identifiers, records and byte strings, all sources which lend all or nothing, all pieces, platforms and visitors", "why_tests_cant": "recordings of several events with different settings are not in the tests; the place of the identifier depends on the combination of settings of all events", "anchors": ["src/records/mod.rs:150-185", "src/records/sample.rs:parse", "src/parse.rs:156-162", "src/parse.rs:parse_metadata", "src/parse.rs:parse_record", "src/config.rs:ParseConfig"]}
{"id": "C90", "title": "What newer kernels append to records is passed over", "statement": "If bytes are appended to a record behind the fields the crate knows (in a SAMPLE and an MMAP at the end, in others before the sample_id) and its size says so, the record is read as it was without them, with the same metadata, and the next record is read from behind them: the bytes change nothing but the name a record ends in, which goes on with them up to the zeros at its end, and the bytes of a record of unknown type.  A name stays as it is just when the bytes are zeros.  The configurations may differ in all that does not matter for the record, as in flags of sample_type the crate knows nothing of.  So a recording of a newer kernel reads record by record as the older one.", "quantifier": "all records the crate reads, appended bytes, settings, byte strings behind the record, sources which can be read alike (C03), platforms and visitors; all lists of records", "why_tests_cant": "tests have records of one kernel; appending is possible to each of twenty types with each combination of settings and by any number of bytes", "anchors": ["src/parse.rs:parse_record", "src/parse.rs:parse_metadata_with_header", "src/records/mod.rs:150-185", "src/records/comm.rs:parse", "src/records/mmap2.rs:parse", "src/records/lost.rs:parse", "src/records/sample.rs:parse"]}
{"id": "C91", "title": "The text of an error and that of its cause", "statement": "ParseError keeps the rule of std::error::Error::source: it hands out its cause, or has the text of the cause in its own, but not both; so a report which prints an error and its causes one behind the other says everything once.", "quantifier": "all errors, texts of causes, parsers, sources, byte strings, configurations and platforms", "why_tests_cant": "tests look at the kind of an error, not at its text beside that of its cause", "anchors": ["src/error.rs:106-136", "src/error.rs:138-145", "src/error.rs:181-201"]}
