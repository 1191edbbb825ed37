# perf-event-data: machine-checked model and proofs (Rocq/Coq 8.16.1)

The code under study is `/repo` (crate `perf-event-data`), read as text.
`properties.jsonl` lists the properties C01, C02, ...; this file says how each
is modelled and proved; `MANIFEST.json` maps each to theorem names.

## 1. Approach

1. **Executable model.**  Gallina functions, one per Rust function, each citing
   file and lines.  Rust outcomes become an explicit type

       out A := Ok a | Err e | Panic | Fuel

   where `Panic` is a Rust panic (failed assert, slice out of range, capacity
   overflow) and `Fuel` is "the loop did not finish within 2^64 iterations".
   A parser method is a state transformer `parser S -> out A * parser S`, with
   `S` the state of an arbitrary `ParseBuf` given as a record of functions
   (`chunk`, `advance`, `remaining_hint`).  The parser state carries the
   configuration, the buffer, the offset counter of `TrackingParseBuf` and a
   ghost log of all up-front heap reservations.
2. **Buffer contract** (`Contract.v`).  What the `ParseBuf` documentation
   demands, as a predicate over a relation `rep s l a`: state `s` will deliver
   the bytes `l`, the first at position `a`, and then the error `fin`.  A mode
   says what kind of chunks the buffer lends: `NoExt` (only temporary ones, as
   BufReader), `Whole` (one external chunk, as `&[u8]`), `Coh` (any mixture with
   addresses that agree with positions modulo 8, as a ring buffer) and `AnyExt`
   (any mixture).  Proved in `Instances.v` for `&[u8]`, `BufReader` with any read
   schedule and terminal I/O error, `ParseBufCursor`, and lists of chunks.
3. **Flat specification** (`Flat.v`).  Deterministic parsers over a plain byte
   list; no chunks, no Cow, no cursor.  The model is proved to *refine* it for
   every buffer satisfying the contract, which gives chunking independence,
   framing, etc.  Two crate bugs make the model deviate from any flat reading:
   misaligned native slices and owned TEXT_POKE splits.  The flat parsers emit
   an event (`ESlice`, `EPoke`) where they may strike; the refinement holds for
   runs whose events are harmless in the mode at hand (`ev_ok`), and separate
   theorems settle the other runs.
4. **Safety judgement** (`Safe.v`), compositional and unconditional: no panic,
   no fuel exhaustion, consumption is a prefix, reservations bounded, error
   kinds accounted for.
5. **Encoders** (`Wire.v`, `WireAttr.v`), written from `linux/perf_event.h` (not
   from the crate's parsers), and round-trip proofs.
6. **Property files** (`Props*.v`): statements in the words of `Spec.v`
   (`source`, `moved`, `after`) and of the encoders, an `Example` showing that
   the hypotheses are satisfiable, `Print Assumptions`.

Where the crate does not satisfy a property the full statement is denied by a
theorem `..._refuted` (with a computed witness, or for all inputs of a class),
next to the strongest true version found, `..._partial`.

### Files

| files | contents |
|-------|----------|
| Base, Types, Platform, Bitfield, Config, Buf, Parser, Records, Sample, Record, Attr, Read, Access, Names, OptStruct, Owned, Fmt, Show, Fuzz, Client | the model |
| Text | formatting of the standard library, on which Show rests |
| Contract, Spec, Matter | what a source of bytes is; what of a configuration a record is read by |
| Flat, Wire, WireAttr, WireBits, Header | flat parsers; encoders; bit fields as C lays them out; constants of the kernel header |
| BaseFacts, Bits | lists and bit arithmetic |
| Refine, Instances, Prims, Slices, Views, RefRecords, RefFrame, RefTop, NoHint | the model refines the flat parsers |
| Safe, Errs, Keep | safety judgement; error kinds; configuration kept |
| Codec, Roundtrip, RtSample, RtRecord, RoundFacts, Fixed, RecFacts, AttrFacts | flat parsers invert the encoders |
| RtFail, PokeFacts, ExactFacts | what is not read back, and why: failing flat runs, and what a successful run says of the settings |
| FrameFacts, SameFacts, Copied, Placed, SliceExact, SliceRecord, CallFacts, ClientFacts, ClientSafe | framing; pairs of sources; exact addresses in slices; histories of calls; programs of clients |
| Twin | two runs on the same bytes under two configurations |
| Hosts, HostsAlike | the flat parsers on two hosts side by side; those of Copied and Placed likewise |
| Counter (model), CounterFacts | the byte count as a `usize`: the checked count panics exactly when the true one leaves `usize` (`counts`), the wrapped one pads alike |
| Picture (spec), PictureFacts | the layout a record must have had, drawn from the decoded record, its metadata and size; any bytes of that layout are the same record |
| Framing (spec), FramingFacts | frames by the sizes in the headers; one call takes one frame and gives what is in it, for any parser of bodies (`by_record`) |
| Raw, RawFacts | the unsafe blocks of src/parse.rs with memory cells: copies, `set_len`, `align_to`; undefined behaviour is a value |
| Size, SizeFacts, SizeTop | the size of decoded data, and that it is at most the bytes taken (any `parsebuf`) |
| SpendFacts, SpendTop | what is reserved whatever the outcome, by an invariant over offset, hint and log |
| Follow, FollowFacts | clients which read a recording as it grows (not in the crate) |
| Ring (model and spec), RingFacts | a ring buffer the kernel writes while it is read (not in the crate): positions less than a round apart are apart, so what is not released stays; a session is one with a bounded queue |
| Rogue (model and spec), RogueFacts | sources which keep no rule but that chunks are not empty for ever: the methods `parse_record`, `parse_metadata` and `parse_attr` use on their source, simulated by the chunks they took |
| Endian (model), EndianFacts, EndianSafe | the parsers with any implementation of `Endian`: a copy of the model with its four methods in place of the byte orders of the crate, related to the model on a host of either order; the proofs of Safe.v again |
| ClientHosts | programs of clients on two hosts side by side: `near` by induction on the program; programs which take bytes or fail, so that counts cut to 32 bits do not matter |
| ClientWork | the calls and reservations of programs of clients, counted along their text |
| Mixed (model and spec), MixedFacts | a recording of several events, each with its own configuration (not in the crate): the identifier is at the same place in records of all of them |
| Newer (spec), NewerFacts | what a newer kernel appends to records; which byte strings are records with something appended |
| Falter (model and spec), FalterFacts | sources which fail and go on: up to the first failure they are like a source stuck there (`follows`) |
| Work, WorkTop | how many calls a source gets and how many reservations are made: a judgement with a rate per byte, for every parser |
| Accept (spec), AcceptFacts, AcceptParts, AcceptSample, AcceptRecord, AcceptAttr | which byte strings are records: soundness (`Snd`) and completeness (`Runs`) of the flat parsers |
| Faults (spec), FaultFacts | which error refused data gets: lengths and faults of the parts of a record; the flat parsers end or fail as these say (`Lex`) |
| ReadFacts, AccessFacts, FmtFacts, ConfFacts | accessors, iterators, option structs, byte strings, configuration |
| TextFacts, ShowFacts | texts can be split into their fields in one way only; Debug impls |
| Layout | specification of both Debug layouts on trees; what the formatters of Text.v make of them |
| ExData | data for examples |
| Props* | the theorems named in MANIFEST.json |
| Tests | the unit and regression tests of the crate, replayed on the model |

## 2. What is modelled

| source | modelled in | not modelled |
|--------|-------------|--------------|
| src/parsebuf.rs | Types (chunks), Buf, Parser (`ParseBufCursor::new`, `TrackingParseBuf`) | |
| src/parse.rs | Parser, Records, Record, Client (programs using it) | `impl Parse` for tuples of types outside the crate |
| src/config.rs, src/flags.rs | Config, Attr (`From<perf_event_attr>`), Names (named flags), Show (Debug of `ParseConfig`) | Debug of flags |
| src/endian.rs | Platform, Endian | |
| src/error.rs | Types, Show (Display, Debug) | `source()`, backtraces |
| src/records/*.rs | Records, Sample, Read, Access, Names (named flags and codes), Owned, Show (Debug) | derived Clone/Eq/Hash |
| src/visitor.rs, src/records/mod.rs | Record | |
| src/macros.rs | OptStruct (`option_struct!`), Show (`debug_if!`) | `c_enum!` and the documentation macros |
| src/impls/perf_event_attr.rs | Attr | |
| src/util/cow.rs, src/util/fmt.rs | Types, Fmt | |
| fuzz/fuzz_targets/*.rs, `Arbitrary` impls | Fuzz | libfuzzer |

Modelling decisions and simplifications:

* Bytes and machine integers are `N`; widths are handled where the code can
  wrap or overflow (`as usize`, `checked_mul`, `checked_sub`, shifts).
  Addition in `TrackingParseBuf::advance` is not wrapped in `p_off`; Counter.v
  has the two ways in which a `usize` differs from it (C76).  `ParseBufCursor`'s
  offset is within one chunk in memory and cannot overflow.
* The platform is a parameter: host byte order, 32 or 64 bit usize, alignment of
  u64 and of the transmuted structs (4 on i686, else 8).
* `Cow` is `Borrowed address contents | Owned contents`; an external chunk
  carries its address, so borrowing and alignment are observable.
* A loop runs for at most 2^64 iterations (binary fuel) and reports `Fuel`
  after that; absence of `Fuel` is part of the safety theorems.
* `Vec::with_capacity` is the only allocation logged; growth by `push` and
  `extend_from_slice` is bounded by data actually read.  It panics above
  isize::MAX as in Rust.  It is assumed to give exactly the requested capacity
  (`parse_bytes` fills all of `spare_capacity_mut`; C80 is about what happens
  if it gives more).
* A `ParseBuf` that has reported its end (or an error) keeps doing so, but for
  C75 and C85, which are about those that do not (Falter.v, Rogue.v).
* Visitors are pure functions that may panic.
* Newtypes and bitflags are their bits; bitflags operations are modelled on
  bits (all 64 bits of ConfigFlags are named, so `!` loses nothing).
* Bit fields of the bindgen structs (`perf_event_attr`, branch entries, data
  source) are read by bindgen's own bit loops (Bitfield.v), which depend on the
  byte order of the host.  For data sources linux/perf_event.h declares the
  fields in reverse order on big-endian hosts; the bindings are assumed to be
  generated from that part of the header there.
* Memory safety of `unsafe` blocks is modelled through lengths, alignment and
  initialised-ness (Raw.v, OptStruct.v), not through pointers and aliasing.

## 3. Trusted base

* The Coq 8.16.1 kernel (with `vm_compute`), and the Coq standard library.
  No axioms: every `Print Assumptions` says "Closed under the global context".
  `coqchk -o` lists seven constants of `Coq.ssr.ssrunder.Under_rel`; they are
  sealed by a module type in the standard library, which `Coq.Setoids.Setoid`
  requires by way of `ssrsetoid`, and no theorem here depends on them.
* The reading of the Rust code embodied in the model files; nothing is
  extracted or executed against the crate.  `Tests.v` replays the crate's own
  tests.  All assertions hold of the model but the last one of
  `parse_sample_with_cgroup` (src/records/sample.rs:808), whose configuration
  lacks the `ID` flag that its data were recorded with.
* The reading of `linux/perf_event.h` embodied in `Wire.v` and `WireAttr.v`.
* Rust semantics assumed: slice/`Vec`/`Cow`/`BufReader`/`ChunksExact`/`align_to`
  and `str::from_utf8` behave as documented; `char::escape_debug` is a parameter.
  `BufReader::fill_buf` does not retry after `Interrupted` and keeps nothing of a
  failed `read` (Falter.v).
* `Fuzz.v` as a description of the crate `arbitrary` (integers and derived impls).
* `Text.v` as a description of `core::fmt` (`debug_struct`, `debug_tuple`,
  `debug_list`, `PadAdapter`, integers).  Debug impls from other crates
  (bitflags, c-enum, bindgen) are parameters that are assumed not to panic.

Seeded faults and what they taught: `seeded/LOG.jsonl`.

## 4. Properties

Kept in step with MANIFEST.json, whose notes say what is missing where a
property is partial.

| id | modelled by | proof idea |
|----|-------------|-----------|
| C01 | parse_record over any contract buffer | refinement: split_at takes a fixed prefix before the body is looked at |
| C02 | iteration of parse::<Record> | induction on the record list with round trips |
| C03 | two buffers, same bytes | both refine the same flat parser (Copied.v: its variant for sources that never lend; Placed.v: its variant for memory at any address) |
| C04 | every parser | safety judgement |
| C05 | parse_u16/32/64 | refinement + arithmetic of base-256 digits |
| C06 | is_native, element reinterpretation | case analysis + arithmetic |
| C07 | parse_bytes | refinement; false for len 0 at the end (refuted) |
| C08 | parse_rest(_trim_nul) | refinement + list induction; empty rest refuted |
| C09 | slice instance | address-tracking lemma for the slice buffer |
| C10 | parse_slice | refinement when aligned; misaligned refuted |
| C11 | SampleId | flat parser vs mask-indexed encoder |
| C12 | parse_metadata | refinement |
| C13 | parse_metadata | refinement |
| C14 | ConfigFlags | bit-level (N.testbit) |
| C15 | set_read_format + parsers | bit-level |
| C16 | ReadValue/ReadGroup | round trip |
| C17 | ReadGroup | list lemmas on chunks |
| C18 | conversions | case analysis + list lemmas |
| C19 | GroupIter | simulation by a list of entries |
| C20 | Sample | round trip over all masks; WEIGHT_STRUCT etc. refuted |
| C21 | records | round trip |
| C22 | parse_padded | refinement + arithmetic mod 8 |
| C23 | Sample stack | flat semantics |
| C24 | dispatch, Visitor | case analysis; unknown records without a body refuted (PropsEdges.v) |
| C25 | RecordVisitor | case analysis + safety |
| C26 | dispatch of type 14 | refuted |
| C27 | SwitchCpuWide, Mmap2 | flat semantics, with_misc facts |
| C28 | MmapDetail | flat semantics |
| C29 | into_mmap | computation |
| C30 | perf_event_attr | round trip with 4 spare bytes; exact size refuted |
| C31 | perf_event_attr | flat semantics |
| C32 | ghost reservation log | safety judgement |
| C33 | option_struct memory model | invariant on init flags |
| C34 | CowSliceExt | refuted at the two ends, proved elsewhere |
| C35 | TextPoke | proved for contiguous sources, refuted for owned; outcome for every source |
| C36 | Namespaces | computation; uts refuted |
| C37 | remaining_hint | invariant over histories of calls; slice proved, cursor refuted |
| C38 | ParseBufCursor | contract instance; invariant over histories of calls |
| C39 | Parser::parse | refuted |
| C40 | BufReader | contract instance |
| C41 | error kinds | safety judgement |
| C42 | parse_record on extended input | flat parser is prefix-stable; memory in one piece via C78 (PropsEdges.v) |
| C43 | into_owned | map over Cow |
| C44, C45 | bit fields | N.testbit / shifts |
| C46 | HexStr | refuted |
| C47 | as usize | proved for 64 bit, refuted for 32 bit |
| C48 | from_sample | computation |
| C49 | fixed records | inverse round trip |
| C50 | ByteStr | induction on length; UTF-8 encoding as specification |
| C51 | ReadValue, ReadGroup Debug | exact text; texts are bracket-balanced, so fields can be read back |
| C52 | SampleId, Sample Debug | as C51; Debug of flag types as parameter |
| C53 | ParseError Display | refuted; exact text |
| C54 | HexAddr | digits of a number |
| C55 | Debug of Record | safety judgement (build id lengths) + totality of the formatters |
| C56 | Debug of Record | computation on views; C03 (PropsShow.v), between sources of one kind C03_copied and C03_whole (PropsShowAlike.v) |
| C57 | ParseConfig Debug | as C52 |
| C58 | Debug of every record | exact one-line text against a small specification (braces, commas) |
| C59 | bindgen bit fields | arithmetic of packed fields; refuted for recordings of the other byte order |
| C60 | parse_record_with_header | refinement of the part of C01/C03 after the header; as a program of C70 for sources of one kind (PropsHeadAlike.v) |
| C61 | whole sessions: attr, then records given to a visitor | composition of C30/C59 with C02/C12/C24 |
| C62 | no parser changes its configuration; sub-parsers inherit it | structural judgement `kept` on all programs, any buffer |
| C63 | exactly which samples, records and streams are read back | round trips one way; failing flat runs and inversion the other; refuted for memory at unaligned addresses (C63_memory_refuted) |
| C64 | Debug of every type, one line and several | trees laid out by a separate specification (Layout.v); compositional lemmas |
| C65 | which byte strings are records, samples and attrs, and as what | layouts with holes (Accept.v); every flat parser sound and complete for its layout (AcceptFacts … AcceptAttr); for sources that never lend, nothing left aside (PropsReader.v); refuted for memory at unaligned addresses (C65_memory_refuted) |
| C66 | names of flags and codes; data_src words | tables compared with the header's (Header.v); bits of fields and unions |
| C67 | which error refused data gets | a second, value-free description of the format (Faults.v): every flat parser takes what it says or fails with the error it says (FaultFacts.v), and it agrees with the layouts of C65; refuted for memory at unaligned addresses (C67_memory_refuted) |
| C68 | what an Eof error tells | corollary of C67; refuted for complete records with a short body |
| C69 | the fuzz targets | model of both targets and of `Arbitrary` for ParseConfig (Fuzz.v); corollary of C04, and an encoder for configurations |
| C70 | programs of clients | a type of programs over the public calls (Client.v), run on any buffer; every program refines its flat parser by induction on the program, with the parsers for arrays and bodies as parameters (those of Flat, Copied or Placed, as the sources allow); that it ends needs no such condition (ClientSafe.v) |
| C71 | records read by hand | such a program; its flat parser is that of the record, where misc is not looked at |
| C72 | work goes with the bytes taken | a judgement `W rate b e k` over parsers (Work.v), composed by bind, if and the loops; the source is wrapped in a counter |
| C73 | what of the configuration matters | relational judgement `twin` over two runs whose configurations are related; parsers, then framing, with no contract |
| C74 | the same recording on another host | relational judgement `near` over the flat parsers of two platforms, and over those for copied memory and for memory of a given alignment (`_alike`); layouts carried over by it |
| C75 | sources which fail and then go on | simulation by a source that repeats the first failure, with a flag that says whether it was seen |
| C76 | the byte count is a `usize` | simulation: same run, or panic as soon as the unbounded count is too large |
| C77 | nothing of a record is lost but a fixed list of bytes | the layouts of C65 turned round: `picture` as a function of the decoded value, exact in both directions (PictureFacts.v), so records read alike agree wherever it says something; refuted for sources that copy, in TEXT_POKE records with nothing new (C77_reader_refuted) |
| C78 | a recording is read record by record | a map over the frames: existence of one function from frames to results, before all sources and recordings; damage, cuts and reordering follow; refuted for memory lent in several pieces (C78_pieces_refuted) |
| C79 | unsafe code keeps to its memory | a copy-level model with undefined behaviour as `None`, for every `parsebuf` without contract; simulation by the methods of Parser.v |
| C80 | only what was asked for, whatever the capacity | `grant` is any function above the identity; refuted for every source that copies and knows its length |
| C81 | no larger than its bytes | sizes from field widths (Size.v); a judgement on offset and ghost log for every `parsebuf`, contracts only to bound the sub-parser of a record |
| C82 | following a recording while it is written | two clients as programs, told the bytes in pieces; compared with one parser over the whole, by the frames of C78 |
| C83 | refusing a record costs at most twice its memory | invariant: offset + hint stay below a bound, so a failing parser has reserved at most the rest; the bound for slices and for the stale hint of the cursor |
| C84 | reading a ring buffer while the kernel writes it | contract of the ring with the history of writes in `rep`; session against a queue by induction over what happens; borrowed data in memory for every later write |
| C85 | what the requirements on a ParseBuf are needed for | simulation (`Sim`): the chunks a run took, put in a list, give the same run; safety carried over from C04 and C32; the loop on empty chunks never leaves |
| C86 | byte orders implemented by users | relation of runs (`Rel`): an implementation which leaves the default of `is_native` is the crate's type on the host of the other order; then C03 and C74; safety as in Safe.v for all methods |
| C87 | programs of clients on other hosts | `near` (C74) by induction on the program, over flat parsers for calm programs and over those for copied memory otherwise; the configuration substituted where a program looks at it |
| C88 | the work of programs of clients | judgement `Costs` by induction on the program; leaves from C72, the rounds of repetitions paid for by the bytes they take |
| C89 | recordings of several events, each record read with the configuration of its event | a client program on top of `follow` (C82); one reading function for all configurations; layouts of C65 for where the identifier is |
| C90 | records to which newer kernels append fields | layouts of C65 leave room behind the last field; C65 in both directions, C73 for the configurations, C01 for the next record (Newer.v, NewerFacts.v, PropsNewer.v); between sources of one kind, parsers of the bytes which do not look at the end (PropsNewerAlike.v) |
| C91 | the text of an error and of its cause | refuted; the errors that keep the rule named exactly, for all parsers by C41 (PropsCause.v) |
