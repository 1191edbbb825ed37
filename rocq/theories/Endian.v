(** Parsing with an implementation of [Endian] of the user.

    The other model files know the byte orders of the crate.  Here the parsers are given again with the methods
    of any implementation in their place; they differ from those of Parser.v, Records.v, Sample.v, Record.v and
    Attr.v in [parse_u16], [parse_u32], [parse_u64] and [parse_slice_direct] alone.  [c_endian] is not looked at. *)
From Coq Require Import NArith List Bool.
From Verif Require Import Base Types Platform Config Buf Parser Records Sample Record Attr.
Import ListNotations.
Open Scope N_scope.

(** An implementation of [Endian], src/endian.rs:14-32: its four methods, as compiled for a host. *)
Record byteorder : Type := mkOrder {
  bo_16 : platform -> list N -> N;
  bo_32 : platform -> list N -> N;
  bo_64 : platform -> list N -> N;
  bo_native : platform -> bool;
}.

(** The implementations of the crate, src/endian.rs:40-156. *)
Definition builtin (e : endian) : byteorder :=
  mkOrder (fun pl => convert pl e) (fun pl => convert pl e) (fun pl => convert pl e) (fun pl => is_native pl e).

(** One which says how to convert and leaves the default of [is_native], src/endian.rs:29-31. *)
Definition plain (o : order) : byteorder :=
  mkOrder (fun _ => from_order o) (fun _ => from_order o) (fun _ => from_order o) (fun _ => false).

Section Words.
Context (E : byteorder) (pl : platform) {S : Type} (PB : parsebuf S).

(** [parse_u16], [parse_u32], [parse_u64], src/parse.rs:373-388. *)
Definition parse_u16_by : M S N := a <- parse_array PB 2 ;; ret (bo_16 E pl a).
Definition parse_u32_by : M S N := a <- parse_array PB 4 ;; ret (bo_32 E pl a).
Definition parse_u64_by : M S N := a <- parse_array PB 8 ;; ret (bo_64 E pl a).

Context {A : Type} (L : elem A).

(** [parse_slice_direct], src/parse.rs:441-468. *)
Definition parse_slice_direct_by (n : N) : M S (option (N * list A)) :=
  if negb (bo_native E pl) then ret None
  else match checked_mul pl n (el_size L) with
       | None => fail (custom_error KInvalidRecord MsgSliceTooLong)
       | Some byte_len =>
           r <- parse_bytes_direct PB byte_len ;;
           match r with
           | None => ret None
           | Some (a, d) =>
               if (a mod word_align pl =? 0) || (len d =? 0)
               then ret (Some (a, map (el_native L) (chunks (el_size L) d)))
               else ret None
           end
       end.

(** [parse_slice], src/parse.rs:477-485. *)
Definition parse_slice_by (n : N) : M S (cow A) :=
  r <- parse_slice_direct_by n ;;
  match r with
  | Some (a, l) => ret (Borrowed a l)
  | None => l <- parse_repeated pl PB L n ;; ret (Owned l)
  end.

End Words.

(** [u64] as an element type. *)
Definition elem_u64_by (E : byteorder) (pl : platform) : elem N :=
  mkElem 8 (fun S PB => parse_u64_by E pl PB) (from_ne pl).

Section Parsers.
Context (E : byteorder) (pl : platform) {S : Type} (PB : parsebuf S).

(** Local shorthands for [p.parse()?] at each integer type. *)
Let u8 := parse_u8 PB.
Let u16 := parse_u16_by E pl PB.
Let u32 := parse_u32_by E pl PB.
Let u64 := parse_u64_by E pl PB.

(** src/parse.rs:667-679. *)
Definition parse_header_by : M S header :=
  type <- u32 ;; misc <- u16 ;; size <- u16 ;;
  ret (mkHeader type misc size).

(** src/records/lost.rs:16-27. *)
Definition parse_lost_by : M S lost :=
  id <- u64 ;; lost <- u64 ;; ret (mkLost id lost).

(** src/records/lost_samples.rs:16-24. *)
Definition parse_lost_samples_by : M S lost_samples :=
  lost <- u64 ;; ret (mkLostSamples lost).

(** src/records/exit.rs:19-33. *)
Definition parse_exit_by : M S exit :=
  pid <- u32 ;; ppid <- u32 ;; tid <- u32 ;; ptid <- u32 ;; time <- u64 ;;
  ret (mkExit pid ppid tid ptid time).

(** src/records/throttle.rs:22-34. *)
Definition parse_throttle_by : M S throttle :=
  time <- u64 ;; id <- u64 ;; stream_id <- u64 ;;
  ret (mkThrottle time id stream_id).

(** src/records/aux_record.rs:73-95. *)
Definition parse_aux_by : M S aux :=
  off <- u64 ;; size <- u64 ;; flags <- u64 ;; ret (mkAux off size flags).

(** src/records/itrace_start.rs:19-30. *)
Definition parse_itrace_start_by : M S itrace_start :=
  pid <- u32 ;; tid <- u32 ;; ret (mkItraceStart pid tid).

(** src/records/switch_cpu_wide.rs:56-71. *)
Definition parse_switch_cpu_wide_by : M S switch_cpu_wide :=
  pid <- u32 ;; tid <- u32 ;; c <- get_cfg ;;
  if negb (N.land (misc c) MISC_SWITCH_OUT =? 0)
  then ret (SwOut pid tid) else ret (SwIn pid tid).

(** src/records/bpf_event.rs:41-64. *)
Definition parse_bpf_event_by : M S bpf_event :=
  ty <- u16 ;; flags <- u16 ;; id <- u32 ;; tag <- parse_array PB 8 ;;
  ret (mkBpf ty flags id tag).

(** src/records/aux_output_hw_id.rs:21-29. *)
Definition parse_aux_output_hw_id_by : M S aux_output_hw_id :=
  h <- u64 ;; ret (mkHwId h).

(** src/records/mmap.rs:76-91. *)
Definition parse_mmap_by : M S (mmap cow) :=
  pid <- u32 ;; tid <- u32 ;; addr <- u64 ;; l <- u64 ;; pgoff <- u64 ;;
  filename <- parse_rest_trim_nul PB ;;
  ret (mkMmap pid tid addr l pgoff filename).

(** src/records/mmap2.rs:185-214. *)
Definition parse_mmap_detail_by : M S mmap_detail :=
  c <- get_cfg ;;
  if negb (N.land (misc c) MISC_MMAP_BUILD_ID =? 0) then
    l <- u8 ;; u8 ;;; u16 ;;; build_id <- parse_array PB 20 ;;
    if 20 <? l then fail (custom_error KInvalidRecord (MsgBuildIdLen l))
    else ret (MdBuildId build_id l)
  else
    maj <- u32 ;; min <- u32 ;; ino <- u64 ;; gen <- u64 ;;
    ret (MdDefault maj min ino gen).

(** src/records/mmap2.rs:165-183. *)
Definition parse_mmap2_by : M S (mmap2 cow) :=
  pid <- u32 ;; tid <- u32 ;; addr <- u64 ;; l <- u64 ;; pgoff <- u64 ;;
  detail <- parse_mmap_detail_by ;;
  prot <- u32 ;; flags <- u32 ;;
  filename <- parse_rest_trim_nul PB ;;
  ret (mkMmap2 pid tid addr l pgoff detail prot flags filename).

(** src/records/comm.rs:57-69. *)
Definition parse_comm_by : M S (comm cow) :=
  pid <- u32 ;; tid <- u32 ;; c <- parse_rest_trim_nul PB ;;
  ret (mkComm pid tid c).

(** src/records/ksymbol.rs:83-117. *)
Definition parse_ksymbol_by : M S (ksymbol cow) :=
  addr <- u64 ;; l <- u32 ;; ty <- u16 ;; flags <- u16 ;;
  name <- parse_rest_trim_nul PB ;;
  ret (mkKsymbol addr l ty flags name).

(** src/records/cgroup.rs:41-52. *)
Definition parse_cgroup_by : M S (cgroup cow) :=
  id <- u64 ;; path <- parse_rest_trim_nul PB ;; ret (mkCgroup id path).

(** src/records/text_poke.rs:35-63. *)
Definition parse_text_poke_by : M S (text_poke cow) :=
  addr <- u64 ;; old_len <- u16 ;; new_len <- u16 ;;
  let full_len := round_up_mod (old_len + new_len) 4 8 in
  bytes <- parse_bytes pl PB full_len ;;
  halves <- lift (cow_split_at 1 bytes old_len) ;;
  new <- lift (cow_truncate (snd halves) new_len) ;;
  ret (mkTextPoke addr (fst halves) new).

(** [NamespaceEntry], src/records/namespaces.rs:74-85. *)
Definition parse_ns_entry_by : M S ns_entry :=
  dev <- u64 ;; inode <- u64 ;; ret (mkNs dev inode).

(** [SampleId], src/records/mod.rs:149-181. *)
Definition parse_sample_id_by : M S sample_id :=
  c <- get_cfg ;;
  let sty := sample_type c in
  if negb (sample_id_all c) then ret sample_id_default
  else
    pid <- parse_if (contains sty SF_TID) u32 ;;
    tid <- parse_if (contains sty SF_TID) u32 ;;
    time <- parse_if (contains sty SF_TIME) u64 ;;
    id <- parse_if (contains sty SF_ID) u64 ;;
    stream_id <- parse_if (contains sty SF_STREAM_ID) u64 ;;
    cpu <- parse_if (contains sty SF_CPU) (a <- u32 ;; u32 ;;; ret a) ;;
    identifier <- parse_if (contains sty SF_IDENTIFIER) u64 ;;
    ret (mkSampleId pid tid time (opt_or id identifier) stream_id cpu).

(** [ReadValue], src/records/read.rs:358-397. *)
Definition parse_read_value_by : M S read_value :=
  c <- get_cfg ;;
  let rf := read_format c in
  if contains rf RF_GROUP then fail (custom_error KUnsupportedConfig MsgSingleReadGroup)
  else if negb (difference rf RF_ALL =? 0)
  then fail (custom_error KUnsupportedConfig MsgReadFormatFlags)
  else
    value <- u64 ;;
    enabled <- parse_if (contains rf RF_TIME_ENABLED) u64 ;;
    running <- parse_if (contains rf RF_TIME_RUNNING) u64 ;;
    id <- parse_if (contains rf RF_ID) u64 ;;
    lost <- parse_if (contains rf RF_LOST) u64 ;;
    ret (mkReadValue rf value (unwrap_or enabled 0) (unwrap_or running 0)
           (unwrap_or id 0) (unwrap_or lost 0)).

(** [ReadGroup], src/records/read.rs:399-447. *)
Definition parse_read_group_by : M S (read_group cow) :=
  c <- get_cfg ;;
  let rf := read_format c in
  if negb (contains rf RF_GROUP) then fail (custom_error KUnsupportedConfig MsgGroupReadSingle)
  else if negb (difference rf RF_ALL =? 0)
  then fail (custom_error KUnsupportedConfig MsgReadFormatFlags)
  else
    nr <- u64 ;;
    let nr := as_usize pl nr in
    enabled <- parse_if (contains rf RF_TIME_ENABLED) u64 ;;
    running <- parse_if (contains rf RF_TIME_RUNNING) u64 ;;
    match checked_mul pl nr (element_len rf) with
    | None => fail (custom_error KInvalidRecord MsgGroupTooLarge)
    | Some data_len =>
        data <- parse_slice_by E pl PB (elem_u64_by E pl) data_len ;;
        ret (mkReadGroup rf (unwrap_or enabled 0) (unwrap_or running 0) data)
    end.

(** [Read], src/records/read.rs:449-461. *)
Definition parse_read_by : M S read :=
  pid <- u32 ;; tid <- u32 ;; values <- parse_read_value_by ;;
  ret (mkRead pid tid values).

End Parsers.

(** [NamespaceEntry] as an element of [parse_slice]: [repr(C)], dev then inode. *)
Definition elem_ns_by (E : byteorder) (pl : platform) : elem ns_entry :=
  mkElem 16 (fun S PB => parse_ns_entry_by E pl PB)
    (fun l => mkNs (from_ne pl (take 8 l)) (from_ne pl (drop 8 l))).

(** src/records/namespaces.rs:87-104. *)
Definition parse_namespaces_by (E : byteorder) (pl : platform) {S : Type} (PB : parsebuf S)
  : M S (namespaces cow) :=
  pid <- parse_u32_by E pl PB ;; tid <- parse_u32_by E pl PB ;; n <- parse_u64_by E pl PB ;;
  l <- parse_slice_by E pl PB (elem_ns_by E pl) (as_usize pl n) ;;
  ret (mkNamespaces pid tid l).

Section Parsers.
Context (E : byteorder) (pl : platform) {S : Type} (PB : parsebuf S).

Let u32 := parse_u32_by E pl PB.
Let u64 := parse_u64_by E pl PB.

(** [BranchEntry], src/records/sample.rs:456-469. *)
Definition parse_branch_entry_by : M S branch_entry :=
  from <- u64 ;; to <- u64 ;; flags <- u64 ;; ret (mkBranch from to flags).
End Parsers.

(** [BranchEntry] as an element of [parse_slice]. *)
Definition elem_branch_by (E : byteorder) (pl : platform) : elem branch_entry :=
  mkElem 24 (fun S PB => parse_branch_entry_by E pl PB)
    (fun l => mkBranch (from_ne pl (take 8 l)) (from_ne pl (take 8 (drop 8 l)))
                       (from_ne pl (drop 16 l))).

Section Parsers2.
Context (E : byteorder) (pl : platform) {S : Type} (PB : parsebuf S).

Let u32 := parse_u32_by E pl PB.
Let u64 := parse_u64_by E pl PB.

(** [Registers::parse], src/records/sample.rs:353-363; [Parse for SampleRegsAbi],
    src/records/sample.rs:328-331, 366-374, is [u64]. *)
Definition parse_registers_by (mask : N) : M S (registers cow) :=
  abi <- u64 ;;
  regs <- parse_slice_by E pl PB (elem_u64_by E pl) (popcount mask) ;;
  ret (mkRegs abi mask regs).

(** [Registers::parse_user] and [parse_intr], src/records/sample.rs:335-351.
    [parse_sample] has them written out: the configuration is the one it read. *)
Definition parse_regs_user_by : M S (registers cow) :=
  c <- get_cfg ;; parse_registers_by (c_regs_user c).
Definition parse_regs_intr_by : M S (registers cow) :=
  c <- get_cfg ;; parse_registers_by (c_regs_intr c).

(** The READ field, src/records/sample.rs:191-197. *)
Definition parse_sample_read_by : M S (read_group cow) :=
  c <- get_cfg ;;
  if contains (read_format c) RF_GROUP then parse_read_group_by E pl PB
  else v <- parse_read_value_by E pl PB ;; ret (group_of_value v).

(** The CALLCHAIN field, src/records/sample.rs:198-201. *)
Definition parse_callchain_by : M S (cow N) :=
  nr <- u64 ;; parse_slice_by E pl PB (elem_u64_by E pl) (as_usize pl nr).

(** The RAW field, src/records/sample.rs:202-207. *)
Definition parse_raw_by : M S (cow N) :=
  parse_padded PB 8 (size <- u32 ;; parse_bytes pl PB (as_usize pl size)).

(** The BRANCH_STACK field, src/records/sample.rs:208-214. *)
Definition parse_lbr_by (hw_index : bool) : M S (cow branch_entry * option N) :=
  nr <- u64 ;;
  let nr := as_usize pl nr in
  hw <- parse_if hw_index u64 ;;
  lbr <- parse_slice_by E pl PB (elem_branch_by E pl) nr ;;
  ret (lbr, hw).

(** The STACK_USER field, src/records/sample.rs:222-246. *)
Definition parse_stack_user_by : M S (cow N) :=
  size <- u64 ;;
  let size := as_usize pl size in
  data <- parse_bytes pl PB size ;;
  dyn_size <- (if size =? 0 then ret 0 else d <- u64 ;; ret (as_usize pl d)) ;;
  if len (cow_list data) <? dyn_size
  then fail (custom_error KInvalidRecord MsgDynSize)
  else lift (stack_truncate data dyn_size).

(** The AUX field, src/records/sample.rs:257-260. *)
Definition parse_sample_aux_by : M S (cow N) :=
  size <- u64 ;; parse_bytes pl PB (as_usize pl size).

(** [Sample::parse], src/records/sample.rs:169-290.  [Parse] for [DataSource] and
    [Txn], src/records/sample.rs:569-576, 710-718, is [u64]. *)
Definition parse_sample_by : M S (sample cow) :=
  c <- get_cfg ;;
  let sty := sample_type c in
  let hw_index := branch_hw_index c in
  id0 <- parse_if (contains sty SF_IDENTIFIER) u64 ;;
  ip <- parse_if (contains sty SF_IP) u64 ;;
  pid <- parse_if (contains sty SF_TID) u32 ;;
  tid <- parse_if (contains sty SF_TID) u32 ;;
  time <- parse_if (contains sty SF_TIME) u64 ;;
  addr <- parse_if (contains sty SF_ADDR) u64 ;;
  id1 <- parse_if (contains sty SF_ID) u64 ;;
  let id := opt_or id1 id0 in
  stream_id <- parse_if (contains sty SF_STREAM_ID) u64 ;;
  cpu <- parse_if (contains sty SF_CPU) (a <- u32 ;; u32 ;;; ret a) ;;
  period <- parse_if (contains sty SF_PERIOD) u64 ;;
  values <- parse_if (contains sty SF_READ) parse_sample_read_by ;;
  callchain <- parse_if (contains sty SF_CALLCHAIN) parse_callchain_by ;;
  raw <- parse_if (contains sty SF_RAW) parse_raw_by ;;
  lbr <- parse_if (contains sty SF_BRANCH_STACK) (parse_lbr_by hw_index) ;;
  regs_user <- parse_if (contains sty SF_REGS_USER) (parse_registers_by (c_regs_user c)) ;;
  stack_user <- parse_if (contains sty SF_STACK_USER) parse_stack_user_by ;;
  weight <- parse_if (contains sty SF_WEIGHT) u64 ;;
  data_src <- parse_if (contains sty SF_DATA_SRC) u64 ;;
  transaction <- parse_if (contains sty SF_TRANSACTION) u64 ;;
  regs_intr <- parse_if (contains sty SF_REGS_INTR) (parse_registers_by (c_regs_intr c)) ;;
  phys_addr <- parse_if (contains sty SF_PHYS_ADDR) u64 ;;
  cgroup <- parse_if (contains sty SF_CGROUP) u64 ;;
  data_page_size <- parse_if (contains sty SF_DATA_PAGE_SIZE) u64 ;;
  code_page_size <- parse_if (contains sty SF_CODE_PAGE_SIZE) u64 ;;
  aux <- parse_if (contains sty SF_AUX) parse_sample_aux_by ;;
  ret (mkSample ip pid tid time addr id stream_id cpu period values callchain raw
         (match lbr with Some (_, hw) => hw | None => None end)
         (match lbr with Some (l, _) => Some l | None => None end)
         regs_user stack_user weight data_src transaction regs_intr phys_addr aux
         cgroup data_page_size code_page_size).

End Parsers2.

Section Framing.
Context (E : byteorder) (pl : platform).

Section OnBuf.
Context {S : Type} (PB : parsebuf S).

(** [parse_metadata_with_header_impl], src/parse.rs:509-544, and
    [parse_metadata_with_header], src/parse.rs:546-552. *)
Definition parse_metadata_with_header_by (h : header) : M S (parser cursor * metadata) :=
  match checked_sub (h_size h) 8 with
  | None => fail (custom_error KInvalidRecord MsgHeaderTooSmall)
  | Some data_len =>
      rp <- split_at PB data_len ;;
      if (h_type h =? PERF_RECORD_MMAP) || (h_type h =? PERF_RECORD_SAMPLE)
      then ret (rp, new_metadata h sample_id_default)
      else
        match checked_sub data_len (estimate_len (p_cfg rp)) with
        | None => fail (custom_error KInvalidRecord MsgNoRoomForSampleId)
        | Some remaining_len =>
            r <- sub (p <- split_at cursor_buf remaining_len ;;
                      si <- parse_sample_id_by E pl cursor_buf ;;
                      ret (p, si)) rp ;;
            ret (fst r, new_metadata h (snd r))
        end
  end.

(** [parse_metadata], src/parse.rs:502-507. *)
Definition parse_metadata_by : M S (parser cursor * metadata) :=
  h <- parse_header_by E pl PB ;; parse_metadata_with_header_by h.

(** The [match] of [parse_record_impl], src/parse.rs:569-591.  Calling the visitor
    after [p.parse()?]. *)
Definition dispatch_by {O : Type} (V : visitor O) (md : metadata) : M S O :=
  let t := md_ty md in
  if t =? PERF_RECORD_MMAP then r <- parse_mmap_by E pl PB ;; lift (visit_mmap V r md)
  else if t =? PERF_RECORD_LOST then r <- parse_lost_by E pl PB ;; lift (call V (v_lost V) r md)
  else if t =? PERF_RECORD_COMM then r <- parse_comm_by E pl PB ;; lift (call V (v_comm V) r md)
  else if t =? PERF_RECORD_EXIT then r <- parse_exit_by E pl PB ;; lift (call V (v_exit V) r md)
  else if t =? PERF_RECORD_THROTTLE
    then r <- parse_throttle_by E pl PB ;; lift (call V (v_throttle V) r md)
  else if t =? PERF_RECORD_UNTHROTTLE
    then r <- parse_throttle_by E pl PB ;; lift (call V (v_unthrottle V) r md)
  else if t =? PERF_RECORD_FORK then r <- parse_exit_by E pl PB ;; lift (call V (v_fork V) r md)
  else if t =? PERF_RECORD_READ then r <- parse_read_by E pl PB ;; lift (call V (v_read V) r md)
  else if t =? PERF_RECORD_SAMPLE
    then r <- parse_sample_by E pl PB ;; lift (call V (v_sample V) r md)
  else if t =? PERF_RECORD_MMAP2 then r <- parse_mmap2_by E pl PB ;; lift (visit_mmap2 V r md)
  else if t =? PERF_RECORD_AUX then r <- parse_aux_by E pl PB ;; lift (call V (v_aux V) r md)
  else if t =? PERF_RECORD_ITRACE_START
    then r <- parse_itrace_start_by E pl PB ;; lift (call V (v_itrace_start V) r md)
  else if t =? PERF_RECORD_LOST_SAMPLES
    then r <- parse_lost_samples_by E pl PB ;; lift (call V (v_lost_samples V) r md)
  else if t =? PERF_RECORD_SWITCH_CPU_WIDE
    then r <- parse_switch_cpu_wide_by E pl PB ;; lift (call V (v_switch_cpu_wide V) r md)
  else if t =? PERF_RECORD_NAMESPACES
    then r <- parse_namespaces_by E pl PB ;; lift (call V (v_namespaces V) r md)
  else if t =? PERF_RECORD_KSYMBOL
    then r <- parse_ksymbol_by E pl PB ;; lift (call V (v_ksymbol V) r md)
  else if t =? PERF_RECORD_BPF_EVENT
    then r <- parse_bpf_event_by E pl PB ;; lift (call V (v_bpf_event V) r md)
  else if t =? PERF_RECORD_CGROUP
    then r <- parse_cgroup_by E pl PB ;; lift (call V (v_cgroup V) r md)
  else if t =? PERF_RECORD_TEXT_POKE
    then r <- parse_text_poke_by E pl PB ;; lift (call V (v_text_poke V) r md)
  else if t =? PERF_RECORD_AUX_OUTPUT_HW_ID
    then r <- parse_aux_output_hw_id_by E pl PB ;; lift (call V (v_aux_output_hw_id V) r md)
  else r <- parse_rest PB ;; lift (call V (v_unknown V) r md).

End OnBuf.

(** [parse_record_impl], src/parse.rs:560-592: runs on a parser by value, with
    the header's misc put in the configuration; the result and the reservations
    are all that is left of it. *)
Definition parse_record_impl_by {S T O : Type} (PB : parsebuf S) (V : visitor O)
  (md : metadata) (s : S) (c : config) : M T O :=
  sub (dispatch_by PB V md) (new_parser s (with_misc c (md_misc md))).

Section OnBuf2.
Context {S : Type} (PB : parsebuf S).

(** [parse_record_with_header], src/parse.rs:596-614. *)
Definition parse_record_with_header_by {O : Type} (V : visitor O) (h : header) : M S O :=
  r <- parse_metadata_with_header_by PB h ;;
  let '(p, md) := r in
  match cursor_as_slice (p_buf p) with
  | Some data => parse_record_impl_by slice_buf V md data (p_cfg p)
  | None => parse_record_impl_by cursor_buf V md (p_buf p) (p_cfg p)
  end.

(** [parse_record], src/parse.rs:555-558. *)
Definition parse_record_by {O : Type} (V : visitor O) : M S O :=
  h <- parse_header_by E pl PB ;; parse_record_with_header_by V h.

End OnBuf2.
End Framing.

(** [Record::parse_with_header], src/records/mod.rs:405-414. *)
Definition parse_record_enum_with_header_by (E : byteorder) (pl : platform) {S : Type} (PB : parsebuf S) (h : header)
  : M S (record cow) :=
  parse_record_with_header_by E pl PB record_visitor h.

(** [Parse for Record], src/records/mod.rs:417-425. *)
Definition parse_record_enum_by (E : byteorder) (pl : platform) {S : Type} (PB : parsebuf S) : M S (record cow) :=
  parse_record_by E pl PB record_visitor.

Section Fields.
Context (E : byteorder) (pl : platform) {S : Type} (PB : parsebuf S).

Let u16 := parse_u16_by E pl PB.
Let u32 := parse_u32_by E pl PB.
Let u64 := parse_u64_by E pl PB.

(** src/impls/perf_event_attr.rs:46-109.  [clockid] is i32, kept as its bits. *)
Definition parse_attr_fields_by (type size : N) : M S attr :=
  let v0 := PERF_ATTR_SIZE_VER0 <=? size in
  config <- or0 v0 u64 ;;
  sample_period <- or0 v0 u64 ;;
  sample_type <- or0 v0 u64 ;;
  read_format <- or0 v0 u64 ;;
  bits <- or0 v0 u64 ;;
  wakeup_events <- or0 v0 u32 ;;
  bp_type <- or0 v0 u32 ;;
  config1 <- or0 v0 u64 ;;
  config2 <- or0 (PERF_ATTR_SIZE_VER1 <=? size) u64 ;;
  branch_sample_type <- or0 (PERF_ATTR_SIZE_VER2 <=? size) u64 ;;
  let v3 := PERF_ATTR_SIZE_VER3 <=? size in
  sample_regs_user <- or0 v3 u64 ;;
  sample_stack_user <- or0 v3 u32 ;;
  clockid <- or0 v3 u32 ;;
  sample_regs_intr <- or0 (PERF_ATTR_SIZE_VER4 <=? size) u64 ;;
  let v5 := PERF_ATTR_SIZE_VER5 <=? size in
  aux_watermark <- or0 v5 u32 ;;
  sample_max_stack <- or0 v5 u16 ;;
  or0 v5 u16 ;;;
  let v6 := PERF_ATTR_SIZE_VER6 <=? size in
  aux_sample_size <- or0 v6 u32 ;;
  or0 v6 u32 ;;;
  sig_data <- or0 (PERF_ATTR_SIZE_VER7 <=? size) u64 ;;
  config3 <- or0 (PERF_ATTR_SIZE_VER8 <=? size) u64 ;;
  (if PERF_ATTR_SIZE_MAX <? size then
     rest <- parse_rest PB ;;
     if forallb (fun b => b =? 0) (cow_list rest) then ret tt
     else fail (custom_error KUnsupportedData MsgAttrTail)
   else ret tt) ;;;
  ret (mkAttr type size config sample_period sample_type read_format bits
         wakeup_events bp_type config1 config2 branch_sample_type sample_regs_user
         sample_stack_user clockid sample_regs_intr aux_watermark sample_max_stack
         aux_sample_size sig_data config3).

End Fields.

(** [Parse for perf_event_attr], src/impls/perf_event_attr.rs:12-111.  The
    subtraction on line 44 is [attr.size as usize - size_of_val(&attr.size)];
    underflow would panic in debug builds. *)
Definition parse_attr_by (E : byteorder) (pl : platform) {S : Type} (PB : parsebuf S) : M S attr :=
  type <- parse_u32_by E pl PB ;;
  size <- parse_u32_by E pl PB ;;
  if negb (attr_size_ok size) then fail (custom_error KInvalidRecord (MsgAttrSize size))
  else match checked_sub (as_usize pl size) 4 with
       | None => panic
       | Some n =>
           p <- split_at PB n ;;
           sub (parse_attr_fields_by E pl cursor_buf type size) p
       end.
