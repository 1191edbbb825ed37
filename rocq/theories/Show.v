(** The Debug impls of the crate (for [{:?}] and [{:#?}]) and the Display impl of [ParseError]. *)
From Coq Require Import String NArith List Bool.
From Verif Require Import Base Types Platform Config Records Sample Record Read Access Fmt Text.
Import ListNotations.
Open Scope N_scope.

(** Debug impls generated by other crates: [char::escape_debug] for [ByteStr],
    the types made by [bitflags!] and [c_enum!] (by name), and bindgen's
    [perf_branch_entry].  Any functions; that they do not panic is assumed. *)
Record ext : Type := mkExt {
  x_esc : N -> list N;
  x_word : string -> N -> bool -> text;
  x_branch : branch_entry -> bool -> text;
}.

(** [HexAddr], src/util/fmt.rs:67-73. *)
Definition d_hex_addr (n : N) : fmt := d_text (hex_016 n).
Definition d_hex_str (l : list N) : fmt := fun _ => hex_str l.
Definition d_decs (c : cow N) : fmt := d_list (map d_dec (cow_list c)).

(** A field under a condition, [debug_if!], src/macros.rs:55-72. *)
Definition if_field (b : bool) (name : string) (v : fmt) : list (string * fmt) :=
  if b then [(name, v)] else [].

(** A field of an option struct, src/macros.rs:209-218. *)
Definition opt_field {A : Type} (name : string) (d : A -> fmt) (o : option A)
  : list (string * fmt) :=
  match o with Some a => [(name, d a)] | None => [] end.

(** [ReadValue], src/records/read.rs:108-124. *)
Definition show_read_value (v : read_value) : fmt :=
  let rf := rv_format v in
  d_struct "SingleRead"
    ([("value"%string, d_dec (rv_value v))]
     ++ if_field (contains rf RF_TIME_ENABLED) "time_enabled" (d_dec (rv_enabled v))
     ++ if_field (contains rf RF_TIME_RUNNING) "time_running" (d_dec (rv_running v))
     ++ if_field (contains rf RF_ID) "id" (d_dec (rv_id v))
     ++ if_field (contains rf RF_LOST) "lost" (d_dec (rv_lost v))) false.

(** [GroupEntry], src/records/read.rs:279-293. *)
Definition show_entry (e : group_entry) : fmt :=
  let rf := ge_format e in
  d_struct "GroupEntry"
    ([("value"%string, d_dec (ge_value e))]
     ++ if_field (contains rf RF_ID) "id" (d_dec (ge_id e))
     ++ if_field (contains rf RF_LOST) "lost" (d_dec (ge_lost e))) false.

(** Everything [next] of a [GroupIter] returns; the [nat] bounds the recursion. *)
Fixpoint it_collect (k : nat) (it : group_iter) : out (list group_entry) :=
  match k with
  | O => Fuel
  | S k =>
      let (r, it') := it_next it in
      obind r (fun o =>
        match o with
        | None => Ok []
        | Some e => obind (it_collect k it') (fun l => Ok (e :: l))
        end)
  end.

(** [ReadGroup], src/records/read.rs:207-228. *)
Definition show_entries (g : read_group cow) : fmt := fun alt =>
  obind (iter_new g) (fun it =>
  obind (it_collect (S (length (gi_v it))) it) (fun l =>
  d_list (map show_entry l) alt)).

Definition show_read_group (g : read_group cow) : fmt :=
  let rf := rg_format g in
  d_struct "GroupRead"
    (if_field (contains rf RF_TIME_ENABLED) "time_enabled" (d_dec (rg_enabled g))
     ++ if_field (contains rf RF_TIME_RUNNING) "time_running" (d_dec (rg_running g))
     ++ [("entries"%string, show_entries g)]) false.

(** [SampleId], src/records/mod.rs:57-67, 183-187 and src/macros.rs:159-174. *)
Definition show_sample_id (s : sample_id) : fmt :=
  d_struct "SampleId"
    (opt_field "pid" d_dec (si_pid s) ++ opt_field "tid" d_dec (si_tid s)
     ++ opt_field "time" d_dec (si_time s) ++ opt_field "id" d_dec (si_id s)
     ++ opt_field "stream_id" d_dec (si_stream_id s) ++ opt_field "cpu" d_dec (si_cpu s)) false.

Section Ext.
Context (X : ext) (pl : platform).

Definition d_byte_str (l : list N) : fmt := fun _ => byte_str (x_esc X) l.
Definition d_word (ty : string) (n : N) : fmt := fun alt => Ok (x_word X ty n alt).

(** [Comm], src/records/comm.rs:71-79. *)
Definition show_comm (r : comm cow) : fmt :=
  d_struct "Comm"
    [("pid", d_dec (cm_pid r)); ("tid", d_dec (cm_tid r));
     ("comm", d_byte_str (cow_list (cm_comm r)))]%string true.

(** [CGroup], src/records/cgroup.rs:54-61. *)
Definition show_cgroup (r : cgroup cow) : fmt :=
  d_struct "CGroup"
    [("id", d_dec (cg_id r)); ("path", d_byte_str (cow_list (cg_path r)))]%string true.

(** [Mmap], src/records/mmap.rs:99-110. *)
Definition show_mmap (r : mmap cow) : fmt :=
  d_struct "Mmap"
    [("pid", d_dec (mm_pid r)); ("tid", d_dec (mm_tid r)); ("addr", d_hex_addr (mm_addr r));
     ("len", d_dec (mm_len r)); ("pgoff", d_dec (mm_pgoff r));
     ("filename", d_byte_str (cow_list (mm_filename r)))]%string true.

(** [Mmap2], src/records/mmap2.rs:216-250.  [build_id()] may panic. *)
Definition detail_fields (r : mmap2 cow) : out (list (string * fmt)) :=
  match m2_detail r with
  | MdDefault maj min ino gen =>
      Ok [("maj", d_dec maj); ("min", d_dec min); ("ino", d_dec ino);
          ("ino_generation", d_dec gen)]%string
  | MdBuildId _ _ =>
      obind (m2_build_id r) (fun o =>
        match o with
        | Some b => Ok [("build_id"%string, d_hex_str b)]
        | None => Ok []
        end)
  end.

Definition show_mmap2 (r : mmap2 cow) : fmt := fun alt =>
  obind (detail_fields r) (fun det =>
  d_struct "Mmap2"
    ([("pid", d_dec (m2_pid r)); ("tid", d_dec (m2_tid r)); ("addr", d_hex_addr (m2_addr r));
      ("len", d_dec (m2_len r)); ("pgoff", d_dec (m2_pgoff r))]%string
     ++ det
     ++ [("prot", d_dec (m2_prot r)); ("flags", d_dec (m2_flags r));
         ("filename", d_byte_str (cow_list (m2_filename r)))]%string) true alt).

(** [KSymbol], src/records/ksymbol.rs:36-46. *)
Definition show_ksymbol (r : ksymbol cow) : fmt :=
  d_struct "KSymbol"
    [("addr", d_hex_addr (ks_addr r)); ("len", d_dec (ks_len r));
     ("ksym_type", d_word "KSymbolType" (ks_type r));
     ("flags", d_word "KSymbolFlags" (ks_flags r));
     ("name", d_byte_str (cow_list (ks_name r)))]%string true.

(** [TextPoke], src/records/text_poke.rs:65-73. *)
Definition show_text_poke (r : text_poke cow) : fmt :=
  d_struct "TextPoke"
    [("addr", d_hex_addr (tp_addr r)); ("old_bytes", d_decs (tp_old r));
     ("new_bytes", d_decs (tp_new r))]%string true.

(** Derived impls: src/records/lost.rs:7, exit.rs:9, throttle.rs:14,
    lost_samples.rs:10, read.rs:15, aux_record.rs:12, itrace_start.rs:10,
    switch_cpu_wide.rs:19, namespaces.rs:13 and 32, bpf_event.rs:10,
    aux_output_hw_id.rs:15. *)
Definition show_lost (r : lost) : fmt :=
  d_struct "Lost" [("id", d_dec (lost_id r)); ("lost", d_dec (lost_lost r))]%string true.
Definition show_exit (r : exit) : fmt :=
  d_struct "Exit"
    [("pid", d_dec (ex_pid r)); ("ppid", d_dec (ex_ppid r)); ("tid", d_dec (ex_tid r));
     ("ptid", d_dec (ex_ptid r)); ("time", d_dec (ex_time r))]%string true.
Definition show_throttle (r : throttle) : fmt :=
  d_struct "Throttle"
    [("time", d_dec (th_time r)); ("id", d_dec (th_id r));
     ("stream_id", d_dec (th_stream_id r))]%string true.
Definition show_lost_samples (r : lost_samples) : fmt :=
  d_struct "LostSamples" [("lost", d_dec (ls_lost r))]%string true.
Definition show_read (r : read) : fmt :=
  d_struct "Read"
    [("pid", d_dec (rd_pid r)); ("tid", d_dec (rd_tid r));
     ("values", show_read_value (rd_values r))]%string true.
Definition show_aux (r : aux) : fmt :=
  d_struct "Aux"
    [("aux_offset", d_dec (aux_offset r)); ("aux_size", d_dec (aux_size r));
     ("flags", d_word "AuxFlags" (aux_flags r))]%string true.
Definition show_itrace_start (r : itrace_start) : fmt :=
  d_struct "ITraceStart" [("pid", d_dec (it_pid r)); ("tid", d_dec (it_tid r))]%string true.
Definition show_switch (r : switch_cpu_wide) : fmt :=
  match r with
  | SwIn pid tid => d_struct "In" [("pid", d_dec pid); ("tid", d_dec tid)]%string true
  | SwOut pid tid => d_struct "Out" [("pid", d_dec pid); ("tid", d_dec tid)]%string true
  end.
Definition show_ns (r : ns_entry) : fmt :=
  d_struct "NamespaceEntry"
    [("dev", d_dec (ns_dev r)); ("inode", d_dec (ns_inode r))]%string true.
Definition show_namespaces (r : namespaces cow) : fmt :=
  d_struct "Namespaces"
    [("pid", d_dec (nss_pid r)); ("tid", d_dec (nss_tid r));
     ("namespaces", d_list (map show_ns (cow_list (nss_entries r))))]%string true.
Definition show_bpf_event (r : bpf_event) : fmt :=
  d_struct "BpfEvent"
    [("ty", d_word "BpfEventType" (bpf_ty r)); ("flags", d_dec (bpf_flags r));
     ("id", d_dec (bpf_id r)); ("tag", d_list (map d_dec (bpf_tag r)))]%string true.
Definition show_hw_id (r : aux_output_hw_id) : fmt :=
  d_struct "AuxOutputHwId" [("hw_id", d_dec (hw_id r))]%string true.

(** [DataSource], src/records/sample.rs:553-567; [Registers] and [BranchEntry]
    (derived), lines 303 and 406. *)
Definition show_data_src (w : N) : fmt :=
  let o := pl_host pl in
  d_struct "DataSource"
    [("mem_op", d_word "MemOp" (ds_mem_op o w)); ("mem_lvl", d_word "MemLevel" (ds_mem_lvl o w));
     ("mem_snoop", d_word "MemSnoop" (ds_mem_snoop o w));
     ("mem_lock", d_word "MemLock" (ds_mem_lock o w));
     ("mem_dtlb", d_word "MemDtlb" (ds_mem_dtlb o w));
     ("mem_lvl_num", d_word "MemLevelNum" (ds_mem_lvl_num o w));
     ("mem_remote", d_bool (ds_mem_remote o w));
     ("mem_blk", d_word "MemBlk" (ds_mem_blk o w)); ("mem_hops", d_dec (ds_mem_hops o w))]%string
    true.
Definition show_registers (r : registers cow) : fmt :=
  d_struct "Registers"
    [("abi", d_word "SampleRegsAbi" (rg_abi r)); ("mask", d_dec (rg_mask r));
     ("regs", d_decs (rg_regs r))]%string true.
Definition d_branches (c : cow branch_entry) : fmt :=
  d_list (map (fun b => d_tuple1 "BranchEntry" (fun alt => Ok (x_branch X b alt))) (cow_list c)).

(** [Sample], src/records/sample.rs:24-53, 292-296 and src/macros.rs:159-174. *)
Definition sample_debug_fields (s : sample cow) : list (string * fmt) :=
  opt_field "ip" d_dec (s_ip s) ++ opt_field "pid" d_dec (s_pid s)
  ++ opt_field "tid" d_dec (s_tid s) ++ opt_field "time" d_dec (s_time s)
  ++ opt_field "addr" d_hex_addr (s_addr s) ++ opt_field "id" d_dec (s_id s)
  ++ opt_field "stream_id" d_dec (s_stream_id s) ++ opt_field "cpu" d_dec (s_cpu s)
  ++ opt_field "period" d_dec (s_period s) ++ opt_field "values" show_read_group (s_values s)
  ++ opt_field "callchain" d_decs (s_callchain s) ++ opt_field "raw" d_decs (s_raw s)
  ++ opt_field "lbr_hw_index" d_dec (s_lbr_hw_index s) ++ opt_field "lbr" d_branches (s_lbr s)
  ++ opt_field "regs_user" show_registers (s_regs_user s)
  ++ opt_field "stack_user" d_decs (s_stack_user s) ++ opt_field "weight" d_dec (s_weight s)
  ++ opt_field "data_src" show_data_src (s_data_src s)
  ++ opt_field "transaction" (d_word "Txn") (s_transaction s)
  ++ opt_field "regs_intr" show_registers (s_regs_intr s)
  ++ opt_field "phys_addr" d_hex_addr (s_phys_addr s) ++ opt_field "aux" d_decs (s_aux s)
  ++ opt_field "cgroup" d_dec (s_cgroup s)
  ++ opt_field "data_page_size" d_dec (s_data_page_size s)
  ++ opt_field "code_page_size" d_dec (s_code_page_size s).
Definition show_sample (s : sample cow) : fmt := d_struct "Sample" (sample_debug_fields s) false.

(** [Record] (derived), src/records/mod.rs:206-246.  No Rust value is
    [RBody (BUnknown _)]. *)
Definition show_record (r : record cow) : fmt :=
  match r with
  | RBody (BMmap r) => d_tuple1 "Mmap" (show_mmap r)
  | RBody (BLost r) => d_tuple1 "Lost" (show_lost r)
  | RBody (BComm r) => d_tuple1 "Comm" (show_comm r)
  | RBody (BExit r) => d_tuple1 "Exit" (show_exit r)
  | RBody (BThrottle r) => d_tuple1 "Throttle" (show_throttle r)
  | RBody (BUnthrottle r) => d_tuple1 "Unthrottle" (show_throttle r)
  | RBody (BFork r) => d_tuple1 "Fork" (show_exit r)
  | RBody (BRead r) => d_tuple1 "Read" (show_read r)
  | RBody (BSample r) => d_tuple1 "Sample" (show_sample r)
  | RBody (BMmap2 r) => d_tuple1 "Mmap2" (show_mmap2 r)
  | RBody (BAux r) => d_tuple1 "Aux" (show_aux r)
  | RBody (BItraceStart r) => d_tuple1 "ITraceStart" (show_itrace_start r)
  | RBody (BLostSamples r) => d_tuple1 "LostSamples" (show_lost_samples r)
  | RBody BSwitch => d_text (txt "Switch")
  | RBody (BSwitchCpuWide r) => d_tuple1 "SwitchCpuWide" (show_switch r)
  | RBody (BNamespaces r) => d_tuple1 "Namespaces" (show_namespaces r)
  | RBody (BKsymbol r) => d_tuple1 "KSymbol" (show_ksymbol r)
  | RBody (BBpfEvent r) => d_tuple1 "BpfEvent" (show_bpf_event r)
  | RBody (BCgroup r) => d_tuple1 "CGroup" (show_cgroup r)
  | RBody (BTextPoke r) => d_tuple1 "TextPoke" (show_text_poke r)
  | RBody (BAuxOutputHwId r) => d_tuple1 "AuxOutputHwId" (show_hw_id r)
  | RBody (BUnknown d) => d_struct "Unknown" [("data"%string, d_decs d)] true
  | RUnknown ty d => d_struct "Unknown" [("ty", d_dec ty); ("data", d_decs d)]%string true
  end.

(** [RecordMetadata] (derived), src/visitor.rs:11-16. *)
Definition show_metadata (m : metadata) : fmt :=
  d_struct "RecordMetadata"
    [("ty", d_dec (md_ty m)); ("misc", d_dec (md_misc m));
     ("sample_id", show_sample_id (md_sample_id m))]%string true.

(** [ParseConfig], src/config.rs:229-241. *)
Definition show_config (c : config) : fmt :=
  d_struct "ParseConfig"
    [("read_format", d_word "ReadFormat" (read_format c));
     ("sample_type", d_word "SampleFlags" (sample_type c));
     ("sample_id_all", d_bool (sample_id_all c)); ("branch_hw_index", d_bool (branch_hw_index c));
     ("misc", d_text (app (txt "0x") (hex (misc c))));
     ("regs_user", d_text (app (txt "0x") (hex (c_regs_user c))));
     ("regs_intr", d_text (app (txt "0x") (hex (c_regs_intr c))))]%string true.
End Ext.

(** [Display for ParseError], src/error.rs:106-134; [src] is the Display of the
    boxed source. *)
Definition show_error (src : error_source -> text) (e : perror) : text :=
  (match e_kind e with
   | KEof => txt "unexpected EOF during parsing"
   | KInvalidRecord => txt "invalid record"
   | KUnsupportedData => txt "unsupported serialized data"
   | KUnsupportedConfig => txt "unsupported config"
   | KExternal => match e_source e with None => txt "user-provided error" | Some _ => [] end
   end)
  ++ match e_source e with
     | None => []
     | Some s => (match e_kind e with KExternal => txt ": " | _ => [] end) ++ src s
     end.

(** What the [Cow] in a [CustomMessageError] holds, src/error.rs:181-200: the
    literal, or the formatted arguments where there are any
    ([Message::as_str], src/error.rs:167-179). *)
Definition message_text (m : message) : text :=
  match m with
  | MsgSliceTooLong => txt "array length in bytes larger than usize::MAX"
  | MsgHeaderTooSmall => txt "header size was too small to be valid"
  | MsgNoRoomForSampleId =>
      txt "config has sample_id_all bit set but record does not have enough data to store the sample_id"
  | MsgSingleReadGroup =>
      txt "attempted to parse a SingleRead with a config that has GROUP set in read_format"
  | MsgGroupReadSingle =>
      txt "attempted to parse a GroupRead with a config that does not have GROUP set in read_format"
  | MsgReadFormatFlags => txt "read_format contains unsupported flags"
  | MsgGroupTooLarge => txt "number of elements in group read was too large for data type"
  | MsgDynSize => txt "stack dyn_size was greater than the record size"
  | MsgBuildIdLen n => txt "build_id had invalid length (" ++ dec n ++ txt " > 20)"
  | MsgAttrSize n => dec n ++ txt " is not a valid size for a perf_event_attr struct"
  | MsgAttrTail =>
      txt "serialized perf_event_attr contains fields not supported by this version of perf-event-data"
  end.

(** Display of a source: [CustomMessageError], src/error.rs:194-198, or the
    error of somebody else, [other]. *)
Definition show_source (other : error_source -> text) (s : error_source) : text :=
  match s with SrcMsg m => message_text m | _ => other s end.

(** [ErrorKind], derived, src/error.rs:73. *)
Definition kind_name (k : error_kind) : text :=
  txt match k with
      | KEof => "Eof"
      | KInvalidRecord => "InvalidRecord"
      | KUnsupportedConfig => "UnsupportedConfig"
      | KUnsupportedData => "UnsupportedData"
      | KExternal => "External"
      end.

(** [CustomMessageError], derived, src/error.rs:181-182.  No character of the
    messages has an escape. *)
Definition debug_source (other : error_source -> fmt) (s : error_source) : fmt :=
  match s with
  | SrcMsg m => d_tuple1 "CustomMessageError" (d_text ([34] ++ message_text m ++ [34]))
  | _ => other s
  end.

(** [ParseError], derived, src/error.rs:25. *)
Definition debug_error (other : error_source -> fmt) (e : perror) : fmt :=
  d_struct "ParseError"
    [("code", d_text (kind_name (e_kind e)));
     ("source", match e_source e with
                | None => d_text (txt "None")
                | Some s => d_tuple1 "Some" (debug_source other s)
                end)]%string true.

(** [TryFromGroupError], Display (src/records/read.rs:467-471) and derived Debug
    (src/records/read.rs:464). *)
Definition show_try_from : text := txt "can only convert groups with a single element to ReadValues".
Definition debug_try_from : fmt := d_tuple1 "TryFromGroupError" (d_text (txt "()")).
