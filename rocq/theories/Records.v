(** Record types and their [Parse] impls, src/records/*.rs (all but SAMPLE).

    Types with variable-length parts are parametrised by the container [F]:
    [cow] for what the crate returns, [list] for the contents alone. *)
From Coq Require Import NArith List Bool.
From Verif Require Import Base Types Platform Config Buf Parser.
Import ListNotations.
Open Scope N_scope.

(** [perf_event_header]. *)
Record header : Type := mkHeader { h_type : N; h_misc : N; h_size : N }.

(** [Lost], src/records/lost.rs:8-14. *)
Record lost : Type := mkLost { lost_id : N; lost_lost : N }.

(** [LostSamples], src/records/lost_samples.rs:11-14. *)
Record lost_samples : Type := mkLostSamples { ls_lost : N }.

(** [Exit] and [Fork], src/records/exit.rs:11-17, src/records/mod.rs:54. *)
Record exit : Type := mkExit { ex_pid : N; ex_ppid : N; ex_tid : N; ex_ptid : N; ex_time : N }.

(** [Throttle], src/records/throttle.rs:16-20. *)
Record throttle : Type := mkThrottle { th_time : N; th_id : N; th_stream_id : N }.

(** [Aux], src/records/aux_record.rs:14-18. *)
Record aux : Type := mkAux { aux_offset : N; aux_size : N; aux_flags : N }.

(** [ITraceStart], src/records/itrace_start.rs:11-17. *)
Record itrace_start : Type := mkItraceStart { it_pid : N; it_tid : N }.

(** [SwitchCpuWide], src/records/switch_cpu_wide.rs:20-38. *)
Inductive switch_cpu_wide : Type :=
| SwIn (pid tid : N)
| SwOut (pid tid : N).

(** [SwitchCpuWide::pid], [tid], src/records/switch_cpu_wide.rs:42-53. *)
Definition sw_pid (s : switch_cpu_wide) : N := match s with SwIn p _ | SwOut p _ => p end.
Definition sw_tid (s : switch_cpu_wide) : N := match s with SwIn _ t | SwOut _ t => t end.

(** [BpfEvent], src/records/bpf_event.rs:12-17.  The types made by [c_enum!] are
    their number; their [new] wraps it: src/records/bpf_event.rs:34-39,
    src/records/ksymbol.rs:67-72, src/records/sample.rs:398-403, 742-747. *)
Record bpf_event : Type := mkBpf { bpf_ty : N; bpf_flags : N; bpf_id : N; bpf_tag : list N }.

(** [AuxOutputHwId], src/records/aux_output_hw_id.rs:16-19. *)
Record aux_output_hw_id : Type := mkHwId { hw_id : N }.

(** [Mmap], src/records/mmap.rs:15-45. *)
Record mmap (F : Type -> Type) : Type := mkMmap {
  mm_pid : N; mm_tid : N; mm_addr : N; mm_len : N; mm_pgoff : N; mm_filename : F N }.
Arguments mkMmap {F} _ _ _ _ _ _.
Arguments mm_pid {F} _. Arguments mm_tid {F} _. Arguments mm_addr {F} _.
Arguments mm_len {F} _. Arguments mm_pgoff {F} _. Arguments mm_filename {F} _.

(** [MmapDetail], src/records/mmap2.rs:62-73. *)
Inductive mmap_detail : Type :=
| MdDefault (maj min ino ino_generation : N)
| MdBuildId (build_id : list N) (blen : N).

(** [Mmap2], src/records/mmap2.rs:21-59. *)
Record mmap2 (F : Type -> Type) : Type := mkMmap2 {
  m2_pid : N; m2_tid : N; m2_addr : N; m2_len : N; m2_pgoff : N;
  m2_detail : mmap_detail; m2_prot : N; m2_flags : N; m2_filename : F N }.
Arguments mkMmap2 {F} _ _ _ _ _ _ _ _ _.
Arguments m2_pid {F} _. Arguments m2_tid {F} _. Arguments m2_addr {F} _.
Arguments m2_len {F} _. Arguments m2_pgoff {F} _. Arguments m2_detail {F} _.
Arguments m2_prot {F} _. Arguments m2_flags {F} _. Arguments m2_filename {F} _.

(** [Comm], src/records/comm.rs:26-37. *)
Record comm (F : Type -> Type) : Type := mkComm { cm_pid : N; cm_tid : N; cm_comm : F N }.
Arguments mkComm {F} _ _ _.
Arguments cm_pid {F} _. Arguments cm_tid {F} _. Arguments cm_comm {F} _.

(** [KSymbol], src/records/ksymbol.rs:18-24. *)
Record ksymbol (F : Type -> Type) : Type := mkKsymbol {
  ks_addr : N; ks_len : N; ks_type : N; ks_flags : N; ks_name : F N }.
Arguments mkKsymbol {F} _ _ _ _ _.
Arguments ks_addr {F} _. Arguments ks_len {F} _. Arguments ks_type {F} _.
Arguments ks_flags {F} _. Arguments ks_name {F} _.

(** [CGroup], src/records/cgroup.rs:13-19.  [path_os], src/records/cgroup.rs:22-30,
    and the [_os] accessors of the other records, src/records/comm.rs:40-46,
    src/records/mmap.rs:59-65, src/records/mmap2.rs:87-93, are the same bytes as
    an OS string. *)
Record cgroup (F : Type -> Type) : Type := mkCgroup { cg_id : N; cg_path : F N }.
Arguments mkCgroup {F} _ _. Arguments cg_id {F} _. Arguments cg_path {F} _.

(** [TextPoke], src/records/text_poke.rs:13-22. *)
Record text_poke (F : Type -> Type) : Type := mkTextPoke { tp_addr : N; tp_old : F N; tp_new : F N }.
Arguments mkTextPoke {F} _ _ _. Arguments tp_addr {F} _.
Arguments tp_old {F} _. Arguments tp_new {F} _.

(** [NamespaceEntry] and [Namespaces], src/records/namespaces.rs:14-40. *)
Record ns_entry : Type := mkNs { ns_dev : N; ns_inode : N }.
Record namespaces (F : Type -> Type) : Type := mkNamespaces {
  nss_pid : N; nss_tid : N; nss_entries : F ns_entry }.
Arguments mkNamespaces {F} _ _ _. Arguments nss_pid {F} _. Arguments nss_tid {F} _.
Arguments nss_entries {F} _.

(** [ReadValue], src/records/read.rs:29-36. *)
Record read_value : Type := mkReadValue {
  rv_format : N; rv_value : N; rv_enabled : N; rv_running : N; rv_id : N; rv_lost : N }.

(** [ReadGroup], src/records/read.rs:128-133. *)
Record read_group (F : Type -> Type) : Type := mkReadGroup {
  rg_format : N; rg_enabled : N; rg_running : N; rg_data : F N }.
Arguments mkReadGroup {F} _ _ _ _. Arguments rg_format {F} _. Arguments rg_enabled {F} _.
Arguments rg_running {F} _. Arguments rg_data {F} _.

(** [Read], src/records/read.rs:16-25. *)
Record read : Type := mkRead { rd_pid : N; rd_tid : N; rd_values : read_value }.

(** [SampleId], src/records/mod.rs:56-80 (the option struct as options, see
    OptStruct.v for its representation). *)
Record sample_id : Type := mkSampleId {
  si_pid : option N; si_tid : option N; si_time : option N;
  si_id : option N; si_stream_id : option N; si_cpu : option N }.

Definition sample_id_default : sample_id := mkSampleId None None None None None None.

(** [SampleId::estimate_len], src/records/mod.rs:131-146. *)
Definition estimate_len (c : config) : N :=
  if negb (sample_id_all c) then 0
  else
    let flags := N.lor SF_TID (N.lor SF_TIME (N.lor SF_ID (N.lor SF_STREAM_ID
                   (N.lor SF_CPU SF_IDENTIFIER)))) in
    popcount (N.land (sample_type c) flags) * 8.

(** [bindings::PERF_RECORD_MISC_SWITCH_OUT] and [.._MMAP_BUILD_ID]. *)
Definition MISC_SWITCH_OUT : N := 2 ^ 13.
Definition MISC_MMAP_BUILD_ID : N := 2 ^ 14.

(** [round_up_mod], src/records/text_poke.rs:76-84. *)
Definition round_up_mod (v k m : N) : N :=
  let vm := v mod m in
  if vm <=? k then v + (k - vm) else v + ((k + m) - vm).

(** Accessors of [ReadValue], src/records/read.rs:52-83. *)
Definition rv_get_enabled (r : read_value) : option N :=
  then_some (contains (rv_format r) RF_TIME_ENABLED) (rv_enabled r).
Definition rv_get_running (r : read_value) : option N :=
  then_some (contains (rv_format r) RF_TIME_RUNNING) (rv_running r).
Definition rv_get_id (r : read_value) : option N :=
  then_some (contains (rv_format r) RF_ID) (rv_id r).
Definition rv_get_lost (r : read_value) : option N :=
  then_some (contains (rv_format r) RF_LOST) (rv_lost r).

(** [data.extend(option)]. *)
Definition opt_list {A : Type} (o : option A) : list A :=
  match o with Some a => [a] | None => [] end.

(** [From<ReadValue> for ReadGroup], src/records/read.rs:191-205. *)
Definition group_of_value (v : read_value) : read_group cow :=
  mkReadGroup (N.lor (rv_format v) RF_GROUP) (rv_enabled v) (rv_running v)
    (Owned (([rv_value v] ++ opt_list (rv_get_id v)) ++ opt_list (rv_get_lost v))).

Section Parsers.
Context (pl : platform) {S : Type} (PB : parsebuf S).

(** Local shorthands for [p.parse()?] at each integer type. *)
Let u8 := parse_u8 PB.
Let u16 := parse_u16 pl PB.
Let u32 := parse_u32 pl PB.
Let u64 := parse_u64 pl PB.

(** src/parse.rs:667-679. *)
Definition parse_header : M S header :=
  type <- u32 ;; misc <- u16 ;; size <- u16 ;;
  ret (mkHeader type misc size).

(** src/records/lost.rs:16-27. *)
Definition parse_lost : M S lost :=
  id <- u64 ;; lost <- u64 ;; ret (mkLost id lost).

(** src/records/lost_samples.rs:16-24. *)
Definition parse_lost_samples : M S lost_samples :=
  lost <- u64 ;; ret (mkLostSamples lost).

(** src/records/exit.rs:19-33. *)
Definition parse_exit : M S exit :=
  pid <- u32 ;; ppid <- u32 ;; tid <- u32 ;; ptid <- u32 ;; time <- u64 ;;
  ret (mkExit pid ppid tid ptid time).

(** src/records/throttle.rs:22-34. *)
Definition parse_throttle : M S throttle :=
  time <- u64 ;; id <- u64 ;; stream_id <- u64 ;;
  ret (mkThrottle time id stream_id).

(** src/records/aux_record.rs:73-95. *)
Definition parse_aux : M S aux :=
  off <- u64 ;; size <- u64 ;; flags <- u64 ;; ret (mkAux off size flags).

(** src/records/itrace_start.rs:19-30. *)
Definition parse_itrace_start : M S itrace_start :=
  pid <- u32 ;; tid <- u32 ;; ret (mkItraceStart pid tid).

(** src/records/switch_cpu_wide.rs:56-71. *)
Definition parse_switch_cpu_wide : M S switch_cpu_wide :=
  pid <- u32 ;; tid <- u32 ;; c <- get_cfg ;;
  if negb (N.land (misc c) MISC_SWITCH_OUT =? 0)
  then ret (SwOut pid tid) else ret (SwIn pid tid).

(** src/records/bpf_event.rs:41-64. *)
Definition parse_bpf_event : M S bpf_event :=
  ty <- u16 ;; flags <- u16 ;; id <- u32 ;; tag <- parse_array PB 8 ;;
  ret (mkBpf ty flags id tag).

(** src/records/aux_output_hw_id.rs:21-29. *)
Definition parse_aux_output_hw_id : M S aux_output_hw_id :=
  h <- u64 ;; ret (mkHwId h).

(** src/records/mmap.rs:76-91. *)
Definition parse_mmap : M S (mmap cow) :=
  pid <- u32 ;; tid <- u32 ;; addr <- u64 ;; l <- u64 ;; pgoff <- u64 ;;
  filename <- parse_rest_trim_nul PB ;;
  ret (mkMmap pid tid addr l pgoff filename).

(** src/records/mmap2.rs:185-214. *)
Definition parse_mmap_detail : M S mmap_detail :=
  c <- get_cfg ;;
  if negb (N.land (misc c) MISC_MMAP_BUILD_ID =? 0) then
    l <- u8 ;; u8 ;;; u16 ;;; build_id <- parse_array PB 20 ;;
    if 20 <? l then fail (custom_error KInvalidRecord (MsgBuildIdLen l))
    else ret (MdBuildId build_id l)
  else
    maj <- u32 ;; min <- u32 ;; ino <- u64 ;; gen <- u64 ;;
    ret (MdDefault maj min ino gen).

(** src/records/mmap2.rs:165-183. *)
Definition parse_mmap2 : M S (mmap2 cow) :=
  pid <- u32 ;; tid <- u32 ;; addr <- u64 ;; l <- u64 ;; pgoff <- u64 ;;
  detail <- parse_mmap_detail ;;
  prot <- u32 ;; flags <- u32 ;;
  filename <- parse_rest_trim_nul PB ;;
  ret (mkMmap2 pid tid addr l pgoff detail prot flags filename).

(** src/records/comm.rs:57-69. *)
Definition parse_comm : M S (comm cow) :=
  pid <- u32 ;; tid <- u32 ;; c <- parse_rest_trim_nul PB ;;
  ret (mkComm pid tid c).

(** src/records/ksymbol.rs:83-117. *)
Definition parse_ksymbol : M S (ksymbol cow) :=
  addr <- u64 ;; l <- u32 ;; ty <- u16 ;; flags <- u16 ;;
  name <- parse_rest_trim_nul PB ;;
  ret (mkKsymbol addr l ty flags name).

(** src/records/cgroup.rs:41-52. *)
Definition parse_cgroup : M S (cgroup cow) :=
  id <- u64 ;; path <- parse_rest_trim_nul PB ;; ret (mkCgroup id path).

(** src/records/text_poke.rs:35-63. *)
Definition parse_text_poke : M S (text_poke cow) :=
  addr <- u64 ;; old_len <- u16 ;; new_len <- u16 ;;
  let full_len := round_up_mod (old_len + new_len) 4 8 in
  bytes <- parse_bytes pl PB full_len ;;
  halves <- lift (cow_split_at 1 bytes old_len) ;;
  new <- lift (cow_truncate (snd halves) new_len) ;;
  ret (mkTextPoke addr (fst halves) new).

(** [NamespaceEntry], src/records/namespaces.rs:74-85. *)
Definition parse_ns_entry : M S ns_entry :=
  dev <- u64 ;; inode <- u64 ;; ret (mkNs dev inode).

(** [SampleId], src/records/mod.rs:149-181. *)
Definition parse_sample_id : M S sample_id :=
  c <- get_cfg ;;
  let sty := sample_type c in
  if negb (sample_id_all c) then ret sample_id_default
  else
    pid <- parse_if (contains sty SF_TID) u32 ;;
    tid <- parse_if (contains sty SF_TID) u32 ;;
    time <- parse_if (contains sty SF_TIME) u64 ;;
    id <- parse_if (contains sty SF_ID) u64 ;;
    stream_id <- parse_if (contains sty SF_STREAM_ID) u64 ;;
    cpu <- parse_if (contains sty SF_CPU) (a <- u32 ;; u32 ;;; ret a) ;;
    identifier <- parse_if (contains sty SF_IDENTIFIER) u64 ;;
    ret (mkSampleId pid tid time (opt_or id identifier) stream_id cpu).

(** [ReadValue], src/records/read.rs:358-397. *)
Definition parse_read_value : M S read_value :=
  c <- get_cfg ;;
  let rf := read_format c in
  if contains rf RF_GROUP then fail (custom_error KUnsupportedConfig MsgSingleReadGroup)
  else if negb (difference rf RF_ALL =? 0)
  then fail (custom_error KUnsupportedConfig MsgReadFormatFlags)
  else
    value <- u64 ;;
    enabled <- parse_if (contains rf RF_TIME_ENABLED) u64 ;;
    running <- parse_if (contains rf RF_TIME_RUNNING) u64 ;;
    id <- parse_if (contains rf RF_ID) u64 ;;
    lost <- parse_if (contains rf RF_LOST) u64 ;;
    ret (mkReadValue rf value (unwrap_or enabled 0) (unwrap_or running 0)
           (unwrap_or id 0) (unwrap_or lost 0)).

(** [ReadGroup], src/records/read.rs:399-447. *)
Definition parse_read_group : M S (read_group cow) :=
  c <- get_cfg ;;
  let rf := read_format c in
  if negb (contains rf RF_GROUP) then fail (custom_error KUnsupportedConfig MsgGroupReadSingle)
  else if negb (difference rf RF_ALL =? 0)
  then fail (custom_error KUnsupportedConfig MsgReadFormatFlags)
  else
    nr <- u64 ;;
    let nr := as_usize pl nr in
    enabled <- parse_if (contains rf RF_TIME_ENABLED) u64 ;;
    running <- parse_if (contains rf RF_TIME_RUNNING) u64 ;;
    match checked_mul pl nr (element_len rf) with
    | None => fail (custom_error KInvalidRecord MsgGroupTooLarge)
    | Some data_len =>
        data <- parse_slice pl PB (elem_u64 pl) data_len ;;
        ret (mkReadGroup rf (unwrap_or enabled 0) (unwrap_or running 0) data)
    end.

(** [Read], src/records/read.rs:449-461. *)
Definition parse_read : M S read :=
  pid <- u32 ;; tid <- u32 ;; values <- parse_read_value ;;
  ret (mkRead pid tid values).

End Parsers.

(** [NamespaceEntry] as an element of [parse_slice]: [repr(C)], dev then inode. *)
Definition elem_ns (pl : platform) : elem ns_entry :=
  mkElem 16 (fun S PB => parse_ns_entry pl PB)
    (fun l => mkNs (from_ne pl (take 8 l)) (from_ne pl (drop 8 l))).

(** src/records/namespaces.rs:87-104. *)
Definition parse_namespaces (pl : platform) {S : Type} (PB : parsebuf S)
  : M S (namespaces cow) :=
  pid <- parse_u32 pl PB ;; tid <- parse_u32 pl PB ;; n <- parse_u64 pl PB ;;
  l <- parse_slice pl PB (elem_ns pl) (as_usize pl n) ;;
  ret (mkNamespaces pid tid l).

(** Indices of linux/perf_event.h as used in src/records/namespaces.rs:44-71. *)
Definition NET_NS_INDEX : N := 0.
Definition UTS_NS_INDEX : N := 1.
Definition IPC_NS_INDEX : N := 2.
Definition PID_NS_INDEX : N := 3.
Definition USER_NS_INDEX : N := 4.
Definition MNT_NS_INDEX : N := 5.
Definition CGROUP_NS_INDEX : N := 6.

Definition ns_network (n : namespaces cow) : option ns_entry :=
  get NET_NS_INDEX (cow_list (nss_entries n)).
Definition ns_uts (n : namespaces cow) : option ns_entry :=
  get USER_NS_INDEX (cow_list (nss_entries n)).
Definition ns_ipc (n : namespaces cow) : option ns_entry :=
  get IPC_NS_INDEX (cow_list (nss_entries n)).
Definition ns_pid (n : namespaces cow) : option ns_entry :=
  get PID_NS_INDEX (cow_list (nss_entries n)).
Definition ns_user (n : namespaces cow) : option ns_entry :=
  get USER_NS_INDEX (cow_list (nss_entries n)).
Definition ns_cgroup (n : namespaces cow) : option ns_entry :=
  get CGROUP_NS_INDEX (cow_list (nss_entries n)).

(** [Mmap2] accessors, src/records/mmap2.rs:96-136; [build_id] slices
    [build_id[..len]] of a 20 byte array and panics if out of range. *)
Definition m2_maj {F} (m : mmap2 F) : option N :=
  match m2_detail m with MdDefault x _ _ _ => Some x | _ => None end.
Definition m2_min {F} (m : mmap2 F) : option N :=
  match m2_detail m with MdDefault _ x _ _ => Some x | _ => None end.
Definition m2_ino {F} (m : mmap2 F) : option N :=
  match m2_detail m with MdDefault _ _ x _ => Some x | _ => None end.
Definition m2_ino_generation {F} (m : mmap2 F) : option N :=
  match m2_detail m with MdDefault _ _ _ x => Some x | _ => None end.
Definition m2_build_id {F} (m : mmap2 F) : out (option (list N)) :=
  match m2_detail m with
  | MdBuildId b l => if len b <? l then Panic else Ok (Some (take l b))
  | _ => Ok None
  end.

(** [into_mmap], [to_mmap], [From<Mmap2>], src/records/mmap2.rs:139-154,
    src/records/mmap.rs:93-97. *)
Definition into_mmap {F} (m : mmap2 F) : mmap F :=
  mkMmap (m2_pid m) (m2_tid m) (m2_addr m) (m2_len m) (m2_pgoff m) (m2_filename m).
