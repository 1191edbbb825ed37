(** [Sample], src/records/sample.rs. *)
From Coq Require Import NArith List Bool.
From Verif Require Import Base Types Platform Config Buf Parser Records.
Import ListNotations.
Open Scope N_scope.

(** [BranchEntry], src/records/sample.rs:407 ([perf_branch_entry]: two u64 and a
    u64 of bit fields, kept as the numeric value of the host's u64). *)
Record branch_entry : Type := mkBranch { be_from : N; be_to : N; be_flags : N }.

(** [Registers], src/records/sample.rs:304-315. *)
Record registers (F : Type -> Type) : Type := mkRegs { rg_abi : N; rg_mask : N; rg_regs : F N }.
Arguments mkRegs {F} _ _ _. Arguments rg_abi {F} _. Arguments rg_mask {F} _.
Arguments rg_regs {F} _.

(** [Sample], src/records/sample.rs:24-54 (option struct as options). *)
Record sample (F : Type -> Type) : Type := mkSample {
  s_ip : option N;
  s_pid : option N;
  s_tid : option N;
  s_time : option N;
  s_addr : option N;
  s_id : option N;
  s_stream_id : option N;
  s_cpu : option N;
  s_period : option N;
  s_values : option (read_group F);
  s_callchain : option (F N);
  s_raw : option (F N);
  s_lbr_hw_index : option N;
  s_lbr : option (F branch_entry);
  s_regs_user : option (registers F);
  s_stack_user : option (F N);
  s_weight : option N;
  s_data_src : option N;
  s_transaction : option N;
  s_regs_intr : option (registers F);
  s_phys_addr : option N;
  s_aux : option (F N);
  s_cgroup : option N;
  s_data_page_size : option N;
  s_code_page_size : option N;
}.
Arguments mkSample {F}.
Arguments s_ip {F} _. Arguments s_pid {F} _. Arguments s_tid {F} _. Arguments s_time {F} _.
Arguments s_addr {F} _. Arguments s_id {F} _. Arguments s_stream_id {F} _.
Arguments s_cpu {F} _. Arguments s_period {F} _. Arguments s_values {F} _.
Arguments s_callchain {F} _. Arguments s_raw {F} _. Arguments s_lbr_hw_index {F} _.
Arguments s_lbr {F} _. Arguments s_regs_user {F} _. Arguments s_stack_user {F} _.
Arguments s_weight {F} _. Arguments s_data_src {F} _. Arguments s_transaction {F} _.
Arguments s_regs_intr {F} _. Arguments s_phys_addr {F} _. Arguments s_aux {F} _.
Arguments s_cgroup {F} _. Arguments s_data_page_size {F} _. Arguments s_code_page_size {F} _.

(** Truncation of the stack, src/records/sample.rs:240-243. *)
Definition stack_truncate (d : cow N) (n : N) : out (cow N) :=
  match d with
  | Owned l => Ok (Owned (take n l))
  | Borrowed a l => if len l <? n then Panic else Ok (Borrowed a (take n l))
  end.

Section Parsers.
Context (pl : platform) {S : Type} (PB : parsebuf S).

Let u32 := parse_u32 pl PB.
Let u64 := parse_u64 pl PB.

(** [BranchEntry], src/records/sample.rs:456-469. *)
Definition parse_branch_entry : M S branch_entry :=
  from <- u64 ;; to <- u64 ;; flags <- u64 ;; ret (mkBranch from to flags).
End Parsers.

(** [BranchEntry] as an element of [parse_slice]. *)
Definition elem_branch (pl : platform) : elem branch_entry :=
  mkElem 24 (fun S PB => parse_branch_entry pl PB)
    (fun l => mkBranch (from_ne pl (take 8 l)) (from_ne pl (take 8 (drop 8 l)))
                       (from_ne pl (drop 16 l))).

Section Parsers2.
Context (pl : platform) {S : Type} (PB : parsebuf S).

Let u32 := parse_u32 pl PB.
Let u64 := parse_u64 pl PB.

(** [Registers::parse], src/records/sample.rs:353-363; [Parse for SampleRegsAbi],
    src/records/sample.rs:328-331, 366-374, is [u64]. *)
Definition parse_registers (mask : N) : M S (registers cow) :=
  abi <- u64 ;;
  regs <- parse_slice pl PB (elem_u64 pl) (popcount mask) ;;
  ret (mkRegs abi mask regs).

(** [Registers::parse_user] and [parse_intr], src/records/sample.rs:335-351.
    [parse_sample] has them written out: the configuration is the one it read. *)
Definition parse_regs_user : M S (registers cow) :=
  c <- get_cfg ;; parse_registers (c_regs_user c).
Definition parse_regs_intr : M S (registers cow) :=
  c <- get_cfg ;; parse_registers (c_regs_intr c).

(** The READ field, src/records/sample.rs:191-197. *)
Definition parse_sample_read : M S (read_group cow) :=
  c <- get_cfg ;;
  if contains (read_format c) RF_GROUP then parse_read_group pl PB
  else v <- parse_read_value pl PB ;; ret (group_of_value v).

(** The CALLCHAIN field, src/records/sample.rs:198-201. *)
Definition parse_callchain : M S (cow N) :=
  nr <- u64 ;; parse_slice pl PB (elem_u64 pl) (as_usize pl nr).

(** The RAW field, src/records/sample.rs:202-207. *)
Definition parse_raw : M S (cow N) :=
  parse_padded PB 8 (size <- u32 ;; parse_bytes pl PB (as_usize pl size)).

(** The BRANCH_STACK field, src/records/sample.rs:208-214. *)
Definition parse_lbr (hw_index : bool) : M S (cow branch_entry * option N) :=
  nr <- u64 ;;
  let nr := as_usize pl nr in
  hw <- parse_if hw_index u64 ;;
  lbr <- parse_slice pl PB (elem_branch pl) nr ;;
  ret (lbr, hw).

(** The STACK_USER field, src/records/sample.rs:222-246. *)
Definition parse_stack_user : M S (cow N) :=
  size <- u64 ;;
  let size := as_usize pl size in
  data <- parse_bytes pl PB size ;;
  dyn_size <- (if size =? 0 then ret 0 else d <- u64 ;; ret (as_usize pl d)) ;;
  if len (cow_list data) <? dyn_size
  then fail (custom_error KInvalidRecord MsgDynSize)
  else lift (stack_truncate data dyn_size).

(** The AUX field, src/records/sample.rs:257-260. *)
Definition parse_sample_aux : M S (cow N) :=
  size <- u64 ;; parse_bytes pl PB (as_usize pl size).

(** [Sample::parse], src/records/sample.rs:169-290.  [Parse] for [DataSource] and
    [Txn], src/records/sample.rs:569-576, 710-718, is [u64]. *)
Definition parse_sample : M S (sample cow) :=
  c <- get_cfg ;;
  let sty := sample_type c in
  let hw_index := branch_hw_index c in
  id0 <- parse_if (contains sty SF_IDENTIFIER) u64 ;;
  ip <- parse_if (contains sty SF_IP) u64 ;;
  pid <- parse_if (contains sty SF_TID) u32 ;;
  tid <- parse_if (contains sty SF_TID) u32 ;;
  time <- parse_if (contains sty SF_TIME) u64 ;;
  addr <- parse_if (contains sty SF_ADDR) u64 ;;
  id1 <- parse_if (contains sty SF_ID) u64 ;;
  let id := opt_or id1 id0 in
  stream_id <- parse_if (contains sty SF_STREAM_ID) u64 ;;
  cpu <- parse_if (contains sty SF_CPU) (a <- u32 ;; u32 ;;; ret a) ;;
  period <- parse_if (contains sty SF_PERIOD) u64 ;;
  values <- parse_if (contains sty SF_READ) parse_sample_read ;;
  callchain <- parse_if (contains sty SF_CALLCHAIN) parse_callchain ;;
  raw <- parse_if (contains sty SF_RAW) parse_raw ;;
  lbr <- parse_if (contains sty SF_BRANCH_STACK) (parse_lbr hw_index) ;;
  regs_user <- parse_if (contains sty SF_REGS_USER) (parse_registers (c_regs_user c)) ;;
  stack_user <- parse_if (contains sty SF_STACK_USER) parse_stack_user ;;
  weight <- parse_if (contains sty SF_WEIGHT) u64 ;;
  data_src <- parse_if (contains sty SF_DATA_SRC) u64 ;;
  transaction <- parse_if (contains sty SF_TRANSACTION) u64 ;;
  regs_intr <- parse_if (contains sty SF_REGS_INTR) (parse_registers (c_regs_intr c)) ;;
  phys_addr <- parse_if (contains sty SF_PHYS_ADDR) u64 ;;
  cgroup <- parse_if (contains sty SF_CGROUP) u64 ;;
  data_page_size <- parse_if (contains sty SF_DATA_PAGE_SIZE) u64 ;;
  code_page_size <- parse_if (contains sty SF_CODE_PAGE_SIZE) u64 ;;
  aux <- parse_if (contains sty SF_AUX) parse_sample_aux ;;
  ret (mkSample ip pid tid time addr id stream_id cpu period values callchain raw
         (match lbr with Some (_, hw) => hw | None => None end)
         (match lbr with Some (l, _) => Some l | None => None end)
         regs_user stack_user weight data_src transaction regs_intr phys_addr aux
         cgroup data_page_size code_page_size).

End Parsers2.

(** [SampleId::from_sample] and the [From] impls that call it,
    src/records/mod.rs:85-94, 189-199. *)
Definition sample_id_of_sample {F} (s : sample F) : sample_id :=
  mkSampleId (s_pid s) (s_tid s) (s_time s) (s_id s) (s_stream_id s) (s_cpu s).
