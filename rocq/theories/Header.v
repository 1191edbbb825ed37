(** Constants of the kernel interface, as linux/perf_event.h gives them. *)
From Coq Require Import NArith String List.
Import ListNotations.
Open Scope N_scope.

Definition constants := list (string * N).

(** Enum perf_event_sample_format, lines 140-164. *)
Definition h_sample : constants :=
  [("PERF_SAMPLE_IP", 2 ^ 0); ("PERF_SAMPLE_TID", 2 ^ 1); ("PERF_SAMPLE_TIME", 2 ^ 2);
   ("PERF_SAMPLE_ADDR", 2 ^ 3); ("PERF_SAMPLE_READ", 2 ^ 4); ("PERF_SAMPLE_CALLCHAIN", 2 ^ 5);
   ("PERF_SAMPLE_ID", 2 ^ 6); ("PERF_SAMPLE_CPU", 2 ^ 7); ("PERF_SAMPLE_PERIOD", 2 ^ 8);
   ("PERF_SAMPLE_STREAM_ID", 2 ^ 9); ("PERF_SAMPLE_RAW", 2 ^ 10);
   ("PERF_SAMPLE_BRANCH_STACK", 2 ^ 11); ("PERF_SAMPLE_REGS_USER", 2 ^ 12);
   ("PERF_SAMPLE_STACK_USER", 2 ^ 13); ("PERF_SAMPLE_WEIGHT", 2 ^ 14);
   ("PERF_SAMPLE_DATA_SRC", 2 ^ 15); ("PERF_SAMPLE_IDENTIFIER", 2 ^ 16);
   ("PERF_SAMPLE_TRANSACTION", 2 ^ 17); ("PERF_SAMPLE_REGS_INTR", 2 ^ 18);
   ("PERF_SAMPLE_PHYS_ADDR", 2 ^ 19); ("PERF_SAMPLE_AUX", 2 ^ 20);
   ("PERF_SAMPLE_CGROUP", 2 ^ 21); ("PERF_SAMPLE_DATA_PAGE_SIZE", 2 ^ 22);
   ("PERF_SAMPLE_CODE_PAGE_SIZE", 2 ^ 23); ("PERF_SAMPLE_WEIGHT_STRUCT", 2 ^ 24)]%string.

(** Enum perf_event_read_format, lines 359-363. *)
Definition h_format : constants :=
  [("PERF_FORMAT_TOTAL_TIME_ENABLED", 2 ^ 0); ("PERF_FORMAT_TOTAL_TIME_RUNNING", 2 ^ 1);
   ("PERF_FORMAT_ID", 2 ^ 2); ("PERF_FORMAT_GROUP", 2 ^ 3); ("PERF_FORMAT_LOST", 2 ^ 4)]%string.

(** Branch types, lines 245-260. *)
Definition h_branch : constants :=
  [("PERF_BR_UNKNOWN", 0); ("PERF_BR_COND", 1); ("PERF_BR_UNCOND", 2); ("PERF_BR_IND", 3);
   ("PERF_BR_CALL", 4); ("PERF_BR_IND_CALL", 5); ("PERF_BR_RET", 6); ("PERF_BR_SYSCALL", 7);
   ("PERF_BR_SYSRET", 8); ("PERF_BR_COND_CALL", 9); ("PERF_BR_COND_RET", 10);
   ("PERF_BR_ERET", 11); ("PERF_BR_IRQ", 12); ("PERF_BR_SERROR", 13); ("PERF_BR_NO_TX", 14);
   ("PERF_BR_EXTEND_ABI", 15)]%string.

(** Enum perf_sample_regs_abi, lines 309-311. *)
Definition h_abi : constants :=
  [("PERF_SAMPLE_REGS_ABI_NONE", 0); ("PERF_SAMPLE_REGS_ABI_32", 1);
   ("PERF_SAMPLE_REGS_ABI_64", 2)]%string.

(** Transaction flags, lines 319-326. *)
Definition h_txn : constants :=
  [("PERF_TXN_ELISION", 2 ^ 0); ("PERF_TXN_TRANSACTION", 2 ^ 1); ("PERF_TXN_SYNC", 2 ^ 2);
   ("PERF_TXN_ASYNC", 2 ^ 3); ("PERF_TXN_RETRY", 2 ^ 4); ("PERF_TXN_CONFLICT", 2 ^ 5);
   ("PERF_TXN_CAPACITY_WRITE", 2 ^ 6); ("PERF_TXN_CAPACITY_READ", 2 ^ 7)]%string.

(** Enum perf_record_ksymbol_type, lines 1211-1217. *)
Definition h_ksymbol : constants :=
  [("PERF_RECORD_KSYMBOL_TYPE_UNKNOWN", 0); ("PERF_RECORD_KSYMBOL_TYPE_BPF", 1);
   ("PERF_RECORD_KSYMBOL_TYPE_OOL", 2)]%string.

(** Enum perf_bpf_event_type, lines 1224-1226. *)
Definition h_bpf : constants :=
  [("PERF_BPF_EVENT_UNKNOWN", 0); ("PERF_BPF_EVENT_PROG_LOAD", 1);
   ("PERF_BPF_EVENT_PROG_UNLOAD", 2)]%string.

(** AUX flags, lines 1248-1252. *)
Definition h_aux : constants :=
  [("PERF_AUX_FLAG_TRUNCATED", 1); ("PERF_AUX_FLAG_OVERWRITE", 2);
   ("PERF_AUX_FLAG_PARTIAL", 4); ("PERF_AUX_FLAG_COLLISION", 8);
   ("PERF_AUX_FLAG_PMU_FORMAT_TYPE_MASK", 65280)]%string.

(** Formats of CoreSight traces, lines 1255-1256. *)
Definition h_coresight : constants :=
  [("PERF_AUX_FLAG_CORESIGHT_FORMAT_CORESIGHT", 0); ("PERF_AUX_FLAG_CORESIGHT_FORMAT_RAW", 256)]%string.

(** Memory operations, lines 1302-1306. *)
Definition h_mem_op : constants :=
  [("PERF_MEM_OP_NA", 1); ("PERF_MEM_OP_LOAD", 2); ("PERF_MEM_OP_STORE", 4);
   ("PERF_MEM_OP_PFETCH", 8); ("PERF_MEM_OP_EXEC", 16)]%string.

(** Memory levels, lines 1316-1329. *)
Definition h_mem_lvl : constants :=
  [("PERF_MEM_LVL_NA", 1); ("PERF_MEM_LVL_HIT", 2); ("PERF_MEM_LVL_MISS", 4);
   ("PERF_MEM_LVL_L1", 8); ("PERF_MEM_LVL_LFB", 16); ("PERF_MEM_LVL_L2", 32);
   ("PERF_MEM_LVL_L3", 64); ("PERF_MEM_LVL_LOC_RAM", 128); ("PERF_MEM_LVL_REM_RAM1", 256);
   ("PERF_MEM_LVL_REM_RAM2", 512); ("PERF_MEM_LVL_REM_CCE1", 1024);
   ("PERF_MEM_LVL_REM_CCE2", 2048); ("PERF_MEM_LVL_IO", 4096); ("PERF_MEM_LVL_UNC", 8192)]%string.

(** Memory level numbers, lines 1335-1346. *)
Definition h_mem_lvlnum : constants :=
  [("PERF_MEM_LVLNUM_L1", 1); ("PERF_MEM_LVLNUM_L2", 2); ("PERF_MEM_LVLNUM_L3", 3);
   ("PERF_MEM_LVLNUM_L4", 4); ("PERF_MEM_LVLNUM_CXL", 9); ("PERF_MEM_LVLNUM_IO", 10);
   ("PERF_MEM_LVLNUM_ANY_CACHE", 11); ("PERF_MEM_LVLNUM_LFB", 12);
   ("PERF_MEM_LVLNUM_RAM", 13); ("PERF_MEM_LVLNUM_PMEM", 14); ("PERF_MEM_LVLNUM_NA", 15)]%string.

(** Snoop modes, lines 1351-1355. *)
Definition h_mem_snoop : constants :=
  [("PERF_MEM_SNOOP_NA", 1); ("PERF_MEM_SNOOP_NONE", 2); ("PERF_MEM_SNOOP_HIT", 4);
   ("PERF_MEM_SNOOP_MISS", 8); ("PERF_MEM_SNOOP_HITM", 16)]%string.

(** Further snoop modes, lines 1358-1359. *)
Definition h_mem_snoopx : constants :=
  [("PERF_MEM_SNOOPX_FWD", 1); ("PERF_MEM_SNOOPX_PEER", 2)]%string.

(** Locks, lines 1363-1364. *)
Definition h_mem_lock : constants :=
  [("PERF_MEM_LOCK_NA", 1); ("PERF_MEM_LOCK_LOCKED", 2)]%string.

(** TLB accesses, lines 1368-1374. *)
Definition h_mem_tlb : constants :=
  [("PERF_MEM_TLB_NA", 1); ("PERF_MEM_TLB_HIT", 2); ("PERF_MEM_TLB_MISS", 4);
   ("PERF_MEM_TLB_L1", 8); ("PERF_MEM_TLB_L2", 16); ("PERF_MEM_TLB_WK", 32);
   ("PERF_MEM_TLB_OS", 64)]%string.

(** Blocked accesses, lines 1378-1380. *)
Definition h_mem_blk : constants :=
  [("PERF_MEM_BLK_NA", 1); ("PERF_MEM_BLK_DATA", 2); ("PERF_MEM_BLK_ADDR", 4)]%string.

(** [PERF_TXN_ABORT_MASK], line 332; flags of KSYMBOL records, line 1221. *)
Definition h_txn_abort : N := N.shiftl 4294967295 32.
Definition h_ksymbol_flags : constants := [("PERF_RECORD_KSYMBOL_FLAGS_UNREGISTER", 2 ^ 0)]%string.

(** [PERF_MEM_*_SHIFT] and [PERF_MEM_S], lines 1307-1392. *)
Definition h_shifts : constants :=
  [("OP", 0); ("LVL", 5); ("SNOOP", 19); ("LOCK", 24); ("TLB", 26); ("LVLNUM", 33); ("REMOTE", 37);
   ("SNOOPX", 38); ("BLK", 40); ("HOPS", 43)]%string.
