(** The named constants of the flag types ([bitflags!]) and codes ([c_enum!]). *)
From Coq Require Import NArith String List.
From Verif Require Import Base Config Access.
Import ListNotations.
Open Scope N_scope.

Definition names := list (string * N).

(** [perf_event_open_sys::bindings], generated from linux/perf_event.h; not part of /repo. *)
Definition PERF_SAMPLE_REGS_ABI_NONE : N := 0.
Definition PERF_SAMPLE_REGS_ABI_32 : N := 1.
Definition PERF_SAMPLE_REGS_ABI_64 : N := 2.
Definition PERF_BR_UNKNOWN : N := 0.
Definition PERF_BR_COND : N := 1.
Definition PERF_BR_UNCOND : N := 2.
Definition PERF_BR_IND : N := 3.
Definition PERF_BR_CALL : N := 4.
Definition PERF_BR_IND_CALL : N := 5.
Definition PERF_BR_RET : N := 6.
Definition PERF_BR_SYSCALL : N := 7.
Definition PERF_BR_COND_CALL : N := 9.
Definition PERF_BR_COND_RET : N := 10.
Definition PERF_MEM_OP_NA : N := 1.
Definition PERF_MEM_OP_LOAD : N := 2.
Definition PERF_MEM_OP_STORE : N := 4.
Definition PERF_MEM_OP_PFETCH : N := 8.
Definition PERF_MEM_OP_EXEC : N := 16.
Definition PERF_MEM_LVL_NA : N := 1.
Definition PERF_MEM_LVL_HIT : N := 2.
Definition PERF_MEM_LVL_MISS : N := 4.
Definition PERF_MEM_LVL_L1 : N := 8.
Definition PERF_MEM_LVL_LFB : N := 16.
Definition PERF_MEM_LVL_L2 : N := 32.
Definition PERF_MEM_LVL_L3 : N := 64.
Definition PERF_MEM_LVL_LOC_RAM : N := 128.
Definition PERF_MEM_LVL_REM_RAM1 : N := 256.
Definition PERF_MEM_LVL_REM_RAM2 : N := 512.
Definition PERF_MEM_LVL_REM_CCE1 : N := 1024.
Definition PERF_MEM_LVL_REM_CCE2 : N := 2048.
Definition PERF_MEM_LVL_IO : N := 4096.
Definition PERF_MEM_LVL_UNC : N := 8192.
Definition PERF_MEM_LOCK_NA : N := 1.
Definition PERF_MEM_LOCK_LOCKED : N := 2.
Definition PERF_MEM_TLB_NA : N := 1.
Definition PERF_MEM_TLB_HIT : N := 2.
Definition PERF_MEM_TLB_MISS : N := 4.
Definition PERF_MEM_TLB_L1 : N := 8.
Definition PERF_MEM_TLB_L2 : N := 16.
Definition PERF_MEM_TLB_WK : N := 32.
Definition PERF_MEM_TLB_OS : N := 64.
Definition PERF_MEM_SNOOPX_FWD : N := 1.
Definition PERF_MEM_SNOOPX_PEER : N := 2.
Definition PERF_MEM_BLK_NA : N := 1.
Definition PERF_MEM_BLK_DATA : N := 2.
Definition PERF_MEM_BLK_ADDR : N := 4.
Definition PERF_MEM_SNOOP_NA : N := 1.
Definition PERF_MEM_SNOOP_NONE : N := 2.
Definition PERF_MEM_SNOOP_HIT : N := 4.
Definition PERF_MEM_SNOOP_MISS : N := 8.
Definition PERF_MEM_SNOOP_HITM : N := 16.
Definition PERF_TXN_ELISION : N := 2 ^ 0.
Definition PERF_TXN_TRANSACTION : N := 2 ^ 1.
Definition PERF_TXN_SYNC : N := 2 ^ 2.
Definition PERF_TXN_ASYNC : N := 2 ^ 3.
Definition PERF_TXN_RETRY : N := 2 ^ 4.
Definition PERF_TXN_CONFLICT : N := 2 ^ 5.
Definition PERF_TXN_CAPACITY_WRITE : N := 2 ^ 6.
Definition PERF_TXN_CAPACITY_READ : N := 2 ^ 7.
Definition PERF_TXN_ABORT_MASK : N := 4294967295 * 2 ^ 32.
Definition PERF_MEM_LVLNUM_L1 : N := 1.
Definition PERF_MEM_LVLNUM_L2 : N := 2.
Definition PERF_MEM_LVLNUM_L3 : N := 3.
Definition PERF_MEM_LVLNUM_L4 : N := 4.
Definition PERF_MEM_LVLNUM_ANY_CACHE : N := 11.
Definition PERF_MEM_LVLNUM_LFB : N := 12.
Definition PERF_MEM_LVLNUM_RAM : N := 13.
Definition PERF_MEM_LVLNUM_PMEM : N := 14.
Definition PERF_MEM_LVLNUM_NA : N := 15.
Definition PERF_AUX_FLAG_TRUNCATED : N := 1.
Definition PERF_AUX_FLAG_OVERWRITE : N := 2.
Definition PERF_AUX_FLAG_PARTIAL : N := 4.
Definition PERF_AUX_FLAG_COLLISION : N := 8.
Definition PERF_AUX_FLAG_PMU_FORMAT_TYPE_MASK : N := 65280.
Definition PERF_AUX_FLAG_CORESIGHT_FORMAT_CORESIGHT : N := 0.
Definition PERF_AUX_FLAG_CORESIGHT_FORMAT_RAW : N := 256.
Definition PERF_RECORD_KSYMBOL_TYPE_UNKNOWN : N := 0.
Definition PERF_RECORD_KSYMBOL_TYPE_BPF : N := 1.
Definition PERF_RECORD_KSYMBOL_TYPE_OOL : N := 2.
Definition PERF_RECORD_KSYMBOL_FLAGS_UNREGISTER : N := 1.
Definition PERF_BPF_EVENT_UNKNOWN : N := 0.
Definition PERF_BPF_EVENT_PROG_LOAD : N := 1.
Definition PERF_BPF_EVENT_PROG_UNLOAD : N := 2.

(** [SampleFlags], src/flags.rs:18-47. *)
Definition names_sample : names :=
  [("IP", SF_IP); ("TID", SF_TID); ("TIME", SF_TIME); ("ADDR", SF_ADDR); ("READ", SF_READ);
   ("CALLCHAIN", SF_CALLCHAIN); ("ID", SF_ID); ("CPU", SF_CPU); ("PERIOD", SF_PERIOD);
   ("STREAM_ID", SF_STREAM_ID); ("RAW", SF_RAW); ("BRANCH_STACK", SF_BRANCH_STACK);
   ("REGS_USER", SF_REGS_USER); ("STACK_USER", SF_STACK_USER); ("WEIGHT", SF_WEIGHT);
   ("DATA_SRC", SF_DATA_SRC); ("IDENTIFIER", SF_IDENTIFIER); ("TRANSACTION", SF_TRANSACTION);
   ("REGS_INTR", SF_REGS_INTR); ("PHYS_ADDR", SF_PHYS_ADDR); ("AUX", SF_AUX);
   ("CGROUP", SF_CGROUP); ("DATA_PAGE_SIZE", SF_DATA_PAGE_SIZE);
   ("CODE_PAGE_SIZE", SF_CODE_PAGE_SIZE); ("WEIGHT_STRUCT", SF_WEIGHT_STRUCT)]%string.

(** [ReadFormat], src/flags.rs:59-75. *)
Definition names_format : names :=
  [("TOTAL_TIME_ENABLED", RF_TIME_ENABLED); ("TOTAL_TIME_RUNNING", RF_TIME_RUNNING);
   ("ID", RF_ID); ("GROUP", RF_GROUP); ("LOST", RF_LOST)]%string.

(** [SampleRegsAbi], src/records/sample.rs:320-324. *)
Definition codes_abi : names :=
  [("NONE", PERF_SAMPLE_REGS_ABI_NONE); ("ABI_32", PERF_SAMPLE_REGS_ABI_32);
   ("ABI_64", PERF_SAMPLE_REGS_ABI_64)]%string.

(** [BranchType], src/records/sample.rs:384-395. *)
Definition codes_branch : names :=
  [("UNKNOWN", PERF_BR_UNKNOWN); ("COND", PERF_BR_COND); ("UNCOND", PERF_BR_UNCOND);
   ("IND", PERF_BR_IND); ("CALL", PERF_BR_CALL); ("IND_CALL", PERF_BR_IND_CALL);
   ("RET", PERF_BR_RET); ("SYSCALL", PERF_BR_SYSCALL); ("COND_CALL", PERF_BR_COND_CALL);
   ("COND_RET", PERF_BR_COND_RET)]%string.

(** [MemOp], src/records/sample.rs:584-590. *)
Definition names_mem_op : names :=
  [("NA", PERF_MEM_OP_NA); ("LOAD", PERF_MEM_OP_LOAD); ("STORE", PERF_MEM_OP_STORE);
   ("PFETCH", PERF_MEM_OP_PFETCH); ("EXEC", PERF_MEM_OP_EXEC)]%string.

(** [MemLevel], src/records/sample.rs:596-611. *)
Definition names_mem_lvl : names :=
  [("NA", PERF_MEM_LVL_NA); ("HIT", PERF_MEM_LVL_HIT); ("MISS", PERF_MEM_LVL_MISS);
   ("L1", PERF_MEM_LVL_L1); ("LFB", PERF_MEM_LVL_LFB); ("L2", PERF_MEM_LVL_L2);
   ("L3", PERF_MEM_LVL_L3); ("LOC_RAM", PERF_MEM_LVL_LOC_RAM);
   ("REM_RAM1", PERF_MEM_LVL_REM_RAM1); ("REM_RAM2", PERF_MEM_LVL_REM_RAM2);
   ("REM_CCE1", PERF_MEM_LVL_REM_CCE1); ("REM_CCE2", PERF_MEM_LVL_REM_CCE2);
   ("IO", PERF_MEM_LVL_IO); ("UNC", PERF_MEM_LVL_UNC)]%string.

(** [MemLock], src/records/sample.rs:617-620. *)
Definition names_mem_lock : names :=
  [("NA", PERF_MEM_LOCK_NA); ("LOCKED", PERF_MEM_LOCK_LOCKED)]%string.

(** [MemDtlb], src/records/sample.rs:626-634. *)
Definition names_mem_dtlb : names :=
  [("NA", PERF_MEM_TLB_NA); ("HIT", PERF_MEM_TLB_HIT); ("MISS", PERF_MEM_TLB_MISS);
   ("L1", PERF_MEM_TLB_L1); ("L2", PERF_MEM_TLB_L2); ("WK", PERF_MEM_TLB_WK);
   ("OS", PERF_MEM_TLB_OS)]%string.

(** [MemSnoopX], src/records/sample.rs:640-643. *)
Definition names_mem_snoopx : names :=
  [("FWD", PERF_MEM_SNOOPX_FWD); ("PEER", PERF_MEM_SNOOPX_PEER)]%string.

(** [MemBlk], src/records/sample.rs:647-651. *)
Definition names_mem_blk : names :=
  [("NA", PERF_MEM_BLK_NA); ("DATA", PERF_MEM_BLK_DATA); ("ADDR", PERF_MEM_BLK_ADDR)]%string.

(** [MemSnoop], src/records/sample.rs:659-668. *)
Definition names_mem_snoop : names :=
  [("NA", N.shiftl PERF_MEM_SNOOP_NA SNOOP_SHIFT);
   ("NONE", N.shiftl PERF_MEM_SNOOP_NONE SNOOP_SHIFT);
   ("HIT", N.shiftl PERF_MEM_SNOOP_HIT SNOOP_SHIFT);
   ("MISS", N.shiftl PERF_MEM_SNOOP_MISS SNOOP_SHIFT);
   ("HITM", N.shiftl PERF_MEM_SNOOP_HITM SNOOP_SHIFT);
   ("FWD", N.shiftl PERF_MEM_SNOOPX_FWD SNOOPX_SHIFT);
   ("PEER", N.shiftl PERF_MEM_SNOOPX_PEER SNOOPX_SHIFT)]%string.

(** [Txn], src/records/sample.rs:689-700. *)
Definition names_txn : names :=
  [("ELISION", PERF_TXN_ELISION); ("TRANSACTION", PERF_TXN_TRANSACTION);
   ("SYNC", PERF_TXN_SYNC); ("ASYNC", PERF_TXN_ASYNC); ("RETRY", PERF_TXN_RETRY);
   ("CONFLICT", PERF_TXN_CONFLICT); ("CAPACITY_WRITE", PERF_TXN_CAPACITY_WRITE);
   ("CAPACITY_READ", PERF_TXN_CAPACITY_READ); ("ABORT_MASK", PERF_TXN_ABORT_MASK)]%string.

(** [MemLevelNum], src/records/sample.rs:728-739. *)
Definition codes_mem_lvl_num : names :=
  [("L1", PERF_MEM_LVLNUM_L1); ("L2", PERF_MEM_LVLNUM_L2); ("L3", PERF_MEM_LVLNUM_L3);
   ("L4", PERF_MEM_LVLNUM_L4); ("ANY_CACHE", PERF_MEM_LVLNUM_ANY_CACHE);
   ("LFB", PERF_MEM_LVLNUM_LFB); ("RAM", PERF_MEM_LVLNUM_RAM); ("PMEM", PERF_MEM_LVLNUM_PMEM);
   ("NA", PERF_MEM_LVLNUM_NA)]%string.

(** [AuxFlags], src/records/aux_record.rs:29-44. *)
Definition names_aux : names :=
  [("TRUNCATED", PERF_AUX_FLAG_TRUNCATED); ("OVERWRITE", PERF_AUX_FLAG_OVERWRITE);
   ("PARTIAL", PERF_AUX_FLAG_PARTIAL); ("COLLISION", PERF_AUX_FLAG_COLLISION);
   ("PMU_FORMAT_MASK", PERF_AUX_FLAG_PMU_FORMAT_TYPE_MASK)]%string.

(** [AuxPmuFormatType], src/records/aux_record.rs:50-53. *)
Definition codes_pmu_format : names :=
  [("CORESIGHT", N.shiftr PERF_AUX_FLAG_CORESIGHT_FORMAT_CORESIGHT 8);
   ("CORESIGHT_RAW", N.shiftr PERF_AUX_FLAG_CORESIGHT_FORMAT_RAW 8)]%string.

(** [KSymbolType], src/records/ksymbol.rs:51-64. *)
Definition codes_ksymbol : names :=
  [("UNKNOWN", PERF_RECORD_KSYMBOL_TYPE_UNKNOWN); ("BPF", PERF_RECORD_KSYMBOL_TYPE_BPF);
   ("OOL", PERF_RECORD_KSYMBOL_TYPE_OOL)]%string.

(** [KSymbolFlags], src/records/ksymbol.rs:77-80. *)
Definition names_ksymbol : names :=
  [("UNREGISTER", PERF_RECORD_KSYMBOL_FLAGS_UNREGISTER)]%string.

(** [BpfEventType], src/records/bpf_event.rs:22-31. *)
Definition codes_bpf : names :=
  [("UNKNOWN", PERF_BPF_EVENT_UNKNOWN); ("PROG_LOAD", PERF_BPF_EVENT_PROG_LOAD);
   ("PROG_UNLOAD", PERF_BPF_EVENT_PROG_UNLOAD)]%string.
