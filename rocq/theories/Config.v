(** Flags and [ParseConfig]. *)
From Coq Require Import NArith List Bool.
From Verif Require Import Base Platform.
Import ListNotations.
Open Scope N_scope.

(** [SampleFlags], src/flags.rs:18-47.  The values of the bindings are those of
    linux/perf_event.h. *)
Definition SF_IP : N := 2 ^ 0.
Definition SF_TID : N := 2 ^ 1.
Definition SF_TIME : N := 2 ^ 2.
Definition SF_ADDR : N := 2 ^ 3.
Definition SF_READ : N := 2 ^ 4.
Definition SF_CALLCHAIN : N := 2 ^ 5.
Definition SF_ID : N := 2 ^ 6.
Definition SF_CPU : N := 2 ^ 7.
Definition SF_PERIOD : N := 2 ^ 8.
Definition SF_STREAM_ID : N := 2 ^ 9.
Definition SF_RAW : N := 2 ^ 10.
Definition SF_BRANCH_STACK : N := 2 ^ 11.
Definition SF_REGS_USER : N := 2 ^ 12.
Definition SF_STACK_USER : N := 2 ^ 13.
Definition SF_WEIGHT : N := 2 ^ 14.
Definition SF_DATA_SRC : N := 2 ^ 15.
Definition SF_IDENTIFIER : N := 2 ^ 16.
Definition SF_TRANSACTION : N := 2 ^ 17.
Definition SF_REGS_INTR : N := 2 ^ 18.
Definition SF_PHYS_ADDR : N := 2 ^ 19.
Definition SF_AUX : N := 2 ^ 20.
Definition SF_CGROUP : N := 2 ^ 21.
Definition SF_DATA_PAGE_SIZE : N := 2 ^ 22.
Definition SF_CODE_PAGE_SIZE : N := 2 ^ 23.
Definition SF_WEIGHT_STRUCT : N := 2 ^ 24.

(** [ReadFormat], src/flags.rs:59-75. *)
Definition RF_TIME_ENABLED : N := 2 ^ 0.
Definition RF_TIME_RUNNING : N := 2 ^ 1.
Definition RF_ID : N := 2 ^ 2.
Definition RF_GROUP : N := 2 ^ 3.
Definition RF_LOST : N := 2 ^ 4.

(** [ReadFormat::all()]. *)
Definition RF_ALL : N :=
  N.lor RF_TIME_ENABLED (N.lor RF_TIME_RUNNING (N.lor RF_ID (N.lor RF_GROUP RF_LOST))).

(** [ReadFormat::element_len], src/flags.rs:92-94. *)
Definition element_len (rf : N) : N := 1 + popcount (N.land rf (N.lor RF_ID RF_LOST)).

Definition u64_max : N := 2 ^ 64 - 1.

(** u64 shift left: bits shifted out are lost. *)
Definition shl64 (x n : N) : N := (N.shiftl x n) mod 2 ^ 64.

(** [bindings::PERF_FORMAT_MAX], 1 << 5. *)
Definition PERF_FORMAT_MAX : N := 2 ^ 5.

(** Constants of [ConfigFlags], src/config.rs:18-43. *)
Definition READ_FORMAT_WIDTH : N := popcount (PERF_FORMAT_MAX - 1) + 1.
Definition MISC_OFFSET : N := 64 - 16.
Definition BRANCH_HW_INDEX_OFFSET : N := MISC_OFFSET - 1.
Definition SAMPLE_ID_ALL_OFFSET : N := BRANCH_HW_INDEX_OFFSET - 1.
Definition READ_FORMAT_OFFSET : N := 0.
Definition SAMPLE_TYPE_OFFSET : N := READ_FORMAT_WIDTH.

Definition CF_READ_FORMAT : N := shl64 1 READ_FORMAT_WIDTH - 1.
Definition CF_SAMPLE_ID_ALL : N := 2 ^ 46.
Definition CF_BRANCH_HW_INDEX : N := 2 ^ 47.
Definition CF_SAMPLE_TYPE : N :=
  N.land (shl64 u64_max READ_FORMAT_WIDTH) (CF_SAMPLE_ID_ALL - 1).
Definition CF_MISC : N := shl64 u64_max MISC_OFFSET.

(** [!flags] for [ConfigFlags]: truncated to the named bits, which are all 64. *)
Definition cf_not (x : N) : N := N.ldiff u64_max x.

(** [ConfigFlags::set_misc], src/config.rs:88-91. *)
Definition cf_set_misc (f misc : N) : N :=
  N.lor (N.land f (cf_not CF_MISC)) (shl64 misc MISC_OFFSET).

(** [ConfigFlags::set_sample_type], src/config.rs:93-97. *)
Definition cf_set_sample_type (f sty : N) : N :=
  N.lor (N.land f (cf_not CF_SAMPLE_TYPE))
        (N.land (shl64 sty SAMPLE_TYPE_OFFSET) CF_SAMPLE_TYPE).

(** [ConfigFlags::set_read_format], src/config.rs:99-107. *)
Definition cf_set_read_format (f rf : N) : N :=
  let f1 := N.land f (cf_not CF_READ_FORMAT) in
  let f2 := N.lor f1 (N.land (shl64 rf READ_FORMAT_OFFSET) CF_READ_FORMAT) in
  N.lor f2 (shl64 (if N.shiftr rf READ_FORMAT_WIDTH =? 0 then 0 else 1)
                  (READ_FORMAT_OFFSET + READ_FORMAT_WIDTH - 1)).

(** [ConfigFlags::new], src/config.rs:46-64. *)
Definition cf_new (rf sty : N) (sample_id_all branch_hw_index : bool) (misc : N) : N :=
  let b0 := shl64 (if sample_id_all then 1 else 0) SAMPLE_ID_ALL_OFFSET in
  let b1 := N.lor b0 (shl64 (if branch_hw_index then 1 else 0) BRANCH_HW_INDEX_OFFSET) in
  let b2 := N.lor b1 (shl64 misc MISC_OFFSET) in
  cf_set_misc (cf_set_sample_type (cf_set_read_format b2 rf) sty) misc.

(** Getters, src/config.rs:66-86.  [misc] ends in a cast to u16. *)
Definition cf_read_format (f : N) : N :=
  N.shiftr (N.land f CF_READ_FORMAT) READ_FORMAT_OFFSET.
Definition cf_sample_type (f : N) : N :=
  N.shiftr (N.land f CF_SAMPLE_TYPE) SAMPLE_TYPE_OFFSET.
Definition cf_sample_id_all (f : N) : bool := contains f CF_SAMPLE_ID_ALL.
Definition cf_branch_hw_index (f : N) : bool := contains f CF_BRANCH_HW_INDEX.
Definition cf_misc (f : N) : N :=
  (N.shiftr (N.land f CF_MISC) MISC_OFFSET) mod 2 ^ 16.

(** [RawParseConfig] and [ParseConfig], src/config.rs:110-123. *)
Record config : Type := mkConfig {
  c_flags : N;
  c_regs_user : N;
  c_regs_intr : N;
  c_endian : endian;
}.

(** [ParseConfig::default()], src/config.rs:119 (all zero). *)
Definition config_default (e : endian) : config := mkConfig 0 0 0 e.

(** Builders, src/config.rs:127-151. *)
Definition with_endian (c : config) (e : endian) : config :=
  mkConfig (c_flags c) (c_regs_user c) (c_regs_intr c) e.
Definition with_sample_type (c : config) (sty : N) : config :=
  mkConfig (cf_set_sample_type (c_flags c) sty) (c_regs_user c) (c_regs_intr c) (c_endian c).
Definition with_read_format (c : config) (rf : N) : config :=
  mkConfig (cf_set_read_format (c_flags c) rf) (c_regs_user c) (c_regs_intr c) (c_endian c).
Definition with_misc (c : config) (misc : N) : config :=
  mkConfig (cf_set_misc (c_flags c) misc) (c_regs_user c) (c_regs_intr c) (c_endian c).

(** Accessors, src/config.rs:157-198. *)
Definition read_format (c : config) : N := cf_read_format (c_flags c).
Definition sample_type (c : config) : N := cf_sample_type (c_flags c).
Definition sample_id_all (c : config) : bool := cf_sample_id_all (c_flags c).
Definition branch_hw_index (c : config) : bool := cf_branch_hw_index (c_flags c).
Definition misc (c : config) : N := cf_misc (c_flags c).
