(** Specification: what of a configuration a record is read by. *)
From Coq Require Import NArith List Bool.
From Verif Require Import Base Platform Config Flat.
Import ListNotations.
Open Scope N_scope.

(** Both or neither of [c] and [d] ask for the parts [fs] of samples. *)
Definition same_flags (fs : list N) (c d : config) : Prop :=
  Forall (fun f => contains (sample_type c) f = contains (sample_type d) f) fs.

(** The data is in the same byte order, whether that is said by name or by [Native]. *)
Definition same_order (pl : platform) (c d : config) : Prop :=
  order_of pl (c_endian c) = order_of pl (c_endian d).

(** What the sample_id at the end of a record is read by. *)
Definition id_flags : list N := [SF_TID; SF_TIME; SF_ID; SF_STREAM_ID; SF_CPU; SF_IDENTIFIER].
Definition same_ids (c d : config) : Prop :=
  sample_id_all c = sample_id_all d /\ (sample_id_all c = true -> same_flags id_flags c d).

(** What a sample is read by. *)
Definition sample_flags : list N :=
  [SF_IP; SF_TID; SF_TIME; SF_ADDR; SF_READ; SF_CALLCHAIN; SF_ID; SF_CPU; SF_PERIOD; SF_STREAM_ID; SF_RAW;
   SF_BRANCH_STACK; SF_REGS_USER; SF_STACK_USER; SF_WEIGHT; SF_DATA_SRC; SF_IDENTIFIER; SF_TRANSACTION;
   SF_REGS_INTR; SF_PHYS_ADDR; SF_AUX; SF_CGROUP; SF_DATA_PAGE_SIZE; SF_CODE_PAGE_SIZE].
Definition same_sample (c d : config) : Prop :=
  same_flags sample_flags c d /\
  (contains (sample_type c) SF_READ = true -> read_format c = read_format d) /\
  (contains (sample_type c) SF_BRANCH_STACK = true -> branch_hw_index c = branch_hw_index d) /\
  (contains (sample_type c) SF_REGS_USER = true -> c_regs_user c = c_regs_user d) /\
  (contains (sample_type c) SF_REGS_INTR = true -> c_regs_intr c = c_regs_intr d).

(** What a record of type [ty] is read by: MMAP 1, READ 8, SAMPLE 9. *)
Definition same_for (pl : platform) (ty : N) (c d : config) : Prop :=
  same_order pl c d /\
  (ty = 9 -> same_sample c d) /\
  (ty <> 1 -> ty <> 9 -> same_ids c d) /\
  (ty = 8 -> read_format c = read_format d).
