(** Accessors of packed words: [BranchEntry], [DataSource], [Txn], [AuxFlags]. *)
From Coq Require Import NArith List Bool.
From Verif Require Import Base Platform Records Sample.
From Verif Require Export Bitfield.
Import ListNotations.
Open Scope N_scope.

(** [BranchEntry], src/records/sample.rs:409-452, over [perf_branch_entry]
    (linux/perf_event.h:1411-1424). *)
Definition be_bits (o : order) (b : branch_entry) : N -> N -> N :=
  get_bits o (ne_bytes o (be_flags b)).
Definition be_mispred (o : order) (b : branch_entry) : bool := negb (be_bits o b 0 1 =? 0).
Definition be_predicted (o : order) (b : branch_entry) : bool := negb (be_bits o b 1 1 =? 0).
Definition be_in_tx (o : order) (b : branch_entry) : bool := negb (be_bits o b 2 1 =? 0).
Definition be_abort (o : order) (b : branch_entry) : bool := negb (be_bits o b 3 1 =? 0).
Definition be_cycles (o : order) (b : branch_entry) : N := be_bits o b 4 16 mod 2 ^ 16.
Definition be_ty (o : order) (b : branch_entry) : N := be_bits o b 20 4 mod 2 ^ 8.

(** [DataSource], src/records/sample.rs:477-549: the union [perf_mem_data_src]
    (linux/perf_event.h:1263-1299) holding a [u64].  The header declares the fields
    in reverse order for big-endian hosts, so bindgen's offsets differ. *)
Definition ds_bits (o : order) (w off width : N) : N :=
  get_bits o (ne_bytes o w) (match o with LE => off | BE => 64 - off - width end) width.
Definition ds_mem_op (o : order) (w : N) : N := ds_bits o w 0 5.
Definition ds_mem_lvl (o : order) (w : N) : N := ds_bits o w 5 14.
Definition ds_mem_lock (o : order) (w : N) : N := ds_bits o w 24 2.
Definition ds_mem_dtlb (o : order) (w : N) : N := ds_bits o w 26 7.
Definition ds_mem_lvl_num (o : order) (w : N) : N := ds_bits o w 33 4 mod 2 ^ 8.
Definition ds_mem_remote (o : order) (w : N) : bool := negb (ds_bits o w 37 1 =? 0).
Definition ds_mem_blk (o : order) (w : N) : N := ds_bits o w 40 3.
Definition ds_mem_hops (o : order) (w : N) : N := ds_bits o w 43 3 mod 2 ^ 8.

(** [MemSnoop], src/records/sample.rs:653-684; the constants are those of
    linux/perf_event.h:1351-1360. *)
Definition SNOOP_SHIFT : N := 19.
Definition SNOOPX_SHIFT : N := 38.
Definition snoop_all : N :=
  fold_left N.lor
    [N.shiftl 1 SNOOP_SHIFT; N.shiftl 2 SNOOP_SHIFT; N.shiftl 4 SNOOP_SHIFT;
     N.shiftl 8 SNOOP_SHIFT; N.shiftl 16 SNOOP_SHIFT;
     N.shiftl 1 SNOOPX_SHIFT; N.shiftl 2 SNOOPX_SHIFT] 0.
Definition snoop_new (mem_snoop mem_snoopx : N) : N :=
  let mem_snoop := N.land mem_snoop 31 in
  let mem_snoopx := N.land mem_snoopx 3 in
  N.land (N.lor (N.shiftl mem_snoop SNOOP_SHIFT) (N.shiftl mem_snoopx SNOOPX_SHIFT)) snoop_all.
Definition ds_mem_snoop (o : order) (w : N) : N :=
  snoop_new (ds_bits o w 19 5) (ds_bits o w 38 2).

(** [Txn::abort], src/records/sample.rs:703-707. *)
Definition txn_abort (w : N) : N := N.shiftr w 32 mod 2 ^ 32.

(** [AuxFlags::pmu_format_type], src/records/aux_record.rs:59-70. *)
Definition aux_pmu_format (w : N) : N := N.shiftr (N.land w 65280) 8 mod 2 ^ 8.
