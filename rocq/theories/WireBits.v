(** Bit fields as C compilers lay them out for Linux: the first one declared lies at
    the low end of the word on little-endian machines and at the high end on
    big-endian ones. *)
From Coq Require Import NArith List Bool.
From Verif Require Import Base Platform Records Sample Attr Wire.
Import ListNotations.
Open Scope N_scope.

(** Fields in the order of declaration: width and value. *)
Fixpoint low_first (fs : list (N * N)) : N :=
  match fs with [] => 0 | (w, v) :: t => v + 2 ^ w * low_first t end.
Fixpoint high_first (room : N) (fs : list (N * N)) : N :=
  match fs with [] => 0 | (w, v) :: t => v * 2 ^ (room - w) + high_first (room - w) t end.
Definition packed (o : order) (fs : list (N * N)) : N :=
  match o with LE => low_first fs | BE => high_first 64 fs end.

Definition widths (fs : list (N * N)) : N := fold_right (fun f n => fst f + n) 0 fs.
Definition fit (fs : list (N * N)) : Prop := Forall (fun f => snd f < 2 ^ fst f) fs.

Definition bool_bit (b : bool) : N := if b then 1 else 0.

(** [struct perf_branch_entry], uapi 1411-1423, as a kernel fills it in. *)
Record kernel_branch : Type := mkKernelBranch {
  kb_from : N;
  kb_to : N;
  kb_mispred : bool;
  kb_predicted : bool;
  kb_in_tx : bool;
  kb_abort : bool;
  kb_cycles : N;
  kb_type : N;
  kb_spec : N;
  kb_new_type : N;
  kb_priv : N;
}.
Definition branch_bits (k : kernel_branch) : list (N * N) :=
  [(1, bool_bit (kb_mispred k)); (1, bool_bit (kb_predicted k)); (1, bool_bit (kb_in_tx k));
   (1, bool_bit (kb_abort k)); (16, kb_cycles k); (4, kb_type k); (2, kb_spec k);
   (4, kb_new_type k); (3, kb_priv k)].
(** The last 31 bits are reserved. *)
Definition branch_word (o : order) (k : kernel_branch) : N := packed o (branch_bits k ++ [(31, 0)]).
Definition kernel_branch_ok (k : kernel_branch) : Prop :=
  kb_from k < 2 ^ 64 /\ kb_to k < 2 ^ 64 /\ fit (branch_bits k).
Definition branch_of (o : order) (k : kernel_branch) : branch_entry :=
  mkBranch (kb_from k) (kb_to k) (branch_word o k).

(** The flags of [struct perf_event_attr], uapi 402-446. *)
Record kernel_flags : Type := mkKernelFlags {
  kf_disabled : bool; kf_inherit : bool; kf_pinned : bool; kf_exclusive : bool;
  kf_exclude_user : bool; kf_exclude_kernel : bool; kf_exclude_hv : bool; kf_exclude_idle : bool;
  kf_mmap : bool; kf_comm : bool; kf_freq : bool; kf_inherit_stat : bool;
  kf_enable_on_exec : bool; kf_task : bool; kf_watermark : bool;
  kf_precise_ip : N;
  kf_mmap_data : bool; kf_sample_id_all : bool;
  kf_exclude_host : bool; kf_exclude_guest : bool;
  kf_exclude_callchain_kernel : bool; kf_exclude_callchain_user : bool;
  kf_mmap2 : bool; kf_comm_exec : bool; kf_use_clockid : bool; kf_context_switch : bool;
  kf_write_backward : bool; kf_namespaces : bool; kf_ksymbol : bool; kf_bpf_event : bool;
  kf_aux_output : bool; kf_cgroup : bool; kf_text_poke : bool; kf_build_id : bool;
  kf_inherit_thread : bool; kf_remove_on_exec : bool; kf_sigtrap : bool;
}.
Definition flag (b : bool) : N * N := (1, bool_bit b).
Definition attr_bits (k : kernel_flags) : list (N * N) :=
  map flag
    [kf_disabled k; kf_inherit k; kf_pinned k; kf_exclusive k; kf_exclude_user k;
     kf_exclude_kernel k; kf_exclude_hv k; kf_exclude_idle k; kf_mmap k; kf_comm k; kf_freq k;
     kf_inherit_stat k; kf_enable_on_exec k; kf_task k; kf_watermark k] ++
  [(2, kf_precise_ip k); flag (kf_mmap_data k); flag (kf_sample_id_all k)] ++
  map flag
    [kf_exclude_host k; kf_exclude_guest k; kf_exclude_callchain_kernel k;
     kf_exclude_callchain_user k; kf_mmap2 k; kf_comm_exec k; kf_use_clockid k;
     kf_context_switch k; kf_write_backward k; kf_namespaces k; kf_ksymbol k; kf_bpf_event k;
     kf_aux_output k; kf_cgroup k; kf_text_poke k; kf_build_id k; kf_inherit_thread k;
     kf_remove_on_exec k; kf_sigtrap k].
(** The last 26 bits are reserved. *)
Definition attr_word (o : order) (k : kernel_flags) : N := packed o (attr_bits k ++ [(26, 0)]).
