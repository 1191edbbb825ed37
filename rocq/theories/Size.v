(** The size of decoded data: for each field the bytes of its type in the ABI, for each
    string or array the bytes of what is in it.  (Specification; nothing here is from the
    crate.) *)
From Coq Require Import NArith List Bool.
From Verif Require Import Base Types Config Records Sample Record.
Import ListNotations.
Open Scope N_scope.

Fixpoint total (l : list N) : N := match l with [] => 0 | n :: t => n + total t end.

(** [w] bytes for each element. *)
Definition items {A : Type} (w : N) (c : cow A) : N := w * len (cow_list c).

Definition opt_bytes {A : Type} (f : A -> N) (o : option A) : N :=
  match o with Some a => f a | None => 0 end.
Definition if_there {A : Type} (w : N) (o : option A) : N := opt_bytes (fun _ => w) o.
Definition if_asked (format flag w : N) : N := if contains format flag then w else 0.

Definition detail_bytes (d : mmap_detail) : N :=
  match d with MdDefault _ _ _ _ => 24 | MdBuildId b _ => 1 + len b end.

Definition value_bytes (v : read_value) : N :=
  8 + if_asked (rv_format v) RF_TIME_ENABLED 8 + if_asked (rv_format v) RF_TIME_RUNNING 8 +
  if_asked (rv_format v) RF_ID 8 + if_asked (rv_format v) RF_LOST 8.
Definition group_bytes (g : read_group cow) : N :=
  if_asked (rg_format g) RF_TIME_ENABLED 8 + if_asked (rg_format g) RF_TIME_RUNNING 8 +
  items 8 (rg_data g).
Definition regs_bytes (r : registers cow) : N := 8 + items 8 (rg_regs r).

Definition id_bytes (i : sample_id) : N :=
  if_there 4 (si_pid i) + if_there 4 (si_tid i) + if_there 8 (si_time i) + if_there 8 (si_id i) +
  if_there 8 (si_stream_id i) + if_there 4 (si_cpu i).

Definition sample_bytes (s : sample cow) : N :=
  if_there 8 (s_ip s) + if_there 4 (s_pid s) + if_there 4 (s_tid s) + if_there 8 (s_time s) +
  if_there 8 (s_addr s) + if_there 8 (s_id s) + if_there 8 (s_stream_id s) + if_there 4 (s_cpu s) +
  if_there 8 (s_period s) + opt_bytes group_bytes (s_values s) +
  opt_bytes (items 8) (s_callchain s) + opt_bytes (items 1) (s_raw s) +
  if_there 8 (s_lbr_hw_index s) + opt_bytes (items 24) (s_lbr s) +
  opt_bytes regs_bytes (s_regs_user s) + opt_bytes (items 1) (s_stack_user s) +
  if_there 8 (s_weight s) + if_there 8 (s_data_src s) + if_there 8 (s_transaction s) +
  opt_bytes regs_bytes (s_regs_intr s) + if_there 8 (s_phys_addr s) + opt_bytes (items 1) (s_aux s) +
  if_there 8 (s_cgroup s) + if_there 8 (s_data_page_size s) + if_there 8 (s_code_page_size s).

Definition body_bytes (b : body cow) : N :=
  match b with
  | BMmap r => 32 + items 1 (mm_filename r)
  | BLost _ => 16
  | BComm r => 8 + items 1 (cm_comm r)
  | BExit _ | BFork _ => 24
  | BThrottle _ | BUnthrottle _ => 24
  | BRead r => 8 + value_bytes (rd_values r)
  | BSample s => sample_bytes s
  | BMmap2 r => 40 + detail_bytes (m2_detail r) + items 1 (m2_filename r)
  | BAux _ => 24
  | BItraceStart _ => 8
  | BLostSamples _ => 8
  | BSwitch => 0
  | BSwitchCpuWide _ => 8
  | BNamespaces r => 8 + items 16 (nss_entries r)
  | BKsymbol r => 16 + items 1 (ks_name r)
  | BBpfEvent r => 8 + len (bpf_tag r)
  | BCgroup r => 8 + items 1 (cg_path r)
  | BTextPoke r => 8 + items 1 (tp_old r) + items 1 (tp_new r)
  | BAuxOutputHwId _ => 8
  | BUnknown d => items 1 d
  end.

(** A record as told to a visitor: type, misc and size in its header, the id, the body. *)
Definition record_bytes (b : body cow) (md : metadata) : N :=
  8 + body_bytes b + id_bytes (md_sample_id md).
