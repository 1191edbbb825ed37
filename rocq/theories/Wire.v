(** The wire format, written from linux/perf_event.h (the kernel's uapi header,
    cited as [uapi] by line) and independent of the parser model: how a value is
    laid out as bytes.  Only the record types are shared with the model.

    Settings stand for what was asked of perf_event_open. *)
From Coq Require Import NArith List Bool.
From Verif Require Import Base Platform Records Sample Record Attr.
Import ListNotations.
Open Scope N_scope.

(** [n] bytes of [v], least significant first. *)
Fixpoint le_bytes (n : nat) (v : N) : list N :=
  match n with
  | O => []
  | S n => v mod 256 :: le_bytes n (v / 256)
  end.

Definition enc (o : order) (n : nat) (v : N) : list N :=
  match o with LE => le_bytes n v | BE => rev (le_bytes n v) end.

Definition zeros (k : N) : list N := repeat 0 (N.to_nat k).

(** The number of zero bytes that bring [n] up to a multiple of 8. *)
Definition pad8 (n : N) : N := (8 - n mod 8) mod 8.

(** How many of the low 64 bits of a mask are set. *)
Definition bits_set (mask : N) : N :=
  len (filter (N.testbit mask) (map N.of_nat (seq 0 64))).

(** The parts of perf_event_attr that shape records. *)
Record settings : Type := mkSettings {
  ws_sample_type : N;     (* attr.sample_type *)
  ws_read_format : N;     (* attr.read_format *)
  ws_id_all : bool;       (* attr.sample_id_all *)
  ws_hw_index : bool;     (* PERF_SAMPLE_BRANCH_HW_INDEX in attr.branch_sample_type *)
  ws_regs_user : N;       (* attr.sample_regs_user *)
  ws_regs_intr : N;       (* attr.sample_regs_intr *)
}.

Definition val (x : option N) : N := match x with Some v => v | None => 0 end.

Section Wire.
Context (o : order) (w : settings).

Definition w8 : N -> list N := enc o 1.
Definition w16 : N -> list N := enc o 2.
Definition w32 : N -> list N := enc o 4.
Definition w64 : N -> list N := enc o 8.

(** Bit [k] of sample_type (PERF_SAMPLE_*, uapi 139-166) and of read_format
    (PERF_FORMAT_*, uapi 358-366). *)
Definition sbit (k : N) : bool := N.testbit (ws_sample_type w) k.
Definition rbit (k : N) : bool := N.testbit (ws_read_format w) k.

Definition w_if (b : bool) (l : list N) : list N := if b then l else [].

Definition w_list {A : Type} (f : A -> list N) (l : list A) : list N := concat (map f l).

(** [struct perf_event_header], uapi 808-812. *)
Definition w_header (t m size : N) : list N := w32 t ++ w16 m ++ w16 size.

(** [struct sample_id], uapi 843-850. *)
Definition w_sample_id (si : sample_id) : list N :=
  w_if (ws_id_all w)
    (w_if (sbit 1) (w32 (val (si_pid si)) ++ w32 (val (si_tid si))) ++
     w_if (sbit 2) (w64 (val (si_time si))) ++
     w_if (sbit 6) (w64 (val (si_id si))) ++
     w_if (sbit 9) (w64 (val (si_stream_id si))) ++
     w_if (sbit 7) (w32 (val (si_cpu si)) ++ w32 0) ++
     w_if (sbit 16) (w64 (val (si_id si)))).

(** [struct read_format] without PERF_FORMAT_GROUP, uapi 340-346. *)
Definition w_read_value (v : read_value) : list N :=
  w64 (rv_value v) ++
  w_if (rbit 0) (w64 (rv_enabled v)) ++
  w_if (rbit 1) (w64 (rv_running v)) ++
  w_if (rbit 2) (w64 (rv_id v)) ++
  w_if (rbit 4) (w64 (rv_lost v)).

(** One counter of a group and [struct read_format] with PERF_FORMAT_GROUP,
    uapi 347-355. *)
Record counter : Type := mkCounter { ct_value : N; ct_id : N; ct_lost : N }.

Definition w_counter (k : counter) : list N :=
  w64 (ct_value k) ++ w_if (rbit 2) (w64 (ct_id k)) ++ w_if (rbit 4) (w64 (ct_lost k)).

Definition w_group (enabled running : N) (ks : list counter) : list N :=
  w64 (len ks) ++
  w_if (rbit 0) (w64 enabled) ++
  w_if (rbit 1) (w64 running) ++
  w_list w_counter ks.

(** What a read returns, either way. *)
Inductive values : Type :=
| VSingle (v : read_value)
| VGroup (enabled running : N) (ks : list counter).

Definition w_values (v : values) : list N :=
  match v with
  | VSingle v => w_read_value v
  | VGroup te tr ks => w_group te tr ks
  end.

(** [struct perf_branch_entry], uapi 1411-1423. *)
Definition w_branch (b : branch_entry) : list N :=
  w64 (be_from b) ++ w64 (be_to b) ++ w64 (be_flags b).

(** [struct perf_ns_link_info], uapi 814-817. *)
Definition w_ns (n : ns_entry) : list N := w64 (ns_dev n) ++ w64 (ns_inode n).

(** A register dump, uapi 984-985: no registers follow PERF_SAMPLE_REGS_ABI_NONE. *)
Definition w_regs (r : registers list) : list N :=
  w64 (rg_abi r) ++ w_if (negb (rg_abi r =? 0)) (w_list w64 (rg_regs r)).

(** A stack dump, uapi 987-989: [len dump] bytes of which [dyn] are of use. *)
Definition w_stack (dump : list N) (dyn : N) : list N :=
  w64 (len dump) ++ dump ++ w_if (negb (len dump =? 0)) (w64 dyn).

(** What a sample carries on the wire beyond the crate's [sample]: the read
    values and the unused end of the stack dump. *)
Record sample_wire : Type := mkSampleWire {
  sw_sample : sample list;
  sw_values : option values;
  sw_stack_tail : list N;
}.

(** PERF_RECORD_SAMPLE, uapi 940-1018, in the order the kernel's
    perf_output_sample writes (uapi lists AUX before the page sizes and leaves
    CGROUP out; the kernel writes CGROUP, the page sizes and then AUX).  Each
    field is paired with whether it ends in a variable-length part that is
    empty and that the crate cannot read at the end of the data: bytes, or an
    array in the byte order of the host. *)
Definition w_opt {A : Type} (b : bool) (x : option A) (f : A -> list N) : list N :=
  match x with Some v => w_if b (f v) | None => [] end.

Definition empty_if {A : Type} (b : bool) (x : option A) (n : A -> N) : bool :=
  match x with Some v => b && (n v =? 0) | None => false end.

Definition raw_bytes (d : list N) : list N := w32 (len d) ++ d ++ zeros (pad8 (4 + len d)).

Definition values_count (v : values) : N :=
  match v with VSingle _ => 1 | VGroup _ _ ks => len ks end.

Definition in_host (host : order) (n : N) : N :=
  match o, host with LE, LE | BE, BE => n | _, _ => 1 end.

Definition w_fields (host : order) (x : sample_wire) : list (list N * bool) :=
  let arr := in_host host in
  let s := sw_sample x in
  [ (w_if (sbit 16) (w64 (val (s_id s))), false);
    (w_if (sbit 0) (w64 (val (s_ip s))), false);
    (w_if (sbit 1) (w32 (val (s_pid s)) ++ w32 (val (s_tid s))), false);
    (w_if (sbit 2) (w64 (val (s_time s))), false);
    (w_if (sbit 3) (w64 (val (s_addr s))), false);
    (w_if (sbit 6) (w64 (val (s_id s))), false);
    (w_if (sbit 9) (w64 (val (s_stream_id s))), false);
    (w_if (sbit 7) (w32 (val (s_cpu s)) ++ w32 0), false);
    (w_if (sbit 8) (w64 (val (s_period s))), false);
    (w_opt (sbit 4) (sw_values x) w_values, empty_if (sbit 4) (sw_values x) (fun v => arr (values_count v)));
    (w_opt (sbit 5) (s_callchain s) (fun l => w64 (len l) ++ w_list w64 l),
     empty_if (sbit 5) (s_callchain s) (fun l => arr (len l)));
    (w_opt (sbit 10) (s_raw s) raw_bytes, false);
    (w_opt (sbit 11) (s_lbr s)
       (fun l => w64 (len l) ++ w_if (ws_hw_index w) (w64 (val (s_lbr_hw_index s))) ++
                 w_list w_branch l),
     empty_if (sbit 11) (s_lbr s) (fun l => arr (len l)));
    (w_opt (sbit 12) (s_regs_user s) w_regs, empty_if (sbit 12) (s_regs_user s) (fun r => arr (len (rg_regs r))));
    (w_opt (sbit 13) (s_stack_user s) (fun d => w_stack (d ++ sw_stack_tail x) (len d)),
     empty_if (sbit 13) (s_stack_user s) (fun d => len (d ++ sw_stack_tail x)));
    (w_if (sbit 14 || sbit 24) (w64 (val (s_weight s))), false);
    (w_if (sbit 15) (w64 (val (s_data_src s))), false);
    (w_if (sbit 17) (w64 (val (s_transaction s))), false);
    (w_opt (sbit 18) (s_regs_intr s) w_regs, empty_if (sbit 18) (s_regs_intr s) (fun r => arr (len (rg_regs r))));
    (w_if (sbit 19) (w64 (val (s_phys_addr s))), false);
    (w_if (sbit 21) (w64 (val (s_cgroup s))), false);
    (w_if (sbit 22) (w64 (val (s_data_page_size s))), false);
    (w_if (sbit 23) (w64 (val (s_code_page_size s))), false);
    (w_opt (sbit 20) (s_aux s) (fun d => w64 (len d) ++ d), empty_if (sbit 20) (s_aux s) len) ].

Definition w_sample (x : sample_wire) : list N := concat (map fst (w_fields LE x)).

(** No such part is the last thing of the data. *)
Fixpoint followed (l : list (list N * bool)) (rest : list N) : Prop :=
  match l with
  | [] => True
  | (_, d) :: t => (d = true -> concat (map fst t) ++ rest <> []) /\ followed t rest
  end.

(** A NUL-terminated string padded with zeros ([k] of them, at least one). *)
Definition w_str (s : list N) (k : N) : list N := s ++ zeros k.

(** Record bodies, by record type.  Strings come with their number of trailing
    zeros, samples with what the crate does not keep. *)
Inductive wbody : Type :=
| WMmap (r : mmap list) (k : N)
| WLost (r : lost)
| WComm (r : comm list) (k : N)
| WExit (r : exit)
| WThrottle (r : throttle)
| WUnthrottle (r : throttle)
| WFork (r : exit)
| WRead (r : read)
| WSample (x : sample_wire)
| WMmap2 (r : mmap2 list) (k : N)
| WAux (r : aux)
| WItraceStart (r : itrace_start)
| WLostSamples (r : lost_samples)
| WSwitch
| WSwitchCpuWide (r : switch_cpu_wide)
| WNamespaces (r : namespaces list)
| WKsymbol (r : ksymbol list) (k : N)
| WBpfEvent (r : bpf_event)
| WCgroup (r : cgroup list) (k : N)
| WTextPoke (r : text_poke list)
| WAuxOutputHwId (r : aux_output_hw_id)
| WOther (t : N) (d : list N).

(** uapi 1030-1043, both forms. *)
Definition w_detail (d : mmap_detail) : list N :=
  match d with
  | MdDefault maj min ino gen => w32 maj ++ w32 min ++ w64 ino ++ w64 gen
  | MdBuildId b n => w8 n ++ w8 0 ++ w16 0 ++ b
  end.

Definition w_body (b : wbody) : list N :=
  match b with
  (* uapi 860-872 *)
  | WMmap r k => w32 (mm_pid r) ++ w32 (mm_tid r) ++ w64 (mm_addr r) ++ w64 (mm_len r) ++
                 w64 (mm_pgoff r) ++ w_str (mm_filename r) k
  (* uapi 874-882 *)
  | WLost r => w64 (lost_id r) ++ w64 (lost_lost r)
  (* uapi 884-893 *)
  | WComm r k => w32 (cm_pid r) ++ w32 (cm_tid r) ++ w_str (cm_comm r) k
  (* uapi 895-904 and 918-927 *)
  | WExit r | WFork r =>
      w32 (ex_pid r) ++ w32 (ex_ppid r) ++ w32 (ex_tid r) ++ w32 (ex_ptid r) ++ w64 (ex_time r)
  (* uapi 906-916 *)
  | WThrottle r | WUnthrottle r => w64 (th_time r) ++ w64 (th_id r) ++ w64 (th_stream_id r)
  (* uapi 929-938 *)
  | WRead r => w32 (rd_pid r) ++ w32 (rd_tid r) ++ w_read_value (rd_values r)
  | WSample x => w_sample x
  (* uapi 1022-1052 *)
  | WMmap2 r k => w32 (m2_pid r) ++ w32 (m2_tid r) ++ w64 (m2_addr r) ++ w64 (m2_len r) ++
                  w64 (m2_pgoff r) ++ w_detail (m2_detail r) ++ w32 (m2_prot r) ++
                  w32 (m2_flags r) ++ w_str (m2_filename r) k
  (* uapi 1054-1066 *)
  | WAux r => w64 (aux_offset r) ++ w64 (aux_size r) ++ w64 (aux_flags r)
  (* uapi 1068-1078 *)
  | WItraceStart r => w32 (it_pid r) ++ w32 (it_tid r)
  (* uapi 1080-1090 *)
  | WLostSamples r => w64 (ls_lost r)
  (* uapi 1092-1102 *)
  | WSwitch => []
  (* uapi 1104-1116 *)
  | WSwitchCpuWide r => w32 (sw_pid r) ++ w32 (sw_tid r)
  (* uapi 1118-1128 *)
  | WNamespaces r => w32 (nss_pid r) ++ w32 (nss_tid r) ++ w64 (len (nss_entries r)) ++
                     w_list w_ns (nss_entries r)
  (* uapi 1130-1143 *)
  | WKsymbol r k => w64 (ks_addr r) ++ w32 (ks_len r) ++ w16 (ks_type r) ++ w16 (ks_flags r) ++
                    w_str (ks_name r) k
  (* uapi 1145-1162 *)
  | WBpfEvent r => w16 (bpf_ty r) ++ w16 (bpf_flags r) ++ w32 (bpf_id r) ++ bpf_tag r
  (* uapi 1164-1172 *)
  | WCgroup r k => w64 (cg_id r) ++ w_str (cg_path r) k
  (* uapi 1174-1190, padded by perf_event_text_poke_output *)
  | WTextPoke r => w64 (tp_addr r) ++ w16 (len (tp_old r)) ++ w16 (len (tp_new r)) ++
                   tp_old r ++ tp_new r ++
                   zeros (pad8 (4 + len (tp_old r) + len (tp_new r)))
  (* uapi 1192-1205 *)
  | WAuxOutputHwId r => w64 (hw_id r)
  | WOther _ d => d
  end.

(** PERF_RECORD_*, uapi 872-1205. *)
Definition w_type (b : wbody) : N :=
  match b with
  | WMmap _ _ => 1 | WLost _ => 2 | WComm _ _ => 3 | WExit _ => 4 | WThrottle _ => 5
  | WUnthrottle _ => 6 | WFork _ => 7 | WRead _ => 8 | WSample _ => 9 | WMmap2 _ _ => 10
  | WAux _ => 11 | WItraceStart _ => 12 | WLostSamples _ => 13 | WSwitch => 14
  | WSwitchCpuWide _ => 15 | WNamespaces _ => 16 | WKsymbol _ _ => 17 | WBpfEvent _ => 18
  | WCgroup _ _ => 19 | WTextPoke _ => 20 | WAuxOutputHwId _ => 21 | WOther t _ => t
  end.

(** A whole record: every type but SAMPLE ends in a sample_id. *)
Definition w_trailer (b : wbody) (si : sample_id) : list N :=
  match b with WSample _ => [] | _ => w_sample_id si end.

Definition w_record (m : N) (si : sample_id) (b : wbody) : list N :=
  let payload := w_body b ++ w_trailer b si in
  w_header (w_type b) m (8 + len payload) ++ payload.

(** Which values can occur. *)
Definition has {A : Type} (b : bool) (x : option A) : Prop :=
  if b then x <> None else x = None.

Definition field (b : bool) (bound : N) (x : option N) : Prop :=
  match x with Some v => b = true /\ v < bound | None => b = false end.

Definition below (bound : N) (l : list N) : Prop := Forall (fun v => v < bound) l.

Definition sample_id_ok (si : sample_id) : Prop :=
  let b k := ws_id_all w && sbit k in
  field (b 1) (2 ^ 32) (si_pid si) /\ field (b 1) (2 ^ 32) (si_tid si) /\
  field (b 2) (2 ^ 64) (si_time si) /\
  field (ws_id_all w && (sbit 6 || sbit 16)) (2 ^ 64) (si_id si) /\
  field (b 9) (2 ^ 64) (si_stream_id si) /\ field (b 7) (2 ^ 32) (si_cpu si).

(** A value that is not asked for is 0. *)
Definition num (b : bool) (v : N) : Prop := if b then v < 2 ^ 64 else v = 0.

Definition read_value_ok (v : read_value) : Prop :=
  rv_format v = ws_read_format w /\ rv_value v < 2 ^ 64 /\
  num (rbit 0) (rv_enabled v) /\ num (rbit 1) (rv_running v) /\
  num (rbit 2) (rv_id v) /\ num (rbit 4) (rv_lost v).

Definition counter_ok (k : counter) : Prop :=
  ct_value k < 2 ^ 64 /\ num (rbit 2) (ct_id k) /\ num (rbit 4) (ct_lost k).

Definition values_ok (v : values) : Prop :=
  match v with
  | VSingle v => rbit 3 = false /\ read_value_ok v
  | VGroup te tr ks => rbit 3 = true /\ num (rbit 0) te /\ num (rbit 1) tr /\ Forall counter_ok ks
  end.

(** The crate's group of values with these contents. *)
Definition counter_words (k : counter) : list N :=
  ct_value k :: (if rbit 2 then [ct_id k] else []) ++ (if rbit 4 then [ct_lost k] else []).

Definition group_of (v : values) : read_group list :=
  match v with
  | VSingle v =>
      mkReadGroup (N.lor (ws_read_format w) 8) (rv_enabled v) (rv_running v)
        (counter_words (mkCounter (rv_value v) (rv_id v) (rv_lost v)))
  | VGroup te tr ks =>
      mkReadGroup (ws_read_format w) te tr (concat (map counter_words ks))
  end.

Definition regs_ok (mask : N) (r : registers list) : Prop :=
  rg_abi r < 2 ^ 64 /\ rg_mask r = mask /\ mask < 2 ^ 64 /\
  len (rg_regs r) = (if rg_abi r =? 0 then 0 else bits_set mask) /\ below (2 ^ 64) (rg_regs r).

Definition branch_ok (b : branch_entry) : Prop :=
  be_from b < 2 ^ 64 /\ be_to b < 2 ^ 64 /\ be_flags b < 2 ^ 64.

Definition opt_all {A : Type} (P : A -> Prop) (x : option A) : Prop :=
  match x with Some v => P v | None => True end.

Definition sample_ok (x : sample_wire) : Prop :=
  let s := sw_sample x in
  field (sbit 0) (2 ^ 64) (s_ip s) /\
  field (sbit 1) (2 ^ 32) (s_pid s) /\ field (sbit 1) (2 ^ 32) (s_tid s) /\
  field (sbit 2) (2 ^ 64) (s_time s) /\ field (sbit 3) (2 ^ 64) (s_addr s) /\
  field (sbit 6 || sbit 16) (2 ^ 64) (s_id s) /\
  field (sbit 9) (2 ^ 64) (s_stream_id s) /\ field (sbit 7) (2 ^ 32) (s_cpu s) /\
  field (sbit 8) (2 ^ 64) (s_period s) /\
  (has (sbit 4) (sw_values x) /\ opt_all values_ok (sw_values x) /\
   s_values s = option_map group_of (sw_values x)) /\
  (has (sbit 5) (s_callchain s) /\ opt_all (below (2 ^ 64)) (s_callchain s)) /\
  (has (sbit 10) (s_raw s) /\ opt_all (below 256) (s_raw s) /\
   opt_all (fun d => len d < 2 ^ 32) (s_raw s)) /\
  (has (sbit 11) (s_lbr s) /\ opt_all (Forall branch_ok) (s_lbr s) /\
   field (sbit 11 && ws_hw_index w) (2 ^ 64) (s_lbr_hw_index s)) /\
  (has (sbit 12) (s_regs_user s) /\ opt_all (regs_ok (ws_regs_user w)) (s_regs_user s)) /\
  (has (sbit 13) (s_stack_user s) /\ opt_all (below 256) (s_stack_user s) /\
   below 256 (sw_stack_tail x) /\ 
   opt_all (fun d => (len d + len (sw_stack_tail x)) mod 8 = 0) (s_stack_user s)) /\
  field (sbit 14 || sbit 24) (2 ^ 64) (s_weight s) /\
  field (sbit 15) (2 ^ 64) (s_data_src s) /\ field (sbit 17) (2 ^ 64) (s_transaction s) /\
  (has (sbit 18) (s_regs_intr s) /\ opt_all (regs_ok (ws_regs_intr w)) (s_regs_intr s)) /\
  field (sbit 19) (2 ^ 64) (s_phys_addr s) /\ field (sbit 21) (2 ^ 64) (s_cgroup s) /\
  field (sbit 22) (2 ^ 64) (s_data_page_size s) /\
  field (sbit 23) (2 ^ 64) (s_code_page_size s) /\
  (has (sbit 20) (s_aux s) /\ opt_all (below 256) (s_aux s) /\
   opt_all (fun d => len d mod 8 = 0) (s_aux s)).

(** A string holds bytes and does not end in a zero; there is a terminator. *)
Definition str_ok (s : list N) (k : N) : Prop :=
  below 256 s /\ last s 1 <> 0 /\ 0 < k.

Definition detail_wf (m : N) (d : mmap_detail) : Prop :=
  match d with
  | MdDefault maj min ino gen =>
      N.testbit m 14 = false /\ maj < 2 ^ 32 /\ min < 2 ^ 32 /\ ino < 2 ^ 64 /\ gen < 2 ^ 64
  | MdBuildId b n => N.testbit m 14 = true /\ below 256 b /\ len b = 20 /\ n <= 20
  end.

Definition wbody_ok (m : N) (b : wbody) : Prop :=
  match b with
  | WMmap r k => mm_pid r < 2 ^ 32 /\ mm_tid r < 2 ^ 32 /\ mm_addr r < 2 ^ 64 /\
                 mm_len r < 2 ^ 64 /\ mm_pgoff r < 2 ^ 64 /\ str_ok (mm_filename r) k
  | WLost r => lost_id r < 2 ^ 64 /\ lost_lost r < 2 ^ 64
  | WComm r k => cm_pid r < 2 ^ 32 /\ cm_tid r < 2 ^ 32 /\ str_ok (cm_comm r) k
  | WExit r | WFork r => ex_pid r < 2 ^ 32 /\ ex_ppid r < 2 ^ 32 /\ ex_tid r < 2 ^ 32 /\
                         ex_ptid r < 2 ^ 32 /\ ex_time r < 2 ^ 64
  | WThrottle r | WUnthrottle r => th_time r < 2 ^ 64 /\ th_id r < 2 ^ 64 /\ th_stream_id r < 2 ^ 64
  | WRead r => rd_pid r < 2 ^ 32 /\ rd_tid r < 2 ^ 32 /\ rbit 3 = false /\
               read_value_ok (rd_values r)
  | WSample x => sample_ok x
  | WMmap2 r k => m2_pid r < 2 ^ 32 /\ m2_tid r < 2 ^ 32 /\ m2_addr r < 2 ^ 64 /\
                  m2_len r < 2 ^ 64 /\ m2_pgoff r < 2 ^ 64 /\ detail_wf m (m2_detail r) /\
                  m2_prot r < 2 ^ 32 /\ m2_flags r < 2 ^ 32 /\ str_ok (m2_filename r) k
  | WAux r => aux_offset r < 2 ^ 64 /\ aux_size r < 2 ^ 64 /\ aux_flags r < 2 ^ 64
  | WItraceStart r => it_pid r < 2 ^ 32 /\ it_tid r < 2 ^ 32
  | WLostSamples r => ls_lost r < 2 ^ 64
  | WSwitch => True
  | WSwitchCpuWide r => sw_pid r < 2 ^ 32 /\ sw_tid r < 2 ^ 32 /\
                        (match r with SwOut _ _ => true | SwIn _ _ => false end) = N.testbit m 13
  | WNamespaces r => nss_pid r < 2 ^ 32 /\ nss_tid r < 2 ^ 32 /\
                     Forall (fun e => ns_dev e < 2 ^ 64 /\ ns_inode e < 2 ^ 64) (nss_entries r)
  | WKsymbol r k => ks_addr r < 2 ^ 64 /\ ks_len r < 2 ^ 32 /\ ks_type r < 2 ^ 16 /\
                    ks_flags r < 2 ^ 16 /\ str_ok (ks_name r) k
  | WBpfEvent r => bpf_ty r < 2 ^ 16 /\ bpf_flags r < 2 ^ 16 /\ bpf_id r < 2 ^ 32 /\
                   below 256 (bpf_tag r) /\ len (bpf_tag r) = 8
  | WCgroup r k => cg_id r < 2 ^ 64 /\ str_ok (cg_path r) k
  | WTextPoke r => tp_addr r < 2 ^ 64 /\ below 256 (tp_old r) /\ below 256 (tp_new r)
  | WAuxOutputHwId r => hw_id r < 2 ^ 64
  | WOther t d => (t = 0 \/ 21 < t) /\ t < 2 ^ 32 /\ below 256 d
  end.

(** The record the crate should produce. *)
Definition expected (b : wbody) : body list :=
  match b with
  | WMmap r _ => BMmap r
  | WLost r => BLost r
  | WComm r _ => BComm r
  | WExit r => BExit r
  | WThrottle r => BThrottle r
  | WUnthrottle r => BUnthrottle r
  | WFork r => BFork r
  | WRead r => BRead r
  | WSample x => BSample (sw_sample x)
  | WMmap2 r _ => BMmap2 r
  | WAux r => BAux r
  | WItraceStart r => BItraceStart r
  | WLostSamples r => BLostSamples r
  | WSwitch => BSwitch
  | WSwitchCpuWide r => BSwitchCpuWide r
  | WNamespaces r => BNamespaces r
  | WKsymbol r _ => BKsymbol r
  | WBpfEvent r => BBpfEvent r
  | WCgroup r _ => BCgroup r
  | WTextPoke r => BTextPoke r
  | WAuxOutputHwId r => BAuxOutputHwId r
  | WOther _ d => BUnknown d
  end.

End Wire.
