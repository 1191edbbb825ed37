(** Which byte strings are records: the layouts of Wire.v, read the other way round.
    A layout is a list of bytes some of which may be anything, since nobody looks at
    them: reserved words, padding, an identifier that is there twice, and the upper
    halves of counts where pointers have 32 bits.

    Like Wire.v this is independent of the parser model. *)
From Coq Require Import NArith List Bool.
From Verif Require Import Base Platform Records Sample Record Attr Wire.
Import ListNotations.
Open Scope N_scope.

(** Given bytes, and bytes that may be anything. *)
Definition layout : Type := list (option N).
Definition just (l : list N) : layout := map Some l.
Definition any (n : N) : layout := repeat None (N.to_nat n).

Definition fits (q : layout) (bs : list N) : Prop :=
  Forall2 (fun x b => x = None \/ x = Some b) q bs.

(** A list of parts in turn.  A part marked [true] must not be the last thing there is;
    [rest] is what follows. *)
Fixpoint laid (fs : list (layout * bool)) (bs rest : list N) : Prop :=
  match fs with
  | [] => bs = []
  | (q, d) :: fs => exists b1 b2, bs = b1 ++ b2 /\ fits q b1 /\ (d = true -> b2 ++ rest <> []) /\
                    laid fs b2 rest
  end.

Section Accept.
Context (bits : N) (host o : order) (w : settings).

Definition l_if (b : bool) (q : layout) : layout := if b then q else [].
Definition l_opt {A : Type} (x : option A) (f : A -> layout) : layout :=
  match x with Some v => f v | None => [] end.
Definition empty {A : Type} (x : option A) (n : A -> N) : bool :=
  match x with Some v => n v =? 0 | None => false end.

(** A count in 8 bytes, of which the low 4 matter where pointers have 32 bits. *)
Definition l_count (n : N) : layout :=
  if bits =? 32
  then match o with LE => just (w32 o n) ++ any 4 | BE => any 4 ++ just (w32 o n) end
  else just (w64 o n).

(** A word in 8 bytes that is there twice: the one that counts is the other one. *)
Definition l_twice (b other : bool) (x : option N) : layout :=
  l_if b (if other then any 8 else just (w64 o (val x))).

Definition l_cpu (b : bool) (x : option N) : layout := l_if b (just (w32 o (val x)) ++ any 4).

Definition l_values (v : values) : layout :=
  match v with
  | VSingle v => just (w_read_value o w v)
  | VGroup te tr ks => l_count (len ks) ++ just (w_if (rbit w 0) (w64 o te) ++
                       w_if (rbit w 1) (w64 o tr) ++ w_list (w_counter o w) ks)
  end.

Definition l_regs (r : registers list) : layout :=
  just (w64 o (rg_abi r) ++ w_list (w64 o) (rg_regs r)).

Definition l_raw (d : list N) : layout := just (w32 o (len d) ++ d) ++ any (pad8 (4 + len d)).

Definition l_stack (dump : list N) (dyn : N) : layout :=
  l_count (len dump) ++ just dump ++ l_if (negb (len dump =? 0)) (l_count dyn).

Definition l_sample_id (si : sample_id) : layout :=
  l_if (ws_id_all w)
    (just (w_if (sbit w 1) (w32 o (val (si_pid si)) ++ w32 o (val (si_tid si)))) ++
     just (w_if (sbit w 2) (w64 o (val (si_time si)))) ++
     just (w_if (sbit w 6) (w64 o (val (si_id si)))) ++
     just (w_if (sbit w 9) (w64 o (val (si_stream_id si)))) ++
     l_cpu (sbit w 7) (si_cpu si) ++
     l_twice (sbit w 16) (sbit w 6) (si_id si)).

Definition l_sample (x : sample_wire) : list (layout * bool) :=
  let arr := in_host o host in
  let s := sw_sample x in
  [ (l_twice (sbit w 16) (sbit w 6) (s_id s), false);
    (just (w_if (sbit w 0) (w64 o (val (s_ip s)))), false);
    (just (w_if (sbit w 1) (w32 o (val (s_pid s)))), false);
    (just (w_if (sbit w 1) (w32 o (val (s_tid s)))), false);
    (just (w_if (sbit w 2) (w64 o (val (s_time s)))), false);
    (just (w_if (sbit w 3) (w64 o (val (s_addr s)))), false);
    (just (w_if (sbit w 6) (w64 o (val (s_id s)))), false);
    (just (w_if (sbit w 9) (w64 o (val (s_stream_id s)))), false);
    (l_cpu (sbit w 7) (s_cpu s), false);
    (just (w_if (sbit w 8) (w64 o (val (s_period s)))), false);
    (l_opt (sw_values x) l_values, empty (sw_values x) (fun v => arr (values_count v)));
    (l_opt (s_callchain s) (fun l => l_count (len l) ++ just (w_list (w64 o) l)),
     empty (s_callchain s) (fun l => arr (len l)));
    (l_opt (s_raw s) l_raw, false);
    (l_opt (s_lbr s)
       (fun l => l_count (len l) ++ just (w_if (ws_hw_index w) (w64 o (val (s_lbr_hw_index s))) ++
                 w_list (w_branch o) l)),
     empty (s_lbr s) (fun l => arr (len l)));
    (l_opt (s_regs_user s) l_regs, empty (s_regs_user s) (fun r => arr (len (rg_regs r))));
    (l_opt (s_stack_user s) (fun d => l_stack (d ++ sw_stack_tail x) (len d)),
     empty (s_stack_user s) (fun d => len (d ++ sw_stack_tail x)));
    (just (w_if (sbit w 14) (w64 o (val (s_weight s)))), false);
    (just (w_if (sbit w 15) (w64 o (val (s_data_src s)))), false);
    (just (w_if (sbit w 17) (w64 o (val (s_transaction s)))), false);
    (l_opt (s_regs_intr s) l_regs, empty (s_regs_intr s) (fun r => arr (len (rg_regs r))));
    (just (w_if (sbit w 19) (w64 o (val (s_phys_addr s)))), false);
    (just (w_if (sbit w 21) (w64 o (val (s_cgroup s)))), false);
    (just (w_if (sbit w 22) (w64 o (val (s_data_page_size s)))), false);
    (just (w_if (sbit w 23) (w64 o (val (s_code_page_size s)))), false);
    (l_opt (s_aux s) (fun d => l_count (len d) ++ just d), empty (s_aux s) len) ].

(** Which values a sample may have. *)
Definition regs_given (mask : N) (r : registers list) : Prop :=
  rg_abi r < 2 ^ 64 /\ rg_mask r = mask /\ len (rg_regs r) = bits_set mask /\ below (2 ^ 64) (rg_regs r).

Definition sample_given (x : sample_wire) : Prop :=
  let s := sw_sample x in
  field (sbit w 0) (2 ^ 64) (s_ip s) /\
  field (sbit w 1) (2 ^ 32) (s_pid s) /\ field (sbit w 1) (2 ^ 32) (s_tid s) /\
  field (sbit w 2) (2 ^ 64) (s_time s) /\ field (sbit w 3) (2 ^ 64) (s_addr s) /\
  field (sbit w 6 || sbit w 16) (2 ^ 64) (s_id s) /\
  field (sbit w 9) (2 ^ 64) (s_stream_id s) /\ field (sbit w 7) (2 ^ 32) (s_cpu s) /\
  field (sbit w 8) (2 ^ 64) (s_period s) /\
  (has (sbit w 4) (sw_values x) /\ opt_all (values_ok w) (sw_values x) /\
   s_values s = option_map (group_of w) (sw_values x) /\ (sbit w 4 = true -> ws_read_format w < 2 ^ 5)) /\
  (has (sbit w 5) (s_callchain s) /\ opt_all (below (2 ^ 64)) (s_callchain s)) /\
  (has (sbit w 10) (s_raw s) /\ opt_all (fun d => len d < 2 ^ 32) (s_raw s)) /\
  (has (sbit w 11) (s_lbr s) /\ opt_all (Forall branch_ok) (s_lbr s) /\
   field (sbit w 11 && ws_hw_index w) (2 ^ 64) (s_lbr_hw_index s)) /\
  (has (sbit w 12) (s_regs_user s) /\ opt_all (regs_given (ws_regs_user w)) (s_regs_user s)) /\
  has (sbit w 13) (s_stack_user s) /\
  field (sbit w 14) (2 ^ 64) (s_weight s) /\
  field (sbit w 15) (2 ^ 64) (s_data_src s) /\ field (sbit w 17) (2 ^ 64) (s_transaction s) /\
  (has (sbit w 18) (s_regs_intr s) /\ opt_all (regs_given (ws_regs_intr w)) (s_regs_intr s)) /\
  field (sbit w 19) (2 ^ 64) (s_phys_addr s) /\ field (sbit w 21) (2 ^ 64) (s_cgroup s) /\
  field (sbit w 22) (2 ^ 64) (s_data_page_size s) /\
  field (sbit w 23) (2 ^ 64) (s_code_page_size s) /\
  has (sbit w 20) (s_aux s).

(** A string takes all there is, which is something. *)
Definition string_given (s : list N) (k : N) : Prop := last s 1 <> 0 /\ w_str s k <> [].

Definition l_detail (d : mmap_detail) : layout :=
  match d with
  | MdDefault maj min ino gen => just (w32 o maj ++ w32 o min ++ w64 o ino ++ w64 o gen)
  | MdBuildId b n => just (w8 o n) ++ any 3 ++ just b
  end.

Definition l_body (b : wbody) : list (layout * bool) :=
  match b with
  | WSample x => l_sample x
  | WMmap2 r k =>
      [ (just (w32 o (m2_pid r) ++ w32 o (m2_tid r) ++ w64 o (m2_addr r) ++ w64 o (m2_len r) ++
               w64 o (m2_pgoff r)), false);
        (l_detail (m2_detail r), false);
        (just (w32 o (m2_prot r) ++ w32 o (m2_flags r) ++ w_str (m2_filename r) k), false) ]
  | WNamespaces r =>
      [ (just (w32 o (nss_pid r) ++ w32 o (nss_tid r)) ++ l_count (len (nss_entries r)) ++
         just (w_list (w_ns o) (nss_entries r)), in_host o host (len (nss_entries r)) =? 0) ]
  | WTextPoke r =>
      [ (just (w64 o (tp_addr r) ++ w16 o (len (tp_old r)) ++ w16 o (len (tp_new r)) ++
               tp_old r ++ tp_new r) ++ any (pad8 (4 + len (tp_old r) + len (tp_new r))), false) ]
  | _ => [ (just (w_body o w b), false) ]
  end.

(** Types whose last field takes everything. *)
Definition takes_all (b : wbody) : Prop :=
  match b with
  | WMmap _ _ | WComm _ _ | WMmap2 _ _ | WKsymbol _ _ | WCgroup _ _ | WOther _ _ => True
  | _ => False
  end.

(** Which bodies a record with misc bits [m] may have. *)
Definition detail_given (m : N) (d : mmap_detail) : Prop :=
  match d with
  | MdDefault maj min ino gen =>
      N.testbit m 14 = false /\ maj < 2 ^ 32 /\ min < 2 ^ 32 /\ ino < 2 ^ 64 /\ gen < 2 ^ 64
  | MdBuildId b n => N.testbit m 14 = true /\ len b = 20 /\ n <= 20
  end.

Definition body_given (m : N) (b : wbody) : Prop :=
  match b with
  | WMmap r k => mm_pid r < 2 ^ 32 /\ mm_tid r < 2 ^ 32 /\ mm_addr r < 2 ^ 64 /\
                 mm_len r < 2 ^ 64 /\ mm_pgoff r < 2 ^ 64 /\ string_given (mm_filename r) k
  | WComm r k => cm_pid r < 2 ^ 32 /\ cm_tid r < 2 ^ 32 /\ string_given (cm_comm r) k
  | WRead r => rd_pid r < 2 ^ 32 /\ rd_tid r < 2 ^ 32 /\ rbit w 3 = false /\
               read_value_ok w (rd_values r) /\ ws_read_format w < 2 ^ 5
  | WSample x => sample_given x
  | WMmap2 r k => m2_pid r < 2 ^ 32 /\ m2_tid r < 2 ^ 32 /\ m2_addr r < 2 ^ 64 /\
                  m2_len r < 2 ^ 64 /\ m2_pgoff r < 2 ^ 64 /\ detail_given m (m2_detail r) /\
                  m2_prot r < 2 ^ 32 /\ m2_flags r < 2 ^ 32 /\ string_given (m2_filename r) k
  | WSwitch => False
  | WKsymbol r k => ks_addr r < 2 ^ 64 /\ ks_len r < 2 ^ 32 /\ ks_type r < 2 ^ 16 /\
                    ks_flags r < 2 ^ 16 /\ string_given (ks_name r) k
  | WBpfEvent r => bpf_ty r < 2 ^ 16 /\ bpf_flags r < 2 ^ 16 /\ bpf_id r < 2 ^ 32 /\
                   len (bpf_tag r) = 8
  | WCgroup r k => cg_id r < 2 ^ 64 /\ string_given (cg_path r) k
  | WTextPoke r => tp_addr r < 2 ^ 64 /\ len (tp_old r) < 2 ^ 16 /\ len (tp_new r) < 2 ^ 16
  | WOther t d => (t = 0 \/ t = 14 \/ 21 < t) /\ t < 2 ^ 32 /\ d <> []
  | _ => wbody_ok w m b
  end.

(** [bs] is a record with this body, these misc bits and this sample_id.  After a body
    of fixed size there may be more, which nobody reads. *)
Definition ends_in_id (b : wbody) : bool :=
  match b with WMmap _ _ | WSample _ => false | _ => true end.

Definition is_record (m : N) (si : sample_id) (b : wbody) (bs : list N) : Prop :=
  exists body unread tail,
    let payload := body ++ unread ++ tail in
    bs = w_header o (w_type b) m (8 + len payload) ++ payload /\
    8 + len payload < 2 ^ 16 /\ m < 2 ^ 16 /\
    body_given m b /\ laid (l_body b) body unread /\ (takes_all b -> unread = []) /\
    (if ends_in_id b then sample_id_ok w si /\ fits (l_sample_id si) tail
     else si = sample_id_default /\ tail = []).
End Accept.
