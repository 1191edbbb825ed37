(** What the parsers compute on a flat list of bytes: no buffers, chunks,
    borrowing or allocation.  The state is the bytes that are left and how many
    bytes went before.

    Two places of the crate do not behave like this for every buffer; they leave
    an event, and a result only has to be met by the crate when its events are
    harmless for the buffer at hand (Refine.v, [ev_ok]). *)
From Coq Require Import NArith List Bool.
From Verif Require Import Base Types Platform Config Records Sample Record Attr.
Import ListNotations.
Open Scope N_scope.

Inductive event : Type :=
| ESlice (al : alignment) (pos : N)
                (* a non-empty array of the host's byte order, of elements so aligned, was at [pos] *)
| EPoke.        (* a TEXT_POKE with an empty first or last part *)

Inductive fout (B : Type) : Type :=
| FOk (b : B) (l : list N) (pos : N) (ev : list event)
| FErr (e : perror) (l : list N) (pos : N) (ev : list event).
Arguments FOk {B} b l pos ev.
Arguments FErr {B} e l pos ev.

Record fenv : Type := mkEnv { fe_cfg : config; fe_fin : perror }.

Definition F (B : Type) : Type := fenv -> list N -> N -> fout B.

Definition fret {B : Type} (b : B) : F B := fun _ l pos => FOk b l pos [].
Definition ffail {B : Type} (e : perror) : F B := fun _ l pos => FErr e l pos [].
Definition fbind {B C : Type} (m : F B) (k : B -> F C) : F C :=
  fun env l pos =>
    match m env l pos with
    | FOk b l1 pos1 ev1 =>
        match k b env l1 pos1 with
        | FOk c l2 pos2 ev2 => FOk c l2 pos2 (ev1 ++ ev2)
        | FErr e l2 pos2 ev2 => FErr e l2 pos2 (ev1 ++ ev2)
        end
    | FErr e l1 pos1 ev1 => FErr e l1 pos1 ev1
    end.
Notation "x <~ m ;; k" := (fbind m (fun x => k))
  (at level 61, m at next level, right associativity).

Definition fcfg : F config := fun env l pos => FOk (fe_cfg env) l pos [].

(** The byte order the data is in. *)
Definition order_of (pl : platform) (e : endian) : order :=
  match e with
  | Native => pl_host pl
  | Little | DynLittle => LE
  | Big | DynBig => BE
  end.

Definition order_eqb (a b : order) : bool :=
  match a, b with LE, LE | BE, BE => true | _, _ => false end.

(** [n] bytes.  Asking for anything, even nothing, at the end is an error. *)
Definition f_take (n : N) : F (list N) :=
  fun env l pos =>
    match l with
    | [] => FErr (fe_fin env) [] pos []
    | _ => if len l <? n then FErr (fe_fin env) [] (pos + len l) []
           else FOk (take n l) (drop n l) (pos + n) []
    end.

(** Pass over [n] bytes. *)
Definition f_skip (n : N) : F unit :=
  if n =? 0 then fret tt else _ <~ f_take n ;; fret tt.

(** An unsigned integer of [n] bytes. *)
Definition f_uint (pl : platform) (n : N) : F N :=
  l <~ f_take n ;; c <~ fcfg ;; fret (from_order (order_of pl (c_endian c)) l).

Definition f_if {B : Type} (b : bool) (m : F B) : F (option B) :=
  if b then x <~ m ;; fret (Some x) else fret None.

(** Skip up to the next multiple of [k] from where [m] started. *)
Definition f_padded {B : Type} (k : N) (m : F B) : F B :=
  fun env l pos =>
    (x <~ m ;; (fun env' l' pos' =>
       (_ <~ f_skip (if (pos' - pos) mod k =? 0 then 0 else k - (pos' - pos) mod k) ;;
        fret x) env' l' pos')) env l pos.

(** Everything up to the end of the input. *)
Definition f_rest : F (list N) :=
  fun env l pos =>
    match l with
    | [] => FErr (fe_fin env) [] pos []
    | _ => if is_eof (fe_fin env) then FOk l [] (pos + len l) []
           else FErr (fe_fin env) [] (pos + len l) []
    end.

(** Without trailing zero bytes. *)
Fixpoint skip_zeros (l : list N) : list N :=
  match l with
  | [] => []
  | b :: t => if b =? 0 then skip_zeros t else l
  end.
Definition strip (l : list N) : list N := rev (skip_zeros (rev l)).

Definition f_string : F (list N) := l <~ f_rest ;; fret (strip l).

(** A sub-parser for the next [n] bytes: its starting state. *)
Definition f_split (n : N) : F (list N * N) :=
  fun env l pos =>
    if n =? 0 then FOk ([], pos) l pos []
    else match f_take n env l pos with
         | FOk d l' pos' ev => FOk (d, pos) l' pos' ev
         | FErr e l' pos' ev => FErr e l' pos' ev
         end.

(** Run [m] on the state of a sub-parser, which ends with a plain Eof. *)
Definition f_sub {B : Type} (m : F B) (cfg : config) (st : list N * N) : F B :=
  fun env l pos =>
    match m (mkEnv cfg eof_error) (fst st) (snd st) with
    | FOk b _ _ ev => FOk b l pos ev
    | FErr e _ _ ev => FErr e l pos ev
    end.

(** An array element of [fl_size] bytes, decoded in a byte order. *)
Record felem (B : Type) : Type := mkFelem { fl_size : N; fl_dec : order -> list N -> B }.
Arguments mkFelem {B} _ _.
Arguments fl_size {B} _.
Arguments fl_dec {B} _ _ _.

Definition fl_u64 : felem N := mkFelem 8 from_order.
Definition fl_ns : felem ns_entry :=
  mkFelem 16 (fun o l => mkNs (from_order o (take 8 l)) (from_order o (drop 8 l))).
Definition fl_branch : felem branch_entry :=
  mkFelem 24 (fun o l => mkBranch (from_order o (take 8 l)) (from_order o (take 8 (drop 8 l)))
                                  (from_order o (drop 16 l))).

Definition decode {B : Type} (E : felem B) (o : order) (l : list N) : list B :=
  map (fl_dec E o) (chunks (fl_size E) l).

(** An array of [n] elements.  In the host's byte order a byte length above the
    address space is rejected, and an empty array at the end is an error. *)
Definition f_array {B : Type} (pl : platform) (E : felem B) (n : N) : F (list B) :=
  fun env l pos =>
    let o := order_of pl (c_endian (fe_cfg env)) in
    let size := n * fl_size E in
    let native := order_eqb o (pl_host pl) in
    if native && (usize_max pl <? size)
    then FErr (custom_error KInvalidRecord MsgSliceTooLong) l pos []
    else if native && (len l =? 0) then FErr (fe_fin env) [] pos []
    else if len l <? size then FErr (fe_fin env) [] (pos + len l) []
    else FOk (decode E o (take size l)) (drop size l) (pos + size)
             (if native && negb (n =? 0) then [ESlice (pl_align pl) pos] else []).

Section Records.
Context (pl : platform).

Let u8 := f_uint pl 1.
Let u16 := f_uint pl 2.
Let u32 := f_uint pl 4.
Let u64 := f_uint pl 8.

Definition f_header : F header :=
  t <~ u32 ;; m <~ u16 ;; s <~ u16 ;; fret (mkHeader t m s).

Definition f_lost : F lost := id <~ u64 ;; n <~ u64 ;; fret (mkLost id n).
Definition f_lost_samples : F lost_samples := n <~ u64 ;; fret (mkLostSamples n).
Definition f_exit : F exit :=
  pid <~ u32 ;; ppid <~ u32 ;; tid <~ u32 ;; ptid <~ u32 ;; time <~ u64 ;;
  fret (mkExit pid ppid tid ptid time).
Definition f_throttle : F throttle :=
  time <~ u64 ;; id <~ u64 ;; sid <~ u64 ;; fret (mkThrottle time id sid).
Definition f_aux : F aux := o <~ u64 ;; s <~ u64 ;; f <~ u64 ;; fret (mkAux o s f).
Definition f_itrace_start : F itrace_start :=
  pid <~ u32 ;; tid <~ u32 ;; fret (mkItraceStart pid tid).
Definition f_switch_cpu_wide : F switch_cpu_wide :=
  pid <~ u32 ;; tid <~ u32 ;; c <~ fcfg ;;
  fret (if negb (N.land (misc c) MISC_SWITCH_OUT =? 0) then SwOut pid tid else SwIn pid tid).
Definition f_bpf_event : F bpf_event :=
  ty <~ u16 ;; f <~ u16 ;; id <~ u32 ;; tag <~ f_take 8 ;; fret (mkBpf ty f id tag).
Definition f_aux_output_hw_id : F aux_output_hw_id := h <~ u64 ;; fret (mkHwId h).
Definition f_mmap : F (mmap list) :=
  pid <~ u32 ;; tid <~ u32 ;; addr <~ u64 ;; n <~ u64 ;; pgoff <~ u64 ;; f <~ f_string ;;
  fret (mkMmap pid tid addr n pgoff f).
Definition f_mmap_detail : F mmap_detail :=
  c <~ fcfg ;;
  if negb (N.land (misc c) MISC_MMAP_BUILD_ID =? 0) then
    n <~ u8 ;; _ <~ u8 ;; _ <~ u16 ;; b <~ f_take 20 ;;
    if 20 <? n then ffail (custom_error KInvalidRecord (MsgBuildIdLen n))
    else fret (MdBuildId b n)
  else maj <~ u32 ;; min <~ u32 ;; ino <~ u64 ;; g <~ u64 ;; fret (MdDefault maj min ino g).
Definition f_mmap2 : F (mmap2 list) :=
  pid <~ u32 ;; tid <~ u32 ;; addr <~ u64 ;; n <~ u64 ;; pgoff <~ u64 ;;
  d <~ f_mmap_detail ;; prot <~ u32 ;; flags <~ u32 ;; f <~ f_string ;;
  fret (mkMmap2 pid tid addr n pgoff d prot flags f).
Definition f_comm : F (comm list) :=
  pid <~ u32 ;; tid <~ u32 ;; s <~ f_string ;; fret (mkComm pid tid s).
Definition f_ksymbol : F (ksymbol list) :=
  addr <~ u64 ;; n <~ u32 ;; ty <~ u16 ;; f <~ u16 ;; s <~ f_string ;;
  fret (mkKsymbol addr n ty f s).
Definition f_cgroup : F (cgroup list) := id <~ u64 ;; s <~ f_string ;; fret (mkCgroup id s).

(** Leave an event if [b]. *)
Definition f_event (b : bool) (e : event) : F unit :=
  fun _ l pos => FOk tt l pos (if b then [e] else []).

Definition f_text_poke : F (text_poke list) :=
  addr <~ u64 ;; ol <~ u16 ;; nl <~ u16 ;;
  let full := round_up_mod (ol + nl) 4 8 in
  b <~ f_take full ;;
  _ <~ f_event ((ol =? 0) || (ol =? full)) EPoke ;;
  fret (mkTextPoke addr (take ol b) (take nl (drop ol b))).

Definition f_namespaces : F (namespaces list) :=
  pid <~ u32 ;; tid <~ u32 ;; n <~ u64 ;;
  l <~ f_array pl fl_ns (as_usize pl n) ;; fret (mkNamespaces pid tid l).

Definition f_sample_id : F sample_id :=
  c <~ fcfg ;;
  let sty := sample_type c in
  if negb (sample_id_all c) then fret sample_id_default
  else
    pid <~ f_if (contains sty SF_TID) u32 ;;
    tid <~ f_if (contains sty SF_TID) u32 ;;
    time <~ f_if (contains sty SF_TIME) u64 ;;
    id <~ f_if (contains sty SF_ID) u64 ;;
    sid <~ f_if (contains sty SF_STREAM_ID) u64 ;;
    cpu <~ f_if (contains sty SF_CPU) (a <~ u32 ;; _ <~ u32 ;; fret a) ;;
    ident <~ f_if (contains sty SF_IDENTIFIER) u64 ;;
    fret (mkSampleId pid tid time (opt_or id ident) sid cpu).

Definition f_read_value : F read_value :=
  c <~ fcfg ;;
  let rf := read_format c in
  if contains rf RF_GROUP then ffail (custom_error KUnsupportedConfig MsgSingleReadGroup)
  else if negb (difference rf RF_ALL =? 0)
  then ffail (custom_error KUnsupportedConfig MsgReadFormatFlags)
  else
    v <~ u64 ;;
    te <~ f_if (contains rf RF_TIME_ENABLED) u64 ;;
    tr <~ f_if (contains rf RF_TIME_RUNNING) u64 ;;
    id <~ f_if (contains rf RF_ID) u64 ;;
    lo <~ f_if (contains rf RF_LOST) u64 ;;
    fret (mkReadValue rf v (unwrap_or te 0) (unwrap_or tr 0) (unwrap_or id 0) (unwrap_or lo 0)).

Definition f_read_group : F (read_group list) :=
  c <~ fcfg ;;
  let rf := read_format c in
  if negb (contains rf RF_GROUP) then ffail (custom_error KUnsupportedConfig MsgGroupReadSingle)
  else if negb (difference rf RF_ALL =? 0)
  then ffail (custom_error KUnsupportedConfig MsgReadFormatFlags)
  else
    nr <~ u64 ;;
    te <~ f_if (contains rf RF_TIME_ENABLED) u64 ;;
    tr <~ f_if (contains rf RF_TIME_RUNNING) u64 ;;
    let n := as_usize pl nr * element_len rf in
    if usize_max pl <? n then ffail (custom_error KInvalidRecord MsgGroupTooLarge)
    else d <~ f_array pl fl_u64 n ;;
         fret (mkReadGroup rf (unwrap_or te 0) (unwrap_or tr 0) d).

Definition f_read : F read :=
  pid <~ u32 ;; tid <~ u32 ;; v <~ f_read_value ;; fret (mkRead pid tid v).

Definition f_registers (mask : N) : F (registers list) :=
  abi <~ u64 ;; l <~ f_array pl fl_u64 (popcount mask) ;; fret (mkRegs abi mask l).

Definition f_group_of_value (v : read_value) : read_group list :=
  mkReadGroup (N.lor (rv_format v) RF_GROUP) (rv_enabled v) (rv_running v)
    ([rv_value v] ++ opt_list (rv_get_id v) ++ opt_list (rv_get_lost v)).

Definition f_sample_read : F (read_group list) :=
  c <~ fcfg ;;
  if contains (read_format c) RF_GROUP then f_read_group
  else v <~ f_read_value ;; fret (f_group_of_value v).

Definition f_callchain : F (list N) :=
  nr <~ u64 ;; f_array pl fl_u64 (as_usize pl nr).

Definition f_raw : F (list N) :=
  f_padded 8 (n <~ u32 ;; f_take (as_usize pl n)).

Definition f_lbr (hw : bool) : F (list branch_entry * option N) :=
  nr <~ u64 ;; h <~ f_if hw u64 ;; l <~ f_array pl fl_branch (as_usize pl nr) ;; fret (l, h).

Definition f_stack_user : F (list N) :=
  n <~ u64 ;;
  d <~ f_take (as_usize pl n) ;;
  k <~ (if as_usize pl n =? 0 then fret 0 else d <~ u64 ;; fret (as_usize pl d)) ;;
  if len d <? k then ffail (custom_error KInvalidRecord MsgDynSize) else fret (take k d).

Definition f_sample_aux : F (list N) := n <~ u64 ;; f_take (as_usize pl n).

Definition f_sample : F (sample list) :=
  c <~ fcfg ;;
  let sty := sample_type c in
  id0 <~ f_if (contains sty SF_IDENTIFIER) u64 ;;
  ip <~ f_if (contains sty SF_IP) u64 ;;
  pid <~ f_if (contains sty SF_TID) u32 ;;
  tid <~ f_if (contains sty SF_TID) u32 ;;
  time <~ f_if (contains sty SF_TIME) u64 ;;
  addr <~ f_if (contains sty SF_ADDR) u64 ;;
  id1 <~ f_if (contains sty SF_ID) u64 ;;
  stream_id <~ f_if (contains sty SF_STREAM_ID) u64 ;;
  cpu <~ f_if (contains sty SF_CPU) (a <~ u32 ;; _ <~ u32 ;; fret a) ;;
  period <~ f_if (contains sty SF_PERIOD) u64 ;;
  values <~ f_if (contains sty SF_READ) f_sample_read ;;
  callchain <~ f_if (contains sty SF_CALLCHAIN) f_callchain ;;
  raw <~ f_if (contains sty SF_RAW) f_raw ;;
  lbr <~ f_if (contains sty SF_BRANCH_STACK) (f_lbr (branch_hw_index c)) ;;
  regs_user <~ f_if (contains sty SF_REGS_USER) (f_registers (c_regs_user c)) ;;
  stack_user <~ f_if (contains sty SF_STACK_USER) f_stack_user ;;
  weight <~ f_if (contains sty SF_WEIGHT) u64 ;;
  data_src <~ f_if (contains sty SF_DATA_SRC) u64 ;;
  transaction <~ f_if (contains sty SF_TRANSACTION) u64 ;;
  regs_intr <~ f_if (contains sty SF_REGS_INTR) (f_registers (c_regs_intr c)) ;;
  phys_addr <~ f_if (contains sty SF_PHYS_ADDR) u64 ;;
  cgroup <~ f_if (contains sty SF_CGROUP) u64 ;;
  data_page_size <~ f_if (contains sty SF_DATA_PAGE_SIZE) u64 ;;
  code_page_size <~ f_if (contains sty SF_CODE_PAGE_SIZE) u64 ;;
  aux <~ f_if (contains sty SF_AUX) f_sample_aux ;;
  fret (mkSample ip pid tid time addr (opt_or id1 id0) stream_id cpu period values callchain raw
         (match lbr with Some (_, hw) => hw | None => None end)
         (match lbr with Some (l, _) => Some l | None => None end)
         regs_user stack_user weight data_src transaction regs_intr phys_addr aux
         cgroup data_page_size code_page_size).

(** Header, body, trailing sample_id: the starting state for the body, and the
    metadata. *)
Definition f_metadata_with_header (h : header) : F ((list N * N) * metadata) :=
  if h_size h <? 8 then ffail (custom_error KInvalidRecord MsgHeaderTooSmall)
  else
    st <~ f_split (h_size h - 8) ;;
    if (h_type h =? 1) || (h_type h =? 9)
    then fret (st, mkMeta (h_type h) (h_misc h) sample_id_default)
    else
      c <~ fcfg ;;
      if h_size h - 8 <? estimate_len c
      then ffail (custom_error KInvalidRecord MsgNoRoomForSampleId)
      else
        r <~ f_sub (b <~ f_split (h_size h - 8 - estimate_len c) ;;
                    si <~ f_sample_id ;; fret (b, si)) c st ;;
        fret (fst r, mkMeta (h_type h) (h_misc h) (snd r)).

Definition f_metadata : F ((list N * N) * metadata) :=
  h <~ f_header ;; f_metadata_with_header h.

(** The body of a record of type [t]. *)
Definition f_body (t : N) : F (body list) :=
  if t =? 1 then r <~ f_mmap ;; fret (BMmap r)
  else if t =? 2 then r <~ f_lost ;; fret (BLost r)
  else if t =? 3 then r <~ f_comm ;; fret (BComm r)
  else if t =? 4 then r <~ f_exit ;; fret (BExit r)
  else if t =? 5 then r <~ f_throttle ;; fret (BThrottle r)
  else if t =? 6 then r <~ f_throttle ;; fret (BUnthrottle r)
  else if t =? 7 then r <~ f_exit ;; fret (BFork r)
  else if t =? 8 then r <~ f_read ;; fret (BRead r)
  else if t =? 9 then r <~ f_sample ;; fret (BSample r)
  else if t =? 10 then r <~ f_mmap2 ;; fret (BMmap2 r)
  else if t =? 11 then r <~ f_aux ;; fret (BAux r)
  else if t =? 12 then r <~ f_itrace_start ;; fret (BItraceStart r)
  else if t =? 13 then r <~ f_lost_samples ;; fret (BLostSamples r)
  else if t =? 15 then r <~ f_switch_cpu_wide ;; fret (BSwitchCpuWide r)
  else if t =? 16 then r <~ f_namespaces ;; fret (BNamespaces r)
  else if t =? 17 then r <~ f_ksymbol ;; fret (BKsymbol r)
  else if t =? 18 then r <~ f_bpf_event ;; fret (BBpfEvent r)
  else if t =? 19 then r <~ f_cgroup ;; fret (BCgroup r)
  else if t =? 20 then r <~ f_text_poke ;; fret (BTextPoke r)
  else if t =? 21 then r <~ f_aux_output_hw_id ;; fret (BAuxOutputHwId r)
  else r <~ f_rest ;; fret (BUnknown r).

Definition f_record_with_header (h : header) : F (body list * metadata) :=
  r <~ f_metadata_with_header h ;;
  c <~ fcfg ;;
  b <~ f_sub (f_body (h_type h)) (with_misc c (h_misc h)) (fst r) ;;
  fret (b, snd r).

Definition f_record : F (body list * metadata) :=
  h <~ f_header ;; f_record_with_header h.

Definition f_or0 (b : bool) (m : F N) : F N := if b then m else fret 0.

Definition f_attr_fields (type size : N) : F attr :=
  let v0 := 64 <=? size in
  config <~ f_or0 v0 u64 ;;
  sample_period <~ f_or0 v0 u64 ;;
  sample_type <~ f_or0 v0 u64 ;;
  read_format <~ f_or0 v0 u64 ;;
  bits <~ f_or0 v0 u64 ;;
  wakeup_events <~ f_or0 v0 u32 ;;
  bp_type <~ f_or0 v0 u32 ;;
  config1 <~ f_or0 v0 u64 ;;
  config2 <~ f_or0 (72 <=? size) u64 ;;
  branch_sample_type <~ f_or0 (80 <=? size) u64 ;;
  let v3 := 96 <=? size in
  sample_regs_user <~ f_or0 v3 u64 ;;
  sample_stack_user <~ f_or0 v3 u32 ;;
  clockid <~ f_or0 v3 u32 ;;
  sample_regs_intr <~ f_or0 (104 <=? size) u64 ;;
  let v5 := 112 <=? size in
  aux_watermark <~ f_or0 v5 u32 ;;
  sample_max_stack <~ f_or0 v5 u16 ;;
  _ <~ f_or0 v5 u16 ;;
  let v6 := 120 <=? size in
  aux_sample_size <~ f_or0 v6 u32 ;;
  _ <~ f_or0 v6 u32 ;;
  sig_data <~ f_or0 (128 <=? size) u64 ;;
  config3 <~ f_or0 (136 <=? size) u64 ;;
  _ <~ (if 136 <? size then
          rest <~ f_rest ;;
          if forallb (fun b => b =? 0) rest then fret tt
          else ffail (custom_error KUnsupportedData MsgAttrTail)
        else fret tt) ;;
  fret (mkAttr type size config sample_period sample_type read_format bits
         wakeup_events bp_type config1 config2 branch_sample_type sample_regs_user
         sample_stack_user clockid sample_regs_intr aux_watermark sample_max_stack
         aux_sample_size sig_data config3).

Definition f_attr : F attr :=
  type <~ u32 ;;
  size <~ u32 ;;
  if negb (attr_size_ok size) then ffail (custom_error KInvalidRecord (MsgAttrSize size))
  else
    st <~ f_split (size - 4) ;;
    c <~ fcfg ;;
    f_sub (f_attr_fields type size) c st.

End Records.
