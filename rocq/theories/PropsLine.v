(** Theorems: the one-line Debug text of records and samples (C58). *)
From Coq Require Import String NArith List Bool Lia.
From Verif Require Import Base BaseFacts Types Platform Config Buf Parser Records Sample Record.
From Verif Require Import Read Access Fmt Text Show Views Wire ReadFacts FmtFacts TextFacts ShowFacts.
From Verif Require Import ExData PropsAccess PropsShow.
Import ListNotations.
Open Scope N_scope.

(** ** Decimal numbers *)
Theorem C58_decimal : forall n alt,
  exists ds, d_dec n alt = Ok ds /\ ds <> [] /\ Forall (fun c => 48 <= c <= 57) ds /\
    fold_left (fun v c => v * 10 + (c - 48)) ds 0 = n /\ (hd 0 ds = 48 -> n = 0 /\ ds = [48]).
Proof.
  intros n alt. exists (dec n). split; [reflexivity|].
  destruct (digits_facts (S (N.size_nat n)) 10 n) as (Hv & Hd & Hne & Hz); [lia|apply size_bound; lia|].
  specialize (Hne ltac:(discriminate)). unfold dec. set (l := digits _ 10 n) in *. clearbody l.
  assert (E : map digit_char l = map (fun d => 48 + d) l).
  { apply map_ext_in. intros d Hi. rewrite Forall_forall in Hd. specialize (Hd d Hi).
    unfold digit_char. destruct (N.ltb_spec d 10); [reflexivity|lia]. }
  rewrite E. split; [now destruct l|]. split.
  { apply Forall_map. eapply Forall_impl; [|exact Hd]. cbv beta. intros; lia. }
  split.
  { rewrite <- Hv. unfold number. clear. generalize 0. induction l as [|d l IH]; intros v; [reflexivity|].
    cbn [map fold_left]. rewrite IH. f_equal. lia. }
  intros H. destruct l as [|d t]; [congruence|]. cbn [map hd] in H. assert (d = 0) as -> by lia.
  rewrite (Hz t eq_refl) in *. split; [now rewrite <- Hv|reflexivity].
Qed.

(** ** Structs, tuples and lists on one line *)
Definition braces (name : string) (l : list (string * text)) : text :=
  txt name ++ txt " { " ++ commas (map (fun p => txt (fst p) ++ txt ": " ++ snd p) l) ++ txt " }".
Definition parens (name : string) (t : text) : text := txt name ++ txt "(" ++ t ++ txt ")".
Definition brackets (l : list text) : text := txt "[" ++ commas l ++ txt "]".
Definition numbers (l : list N) : text := brackets (map dec l).
Definition quoted (esc : N -> list N) (ps : list piece) : text :=
  [34] ++ flat_map (piece_text esc) ps ++ [34].
(** The bytes are these characters and stray bytes (C50). *)
Definition cut (l : list N) (ps : list piece) : Prop := bytes l /\ raw ps = l /\ proper ps.
(** An address: at least 14 digits (C54). *)
Definition address (n : N) : text := txt "0x" ++ repeat 48 (14 - List.length (hex n)) ++ hex n.

Definition hex_line (n : N) : text := txt "0x" ++ hex n.
(** Counter values and sample ids (C51, C52). *)
Definition value_line (v : read_value) : text :=
  txt "SingleRead { " ++ flat_map inline (value_items v) ++ txt ".. }".
Definition id_line (s : sample_id) : text :=
  txt "SampleId { " ++ flat_map inline (id_items s) ++ txt ".. }".

Inductive lines : list (string * fmt) -> list (string * text) -> Prop :=
| L0 : lines [] []
| L1 : forall n v t fs l, v false = Ok t -> lines fs l -> lines ((n, v) :: fs) ((n, t) :: l).

Lemma lines_prints : forall fs l, lines fs l -> prints false fs (somes l).
Proof. induction 1; constructor; assumption. Qed.

Lemma joined_commas : forall l,
  joined l = commas (map (fun p => txt (fst p) ++ txt ": " ++ snd p) l).
Proof.
  intros [|[n v] l]; [reflexivity|]. cbn [joined commas map fst snd].
  rewrite <- !app_assoc. do 3 f_equal. induction l as [|p l IH]; [reflexivity|].
  cbn [flat_map map]. now rewrite IH.
Qed.

Lemma struct_line : forall name fs l, l <> [] -> lines fs l ->
  d_struct name fs true false = Ok (braces name l).
Proof.
  intros name fs l Hne H. rewrite (full_struct_text name false fs l Hne (lines_prints _ _ H)).
  unfold full_struct, braces. now rewrite joined_commas.
Qed.

Lemma list_line : forall vs ts, Forall2 (fun (v : fmt) t => v false = Ok t) vs ts ->
  d_list vs false = Ok (brackets ts).
Proof.
  intros vs ts H. rewrite (d_list_text false vs ts H). unfold list_text, brackets, commas.
  destruct ts; reflexivity.
Qed.

Lemma map_line : forall A (d : A -> fmt) (f : A -> text) l, (forall a, d a false = Ok (f a)) ->
  d_list (map d l) false = Ok (brackets (map f l)).
Proof.
  intros A d f l H. apply list_line. induction l; constructor; [apply H|assumption].
Qed.

Lemma decs_line : forall c, d_decs c false = Ok (numbers (cow_list c)).
Proof. intros c. apply map_line. reflexivity. Qed.

Lemma tuple_line : forall name v t, v false = Ok t -> d_tuple1 name v false = Ok (parens name t).
Proof. intros name v t H. unfold d_tuple1. rewrite H. reflexivity. Qed.

Lemma str_line : forall X l ps, cut l ps -> d_byte_str X l false = Ok (quoted (x_esc X) ps).
Proof.
  intros X l ps (Hb & Hr & Hp).
  destruct (C50_byte_str (x_esc X) l Hb) as (qs & Hr' & Hp' & E).
  rewrite (C50_unique ps qs Hp Hp') by congruence. exact E.
Qed.

Ltac lines_step :=
  repeat (apply L1; [first [reflexivity | apply decs_line | apply str_line; assumption]|]); apply L0.
Ltac struct_tac := apply struct_line; [discriminate|lines_step].

(** ** Records *)
Theorem C58_fixed : forall X pl,
  (forall r, show_record X pl (RBody (BLost r)) false =
     Ok (parens "Lost" (braces "Lost" [("id", dec (lost_id r)); ("lost", dec (lost_lost r))]%string))) /\
  (forall r, show_record X pl (RBody (BExit r)) false =
     Ok (parens "Exit" (braces "Exit"
       [("pid", dec (ex_pid r)); ("ppid", dec (ex_ppid r)); ("tid", dec (ex_tid r));
        ("ptid", dec (ex_ptid r)); ("time", dec (ex_time r))]%string))) /\
  (forall r, show_record X pl (RBody (BFork r)) false =
     Ok (parens "Fork" (braces "Exit"
       [("pid", dec (ex_pid r)); ("ppid", dec (ex_ppid r)); ("tid", dec (ex_tid r));
        ("ptid", dec (ex_ptid r)); ("time", dec (ex_time r))]%string))) /\
  (forall r, show_record X pl (RBody (BThrottle r)) false =
     Ok (parens "Throttle" (braces "Throttle"
       [("time", dec (th_time r)); ("id", dec (th_id r)); ("stream_id", dec (th_stream_id r))]%string))) /\
  (forall r, show_record X pl (RBody (BUnthrottle r)) false =
     Ok (parens "Unthrottle" (braces "Throttle"
       [("time", dec (th_time r)); ("id", dec (th_id r)); ("stream_id", dec (th_stream_id r))]%string))) /\
  (forall r, show_record X pl (RBody (BRead r)) false =
     Ok (parens "Read" (braces "Read"
       [("pid", dec (rd_pid r)); ("tid", dec (rd_tid r));
        ("values", value_line (rd_values r))]%string))) /\
  (forall r, show_record X pl (RBody (BAux r)) false =
     Ok (parens "Aux" (braces "Aux"
       [("aux_offset", dec (aux_offset r)); ("aux_size", dec (aux_size r));
        ("flags", x_word X "AuxFlags" (aux_flags r) false)]%string))) /\
  (forall r, show_record X pl (RBody (BItraceStart r)) false =
     Ok (parens "ITraceStart" (braces "ITraceStart"
       [("pid", dec (it_pid r)); ("tid", dec (it_tid r))]%string))) /\
  (forall r, show_record X pl (RBody (BLostSamples r)) false =
     Ok (parens "LostSamples" (braces "LostSamples" [("lost", dec (ls_lost r))]%string))) /\
  show_record X pl (RBody BSwitch) false = Ok (txt "Switch") /\
  (forall p t, show_record X pl (RBody (BSwitchCpuWide (SwIn p t))) false =
     Ok (parens "SwitchCpuWide" (braces "In" [("pid", dec p); ("tid", dec t)]%string))) /\
  (forall p t, show_record X pl (RBody (BSwitchCpuWide (SwOut p t))) false =
     Ok (parens "SwitchCpuWide" (braces "Out" [("pid", dec p); ("tid", dec t)]%string))) /\
  (forall r, show_record X pl (RBody (BBpfEvent r)) false =
     Ok (parens "BpfEvent" (braces "BpfEvent"
       [("ty", x_word X "BpfEventType" (bpf_ty r) false); ("flags", dec (bpf_flags r));
        ("id", dec (bpf_id r)); ("tag", numbers (bpf_tag r))]%string))) /\
  (forall r, show_record X pl (RBody (BAuxOutputHwId r)) false =
     Ok (parens "AuxOutputHwId" (braces "AuxOutputHwId" [("hw_id", dec (hw_id r))]%string))).
Proof.
  intros X pl.
  repeat match goal with |- _ /\ _ => split end; intros; cbn [show_record]; try reflexivity;
    apply tuple_line; try (struct_tac; fail).
  - apply struct_line; [discriminate|]. repeat constructor. cbn [snd]. apply C51_read_value.
  - apply struct_line; [discriminate|]. repeat (apply L1; [first [reflexivity|apply map_line; reflexivity]|]). apply L0.
Qed.

Theorem C58_names : forall X pl ps,
  (forall r, cut (cow_list (cm_comm r)) ps -> show_record X pl (RBody (BComm r)) false =
     Ok (parens "Comm" (braces "Comm"
       [("pid", dec (cm_pid r)); ("tid", dec (cm_tid r)); ("comm", quoted (x_esc X) ps)]%string))) /\
  (forall r, cut (cow_list (cg_path r)) ps -> show_record X pl (RBody (BCgroup r)) false =
     Ok (parens "CGroup" (braces "CGroup"
       [("id", dec (cg_id r)); ("path", quoted (x_esc X) ps)]%string))) /\
  (forall r, cut (cow_list (mm_filename r)) ps -> show_record X pl (RBody (BMmap r)) false =
     Ok (parens "Mmap" (braces "Mmap"
       [("pid", dec (mm_pid r)); ("tid", dec (mm_tid r)); ("addr", address (mm_addr r));
        ("len", dec (mm_len r)); ("pgoff", dec (mm_pgoff r)); ("filename", quoted (x_esc X) ps)]%string))) /\
  (forall r, cut (cow_list (ks_name r)) ps -> show_record X pl (RBody (BKsymbol r)) false =
     Ok (parens "KSymbol" (braces "KSymbol"
       [("addr", address (ks_addr r)); ("len", dec (ks_len r));
        ("ksym_type", x_word X "KSymbolType" (ks_type r) false);
        ("flags", x_word X "KSymbolFlags" (ks_flags r) false); ("name", quoted (x_esc X) ps)]%string))).
Proof.
  intros X pl ps. repeat match goal with |- _ /\ _ => split end; intros; cbn [show_record];
    apply tuple_line; struct_tac.
Qed.

(** MMAP2: the device and inode, or the used part of the build id as [HexStr]
    prints it (C46). *)
Theorem C58_mmap2 : forall X pl ps r, cut (cow_list (m2_filename r)) ps ->
  let line mid := Ok (parens "Mmap2" (braces "Mmap2"
    ([("pid", dec (m2_pid r)); ("tid", dec (m2_tid r)); ("addr", address (m2_addr r));
      ("len", dec (m2_len r)); ("pgoff", dec (m2_pgoff r))]%string ++ mid ++
     [("prot", dec (m2_prot r)); ("flags", dec (m2_flags r)); ("filename", quoted (x_esc X) ps)]%string))) in
  (forall maj min ino gen, m2_detail r = MdDefault maj min ino gen ->
     show_record X pl (RBody (BMmap2 r)) false =
     line [("maj", dec maj); ("min", dec min); ("ino", dec ino); ("ino_generation", dec gen)]%string) /\
  (forall b n h, m2_detail r = MdBuildId b n -> n <= len b -> hex_str (firstn (N.to_nat n) b) = Ok h ->
     show_record X pl (RBody (BMmap2 r)) false = line [("build_id"%string, h)]).
Proof.
  intros X pl ps r Hc line. cbn [show_record]. unfold line, show_mmap2, d_tuple1, detail_fields. split.
  - intros maj min ino gen E. rewrite E. cbn [obind app].
    rewrite (struct_line "Mmap2" _ ([("pid", dec (m2_pid r)); ("tid", dec (m2_tid r)); ("addr", address (m2_addr r));
      ("len", dec (m2_len r)); ("pgoff", dec (m2_pgoff r)); ("maj", dec maj); ("min", dec min); ("ino", dec ino);
      ("ino_generation", dec gen); ("prot", dec (m2_prot r)); ("flags", dec (m2_flags r));
      ("filename", quoted (x_esc X) ps)]%string)); [reflexivity|discriminate|lines_step].
  - intros b n h E Hn Hh. rewrite E. unfold m2_build_id. rewrite E.
    destruct (N.ltb_spec (len b) n) as [H|_]; [lia|]. cbn [obind app].
    assert (Hd : d_hex_str (take n b) false = Ok h).
    { unfold d_hex_str. rewrite <- Hh. f_equal. apply take_firstn. }
    rewrite (struct_line "Mmap2" _ ([("pid", dec (m2_pid r)); ("tid", dec (m2_tid r)); ("addr", address (m2_addr r));
      ("len", dec (m2_len r)); ("pgoff", dec (m2_pgoff r)); ("build_id", h); ("prot", dec (m2_prot r)); ("flags", dec (m2_flags r));
      ("filename", quoted (x_esc X) ps)]%string)); [reflexivity|discriminate|].
    repeat (apply L1; [first [reflexivity | exact Hd | apply str_line; assumption]|]); apply L0.
Qed.

Theorem C58_lists : forall X pl,
  (forall r, show_record X pl (RBody (BTextPoke r)) false =
     Ok (parens "TextPoke" (braces "TextPoke"
       [("addr", address (tp_addr r)); ("old_bytes", numbers (cow_list (tp_old r)));
        ("new_bytes", numbers (cow_list (tp_new r)))]%string))) /\
  (forall r, show_record X pl (RBody (BNamespaces r)) false =
     Ok (parens "Namespaces" (braces "Namespaces"
       [("pid", dec (nss_pid r)); ("tid", dec (nss_tid r));
        ("namespaces", brackets (map (fun e => braces "NamespaceEntry"
           [("dev", dec (ns_dev e)); ("inode", dec (ns_inode e))]) (cow_list (nss_entries r))))]%string))) /\
  (forall ty d, show_record X pl (RUnknown ty d) false =
     Ok (braces "Unknown" [("ty", dec ty); ("data", numbers (cow_list d))]%string)).
Proof.
  intros X pl. repeat match goal with |- _ /\ _ => split end; intros; cbn [show_record];
    try apply tuple_line; try (struct_tac; fail).
  apply struct_line; [discriminate|].
  repeat (apply L1; [first [reflexivity | apply map_line; intros e; struct_tac]|]); apply L0.
Qed.

(** ** SAMPLE *)
Definition some_line (p : string * option text) : text :=
  match snd p with Some v => txt (fst p) ++ txt ": " ++ v ++ txt ", " | None => [] end.

Definition registers_line (X : ext) (r : registers cow) : text :=
  braces "Registers"
    [("abi", x_word X "SampleRegsAbi" (rg_abi r) false); ("mask", dec (rg_mask r));
     ("regs", numbers (cow_list (rg_regs r)))]%string.
Definition data_src_line (X : ext) (o : order) (w : N) : text :=
  braces "DataSource"
    [("mem_op", x_word X "MemOp" (ds_mem_op o w) false);
     ("mem_lvl", x_word X "MemLevel" (ds_mem_lvl o w) false);
     ("mem_snoop", x_word X "MemSnoop" (ds_mem_snoop o w) false);
     ("mem_lock", x_word X "MemLock" (ds_mem_lock o w) false);
     ("mem_dtlb", x_word X "MemDtlb" (ds_mem_dtlb o w) false);
     ("mem_lvl_num", x_word X "MemLevelNum" (ds_mem_lvl_num o w) false);
     ("mem_remote", txt (if ds_mem_remote o w then "true" else "false"));
     ("mem_blk", x_word X "MemBlk" (ds_mem_blk o w) false);
     ("mem_hops", dec (ds_mem_hops o w))]%string.
Definition group_line (g : read_group cow) (ks : list counter) : text :=
  txt "GroupRead { " ++ flat_map inline (time_items g) ++ txt "entries: ["
  ++ commas (map (fun k => txt "GroupEntry { " ++ flat_map inline (counter_items (rg_format g) k)
                           ++ txt ".. }") ks)
  ++ txt "], .. }".

(** The fields of a sample with their texts, in order; [ks]: the counters of
    the group. *)
Definition sample_texts (X : ext) (o : order) (s : sample cow) (ks : list counter)
  : list (string * option text) :=
  let num := option_map dec in
  let nums x := option_map (fun c => numbers (cow_list c)) x in
  let addr := option_map address in
  [("ip", num (s_ip s)); ("pid", num (s_pid s)); ("tid", num (s_tid s)); ("time", num (s_time s));
   ("addr", addr (s_addr s)); ("id", num (s_id s)); ("stream_id", num (s_stream_id s));
   ("cpu", num (s_cpu s)); ("period", num (s_period s));
   ("values", option_map (fun g => group_line g ks) (s_values s));
   ("callchain", nums (s_callchain s)); ("raw", nums (s_raw s));
   ("lbr_hw_index", num (s_lbr_hw_index s));
   ("lbr", option_map (fun c => brackets (map (fun b => parens "BranchEntry" (x_branch X b false)) (cow_list c)))
             (s_lbr s));
   ("regs_user", option_map (registers_line X) (s_regs_user s));
   ("stack_user", nums (s_stack_user s)); ("weight", num (s_weight s));
   ("data_src", option_map (data_src_line X o) (s_data_src s));
   ("transaction", option_map (fun n => x_word X "Txn" n false) (s_transaction s));
   ("regs_intr", option_map (registers_line X) (s_regs_intr s));
   ("phys_addr", addr (s_phys_addr s)); ("aux", nums (s_aux s)); ("cgroup", num (s_cgroup s));
   ("data_page_size", num (s_data_page_size s)); ("code_page_size", num (s_code_page_size s))]%string.

Lemma opt_prints : forall A name (d : A -> fmt) (f : A -> text) o fs l,
  (forall a, o = Some a -> d a false = Ok (f a)) -> prints false fs l ->
  prints false (present [(name, option_map d o)] ++ fs) ((name, option_map f o) :: l).
Proof.
  intros A name d f [a|] fs l H Hp; cbn; constructor; try assumption. now apply H.
Qed.

Lemma registers_line_eq : forall X r, show_registers X r false = Ok (registers_line X r).
Proof. intros X r. unfold show_registers, registers_line. struct_tac. Qed.

Theorem C58_sample : forall X pl s ks, (forall g, s_values s = Some g -> counters g ks) ->
  show_sample X pl s false =
  Ok (txt "Sample { " ++ flat_map some_line (sample_texts X (pl_host pl) s ks) ++ txt ".. }").
Proof.
  intros X pl s ks Hk. unfold show_sample.
  rewrite (open_struct_text _ _ _ (sample_texts X (pl_host pl) s ks)).
  - reflexivity.
  - unfold sample_debug_fields, sample_texts. rewrite !opt_field_present. cbv zeta.
    rewrite <- (app_nil_r (present [("code_page_size"%string, _)])).
    repeat (apply opt_prints;
      [try (intros ? ?; first [reflexivity | apply decs_line | apply registers_line_eq])|]).
    + intros g Hg. exact (C51_group g ks (Hk g Hg)).
    + intros c _. apply map_line. intros b. now apply tuple_line.
    + constructor.
Qed.

Theorem C58_metadata : forall m,
  show_metadata m false =
  Ok (braces "RecordMetadata"
    [("ty", dec (md_ty m)); ("misc", dec (md_misc m));
     ("sample_id", id_line (md_sample_id m))]%string).
Proof.
  intros m. apply struct_line; [discriminate|]. repeat constructor. apply C52_sample_id.
Qed.

Theorem C58_config : forall X c,
  show_config X c false =
  Ok (braces "ParseConfig"
    [("read_format", x_word X "ReadFormat" (read_format c) false);
     ("sample_type", x_word X "SampleFlags" (sample_type c) false);
     ("sample_id_all", txt (if sample_id_all c then "true" else "false"));
     ("branch_hw_index", txt (if branch_hw_index c then "true" else "false"));
     ("misc", hex_line (misc c)); ("regs_user", hex_line (c_regs_user c));
     ("regs_intr", hex_line (c_regs_intr c))]%string).
Proof. intros X c. unfold show_config. struct_tac. Qed.

(** A sample with a group, a call chain, branches and registers; a comm with a
    stray byte; the digits of a number. *)
Example C58_example :
  let g := mkReadGroup 0x0D 9 0 (Owned [5; 1; 6; 2]) in
  let s := mkSample (Some 16) (Some 1) None None (Some 255) None None None None (Some g)
    (Some (Owned [1; 2])) None (Some 3) (Some (Owned [mkBranch 7 8 9])) (Some (mkRegs 2 5 (Owned [10; 11])))
    None None (Some 0) None None None (Some (Owned [])) None None (Some 4096) in
  counters g [mkCounter 5 1 0; mkCounter 6 2 0] /\
  show_sample ex_ext pl64 s false = Ok
    (txt "Sample { ip: 16, pid: 1, addr: 0x000000000000FF, values: GroupRead { time_enabled: 9, entries: [GroupEntry { value: 5, id: 1, .. }, GroupEntry { value: 6, id: 2, .. }], .. }, callchain: [1, 2], lbr_hw_index: 3, lbr: [BranchEntry([7, 8, 9])], regs_user: Registers { abi: 2, mask: 5, regs: [10, 11] }, data_src: DataSource { mem_op: 0, mem_lvl: 0, mem_snoop: 0, mem_lock: 0, mem_dtlb: 0, mem_lvl_num: 0, mem_remote: false, mem_blk: 0, mem_hops: 0 }, aux: [], code_page_size: 4096, .. }") /\
  cut [97; 255] [Char 97; Stray 255] /\
  show_record ex_ext pl64 (RBody (BComm (mkComm 1 2 (Owned [97; 255])))) false =
    Ok (txt "Comm(Comm { pid: 1, tid: 2, comm: " ++ [34] ++ txt "a\xff" ++ [34] ++ txt " })") /\
  show_record ex_ext pl64 (RBody (BNamespaces (mkNamespaces 1 2 (Owned [mkNs 3 4; mkNs 5 6])))) true =
    Ok (txt "Namespaces(" ++ nl ++ txt "    Namespaces {" ++ nl ++ txt "        pid: 1," ++ nl ++
        txt "        tid: 2," ++ nl ++ txt "        namespaces: [" ++ nl ++
        txt "            NamespaceEntry {" ++ nl ++ txt "                dev: 3," ++ nl ++
        txt "                inode: 4," ++ nl ++ txt "            }," ++ nl ++
        txt "            NamespaceEntry {" ++ nl ++ txt "                dev: 5," ++ nl ++
        txt "                inode: 6," ++ nl ++ txt "            }," ++ nl ++ txt "        ]," ++ nl ++
        txt "    }," ++ nl ++ txt ")") /\
  d_dec 18446744073709551615 false = Ok (txt "18446744073709551615").
Proof.
  split; [exists []; split; reflexivity|]. split; [vm_compute; reflexivity|].
  split; [|repeat split; vm_compute; reflexivity].
  split; [repeat constructor|]. split; [reflexivity|]. split; [left; reflexivity|]. split; [|exact I].
  intros (c & t & Hc & E). revert E. unfold encode.
  destruct (N.ltb_spec c 128); [cbn; intros E; injection E; lia|].
  destruct (N.ltb_spec c 2048); [discriminate|].
  destruct (N.ltb_spec c 65536); discriminate.
Qed.

Print Assumptions C58_decimal.
Print Assumptions C58_fixed.
Print Assumptions C58_names.
Print Assumptions C58_mmap2.
Print Assumptions C58_lists.
Print Assumptions C58_sample.
Print Assumptions C58_metadata.
Print Assumptions C58_config.
