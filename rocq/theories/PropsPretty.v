(** Theorems: both Debug texts, over one line and over several (C64). *)
From Coq Require Import String NArith List Bool Lia.
From Verif Require Import Base BaseFacts Types Platform Config Buf Parser Records Sample Record.
From Verif Require Import Read Access Fmt Text Show Views Wire ReadFacts FmtFacts TextFacts ShowFacts.
From Verif Require Import Bits Contract Spec Layout ExData PropsAccess PropsShow PropsLine.
From Verif Require NoHint Safe RefFrame.
Import ListNotations.
Open Scope N_scope.

(** ** The parts of each value *)
Definition num (n : N) : tree := atom (dec n).
Definition nums (c : cow N) : tree := Items (map num (cow_list c)).
Definition addr (n : N) : tree := atom (address n).
Definition hexa (n : N) : tree := atom (hex_line n).
Definition flag (b : bool) : tree := atom (txt (if b then "true" else "false")).
Definition opt_num (p : string * option N) : string * option tree := (fst p, option_map num (snd p)).

Section Trees.
Context (X : ext) (o : order).

Definition word (ty : string) (n : N) : tree := Leaf (x_word X ty n false) (x_word X ty n true).
Definition name (ps : list piece) : tree := atom (quoted (x_esc X) ps).

Definition value_tree (v : read_value) : tree := Struct "SingleRead" (given (map opt_num (value_items v))) true.
Definition entry_tree (rf : N) (k : counter) : tree :=
  Struct "GroupEntry" (given (map opt_num (counter_items rf k))) true.
Definition group_tree (g : read_group cow) (ks : list counter) : tree :=
  Struct "GroupRead"
    (given (map opt_num (time_items g) ++ [("entries", Some (Items (map (entry_tree (rg_format g)) ks)))]%string))
    true.
Definition id_tree (s : sample_id) : tree := Struct "SampleId" (given (map opt_num (id_items s))) true.

Definition registers_tree (r : registers cow) : tree :=
  Struct "Registers"
    [("abi", word "SampleRegsAbi" (rg_abi r)); ("mask", num (rg_mask r)); ("regs", nums (rg_regs r))]%string false.
Definition data_src_tree (w : N) : tree :=
  Struct "DataSource"
    [("mem_op", word "MemOp" (ds_mem_op o w)); ("mem_lvl", word "MemLevel" (ds_mem_lvl o w));
     ("mem_snoop", word "MemSnoop" (ds_mem_snoop o w)); ("mem_lock", word "MemLock" (ds_mem_lock o w));
     ("mem_dtlb", word "MemDtlb" (ds_mem_dtlb o w));
     ("mem_lvl_num", word "MemLevelNum" (ds_mem_lvl_num o w));
     ("mem_remote", flag (ds_mem_remote o w)); ("mem_blk", word "MemBlk" (ds_mem_blk o w));
     ("mem_hops", num (ds_mem_hops o w))]%string false.
Definition branch_tree (b : branch_entry) : tree :=
  Tuple "BranchEntry" (Leaf (x_branch X b false) (x_branch X b true)).

(** [ks]: the counters of the group, if there is one. *)
Definition sample_tree (s : sample cow) (ks : list counter) : tree :=
  let n := option_map num in
  let l := option_map nums in
  Struct "Sample" (given
    [("ip", n (s_ip s)); ("pid", n (s_pid s)); ("tid", n (s_tid s)); ("time", n (s_time s));
     ("addr", option_map addr (s_addr s)); ("id", n (s_id s)); ("stream_id", n (s_stream_id s));
     ("cpu", n (s_cpu s)); ("period", n (s_period s));
     ("values", option_map (fun g => group_tree g ks) (s_values s));
     ("callchain", l (s_callchain s)); ("raw", l (s_raw s)); ("lbr_hw_index", n (s_lbr_hw_index s));
     ("lbr", option_map (fun c => Items (map branch_tree (cow_list c))) (s_lbr s));
     ("regs_user", option_map registers_tree (s_regs_user s)); ("stack_user", l (s_stack_user s));
     ("weight", n (s_weight s)); ("data_src", option_map data_src_tree (s_data_src s));
     ("transaction", option_map (word "Txn") (s_transaction s));
     ("regs_intr", option_map registers_tree (s_regs_intr s));
     ("phys_addr", option_map addr (s_phys_addr s)); ("aux", l (s_aux s)); ("cgroup", n (s_cgroup s));
     ("data_page_size", n (s_data_page_size s)); ("code_page_size", n (s_code_page_size s))]%string) true.

Definition exit_tree (r : exit) : tree :=
  Struct "Exit"
    [("pid", num (ex_pid r)); ("ppid", num (ex_ppid r)); ("tid", num (ex_tid r)); ("ptid", num (ex_ptid r));
     ("time", num (ex_time r))]%string false.
Definition throttle_tree (r : throttle) : tree :=
  Struct "Throttle"
    [("time", num (th_time r)); ("id", num (th_id r)); ("stream_id", num (th_stream_id r))]%string false.
Definition ns_tree (e : ns_entry) : tree :=
  Struct "NamespaceEntry" [("dev", num (ns_dev e)); ("inode", num (ns_inode e))]%string false.

(** [t] is the tree of the record: names cut into characters and stray bytes
    (C50), the used part of a build id as [HexStr] prints it (C46), the counters
    of a group (C19). *)
Inductive record_tree : record cow -> tree -> Prop :=
| TMmap : forall r ps, cut (cow_list (mm_filename r)) ps ->
    record_tree (RBody (BMmap r)) (Tuple "Mmap" (Struct "Mmap"
      [("pid", num (mm_pid r)); ("tid", num (mm_tid r)); ("addr", addr (mm_addr r)); ("len", num (mm_len r));
       ("pgoff", num (mm_pgoff r)); ("filename", name ps)]%string false))
| TLost : forall r, record_tree (RBody (BLost r)) (Tuple "Lost" (Struct "Lost"
      [("id", num (lost_id r)); ("lost", num (lost_lost r))]%string false))
| TComm : forall r ps, cut (cow_list (cm_comm r)) ps ->
    record_tree (RBody (BComm r)) (Tuple "Comm" (Struct "Comm"
      [("pid", num (cm_pid r)); ("tid", num (cm_tid r)); ("comm", name ps)]%string false))
| TExit : forall r, record_tree (RBody (BExit r)) (Tuple "Exit" (exit_tree r))
| TThrottle : forall r, record_tree (RBody (BThrottle r)) (Tuple "Throttle" (throttle_tree r))
| TUnthrottle : forall r, record_tree (RBody (BUnthrottle r)) (Tuple "Unthrottle" (throttle_tree r))
| TFork : forall r, record_tree (RBody (BFork r)) (Tuple "Fork" (exit_tree r))
| TRead : forall r, record_tree (RBody (BRead r)) (Tuple "Read" (Struct "Read"
      [("pid", num (rd_pid r)); ("tid", num (rd_tid r)); ("values", value_tree (rd_values r))]%string false))
| TSample : forall s ks, (forall g, s_values s = Some g -> counters g ks) ->
    record_tree (RBody (BSample s)) (Tuple "Sample" (sample_tree s ks))
| TMmap2 : forall r ps maj min ino gen, cut (cow_list (m2_filename r)) ps ->
    m2_detail r = MdDefault maj min ino gen ->
    record_tree (RBody (BMmap2 r)) (Tuple "Mmap2" (Struct "Mmap2"
      [("pid", num (m2_pid r)); ("tid", num (m2_tid r)); ("addr", addr (m2_addr r)); ("len", num (m2_len r));
       ("pgoff", num (m2_pgoff r)); ("maj", num maj); ("min", num min); ("ino", num ino);
       ("ino_generation", num gen); ("prot", num (m2_prot r)); ("flags", num (m2_flags r));
       ("filename", name ps)]%string false))
| TMmap2Build : forall r ps b n h, cut (cow_list (m2_filename r)) ps ->
    m2_detail r = MdBuildId b n -> n <= len b -> hex_str (firstn (N.to_nat n) b) = Ok h ->
    record_tree (RBody (BMmap2 r)) (Tuple "Mmap2" (Struct "Mmap2"
      [("pid", num (m2_pid r)); ("tid", num (m2_tid r)); ("addr", addr (m2_addr r)); ("len", num (m2_len r));
       ("pgoff", num (m2_pgoff r)); ("build_id", atom h); ("prot", num (m2_prot r));
       ("flags", num (m2_flags r)); ("filename", name ps)]%string false))
| TAux : forall r, record_tree (RBody (BAux r)) (Tuple "Aux" (Struct "Aux"
      [("aux_offset", num (aux_offset r)); ("aux_size", num (aux_size r));
       ("flags", word "AuxFlags" (aux_flags r))]%string false))
| TItrace : forall r, record_tree (RBody (BItraceStart r)) (Tuple "ITraceStart" (Struct "ITraceStart"
      [("pid", num (it_pid r)); ("tid", num (it_tid r))]%string false))
| TLostSamples : forall r, record_tree (RBody (BLostSamples r)) (Tuple "LostSamples" (Struct "LostSamples"
      [("lost", num (ls_lost r))]%string false))
| TSwitch : record_tree (RBody BSwitch) (atom (txt "Switch"))
| TSwitchIn : forall p t, record_tree (RBody (BSwitchCpuWide (SwIn p t))) (Tuple "SwitchCpuWide" (Struct "In"
      [("pid", num p); ("tid", num t)]%string false))
| TSwitchOut : forall p t, record_tree (RBody (BSwitchCpuWide (SwOut p t))) (Tuple "SwitchCpuWide" (Struct "Out"
      [("pid", num p); ("tid", num t)]%string false))
| TNamespaces : forall r, record_tree (RBody (BNamespaces r)) (Tuple "Namespaces" (Struct "Namespaces"
      [("pid", num (nss_pid r)); ("tid", num (nss_tid r));
       ("namespaces", Items (map ns_tree (cow_list (nss_entries r))))]%string false))
| TKsymbol : forall r ps, cut (cow_list (ks_name r)) ps ->
    record_tree (RBody (BKsymbol r)) (Tuple "KSymbol" (Struct "KSymbol"
      [("addr", addr (ks_addr r)); ("len", num (ks_len r)); ("ksym_type", word "KSymbolType" (ks_type r));
       ("flags", word "KSymbolFlags" (ks_flags r)); ("name", name ps)]%string false))
| TBpf : forall r, record_tree (RBody (BBpfEvent r)) (Tuple "BpfEvent" (Struct "BpfEvent"
      [("ty", word "BpfEventType" (bpf_ty r)); ("flags", num (bpf_flags r)); ("id", num (bpf_id r));
       ("tag", Items (map num (bpf_tag r)))]%string false))
| TCgroup : forall r ps, cut (cow_list (cg_path r)) ps ->
    record_tree (RBody (BCgroup r)) (Tuple "CGroup" (Struct "CGroup"
      [("id", num (cg_id r)); ("path", name ps)]%string false))
| TTextPoke : forall r, record_tree (RBody (BTextPoke r)) (Tuple "TextPoke" (Struct "TextPoke"
      [("addr", addr (tp_addr r)); ("old_bytes", nums (tp_old r)); ("new_bytes", nums (tp_new r))]%string false))
| THwId : forall r, record_tree (RBody (BAuxOutputHwId r)) (Tuple "AuxOutputHwId" (Struct "AuxOutputHwId"
      [("hw_id", num (hw_id r))]%string false))
| TUnknown : forall ty d, record_tree (RUnknown ty d) (Struct "Unknown"
      [("ty", num ty); ("data", nums d)]%string false).
End Trees.

Definition metadata_tree (m : metadata) : tree :=
  Struct "RecordMetadata"
    [("ty", num (md_ty m)); ("misc", num (md_misc m)); ("sample_id", id_tree (md_sample_id m))]%string false.
Definition config_tree (X : ext) (c : config) : tree :=
  Struct "ParseConfig"
    [("read_format", word X "ReadFormat" (read_format c)); ("sample_type", word X "SampleFlags" (sample_type c));
     ("sample_id_all", flag (sample_id_all c)); ("branch_hw_index", flag (branch_hw_index c));
     ("misc", hexa (misc c)); ("regs_user", hexa (c_regs_user c)); ("regs_intr", hexa (c_regs_intr c))]%string false.
Definition error_tree (e : perror) (source : option tree) : tree :=
  Struct "ParseError"
    [("code", atom (kind_name (e_kind e)));
     ("source", match source with None => atom (txt "None") | Some t => Tuple "Some" t end)]%string false.

(** ** Proofs *)
Lemma shown_opts : forall l, forallb (fun p => plain_name (fst p)) l = true ->
  shown_fields (present (map (fun p : string * option N => (fst p, option_map d_dec (snd p))) l))
               (given (map opt_num l)).
Proof.
  intros l H. induction l as [|[n [v|]] l IH]; cbn; [constructor|..]; cbn in H; apply andb_true_iff in H as [H1 H2];
    [constructor; [exact H1|apply shown_dec|]|]; now apply IH.
Qed.

Lemma shown_value : forall v, shown (show_read_value v) (value_tree v).
Proof.
  intros v. rewrite show_read_value_fields, rv_items. apply (shown_struct _ _ _ false); [reflexivity|].
  now apply shown_opts.
Qed.

Lemma shown_entry : forall rf k, shown (show_entry (entry_for rf k)) (entry_tree rf k).
Proof.
  intros rf k. rewrite show_entry_fields.
  replace (ge_fields (entry_for rf k))
    with (map (fun p => (fst p, option_map d_dec (snd p))) (counter_items rf k)).
  - apply (shown_struct _ _ _ false); [reflexivity|]. now apply shown_opts.
  - unfold ge_fields, counter_items, entry_for, ge_get_id, ge_get_lost, if_bit, then_some, RF_ID, RF_LOST.
    cbn [ge_format ge_value ge_id ge_lost]. rewrite !contains_pow2.
    destruct (N.testbit rf 2), (N.testbit rf 4); reflexivity.
Qed.

Lemma shown_ext : forall d d' t, (forall alt, d alt = d' alt) -> shown d t -> shown d' t.
Proof. intros d d' t E H. unfold shown, printed_as in *. now rewrite <- !E. Qed.

Lemma shown_group : forall g ks, counters g ks -> shown (show_read_group g) (group_tree g ks).
Proof.
  intros g ks H. unfold show_read_group, group_tree. cbv zeta. apply (shown_struct _ _ _ false); [reflexivity|].
  assert (HE : shown (show_entries g) (Items (map (entry_tree (rg_format g)) ks))).
  { apply (shown_ext (d_list (map show_entry (map (entry_for (rg_format g)) ks)))).
    - intros alt. symmetry. now apply show_entries_text.
    - rewrite map_map. apply shown_map. apply shown_entry. }
  unfold RF_TIME_ENABLED, RF_TIME_RUNNING. rewrite !contains_pow2. unfold time_items, if_bit, if_field.
  destruct (N.testbit (rg_format g) 0), (N.testbit (rg_format g) 1); cbn [app map given opt_num fst snd option_map];
    repeat (apply SF1; [reflexivity|first [apply shown_dec|exact HE]|]); apply SF0.
Qed.

Lemma shown_id : forall s, shown (show_sample_id s) (id_tree s).
Proof.
  intros s. rewrite show_sample_id_fields.
  change (si_fields s) with (map (fun p => (fst p, option_map d_dec (snd p))) (id_items s)).
  apply (shown_struct _ _ _ false); [reflexivity|]. now apply shown_opts.
Qed.

Lemma shown_nums : forall c, shown (d_decs c) (nums c).
Proof. intros c. apply shown_map. apply shown_dec. Qed.

Lemma shown_addr : forall n, shown (d_hex_addr n) (addr n).
Proof. intros n. now apply shown_atom. Qed.

Lemma shown_word : forall X ty n, shown (d_word X ty n) (word X ty n).
Proof. intros. now apply shown_leaf. Qed.

Lemma shown_name : forall X l ps, cut l ps -> shown (d_byte_str X l) (name X ps).
Proof. intros X l ps H. pose proof (str_line X l ps H) as E. now apply shown_atom. Qed.

Ltac leaf :=
  first [ apply shown_dec | apply shown_word | apply shown_nums | apply shown_name; assumption
        | apply shown_value | apply shown_id | apply shown_map; apply shown_dec | now apply shown_atom ].
Ltac fields := repeat (apply SF1; [reflexivity|leaf|]); apply SF0.
Ltac strct := apply (shown_struct _ _ _ true); [reflexivity|fields].

Lemma shown_registers : forall X r, shown (show_registers X r) (registers_tree X r).
Proof. intros X r. strct. Qed.

Lemma shown_data_src : forall X pl w, shown (show_data_src X pl w) (data_src_tree X (pl_host pl) w).
Proof. intros X pl w. unfold show_data_src. cbv zeta. strct. Qed.

Definition shown_given (fs : list (string * fmt)) (l : list (string * option tree)) : Prop :=
  shown_fields fs (given l).

Lemma shown_opt : forall A n (d : A -> fmt) (f : A -> tree) o fs l, plain_name n = true ->
  (forall a, o = Some a -> shown (d a) (f a)) -> shown_given fs l ->
  shown_given (opt_field n d o ++ fs) ((n, option_map f o) :: l).
Proof.
  intros A n d f [a|] fs l Hn H Hf; cbn; [|exact Hf]. constructor; [exact Hn|now apply H|exact Hf].
Qed.

Lemma shown_sample : forall X pl s ks, (forall g, s_values s = Some g -> counters g ks) ->
  shown (show_sample X pl s) (sample_tree X (pl_host pl) s ks).
Proof.
  intros X pl s ks Hk. unfold show_sample, sample_tree. cbv zeta.
  apply (shown_struct _ _ _ false); [reflexivity|]. unfold sample_debug_fields.
  match goal with |- shown_fields ?fs (given ?l) => change (shown_given fs l) end.
  rewrite <- (app_nil_r (opt_field "code_page_size" _ _)).
  repeat (apply shown_opt;
    [reflexivity
    |try (intros ? _;
          lazymatch goal with
          | |- shown (d_dec _) _ => apply shown_dec
          | |- shown (d_decs _) _ => apply shown_nums
          | |- shown (d_hex_addr _) _ => apply shown_addr
          | |- shown (d_word _ _ _) _ => apply shown_word
          | |- shown (show_registers _ _) _ => apply shown_registers
          | |- shown (show_data_src _ _ _) _ => apply shown_data_src
          end)|]).
  - intros g Hg. apply shown_group. now apply Hk.
  - intros c _. apply shown_map. intros b. apply shown_tuple; [reflexivity|]. now apply shown_leaf.
  - constructor.
Qed.

Lemma shown_record : forall X pl r t, record_tree X (pl_host pl) r t -> shown (show_record X pl r) t.
Proof.
  intros X pl r t H. destruct H; cbn [show_record]; try (now apply shown_atom); try strct;
    try (apply shown_tuple; [reflexivity|]); try strct.
  - now apply shown_sample.
  - unfold show_mmap2, detail_fields. eapply shown_ext; [intros alt; rewrite H0; cbn [obind]; reflexivity|].
    cbn [app]. strct.
  - unfold show_mmap2, detail_fields. eapply shown_ext.
    { intros alt. rewrite H0. unfold m2_build_id. rewrite H0.
      destruct (N.ltb_spec (len b) n) as [Hx|_]; [lia|]. cbn [obind app]. reflexivity. }
    apply (shown_struct _ _ _ true); [reflexivity|].
    assert (Hd : shown (d_hex_str (take n b)) (atom h)).
    { apply shown_atom; unfold d_hex_str; rewrite take_firstn; exact H2. }
    repeat (apply SF1; [reflexivity|first [exact Hd|leaf]|]); apply SF0.
  - apply (shown_struct _ _ _ true); [reflexivity|].
    repeat (apply SF1; [reflexivity|first [leaf|apply shown_map; intros e; strct]|]); apply SF0.
Qed.

(** ** C64 *)
Theorem C64_record : forall X pl r t, record_tree X (pl_host pl) r t -> printed_as (show_record X pl r) t.
Proof. intros X pl r t H. now apply shown_printed, shown_record. Qed.

Theorem C64_values :
  (forall v, printed_as (show_read_value v) (value_tree v)) /\
  (forall g ks, counters g ks -> printed_as (show_read_group g) (group_tree g ks)) /\
  (forall rf k, printed_as (show_entry (entry_for rf k)) (entry_tree rf k)) /\
  (forall s, printed_as (show_sample_id s) (id_tree s)) /\
  (forall X pl s ks, (forall g, s_values s = Some g -> counters g ks) ->
     printed_as (show_sample X pl s) (sample_tree X (pl_host pl) s ks)) /\
  (forall m, printed_as (show_metadata m) (metadata_tree m)) /\
  (forall X c, printed_as (show_config X c) (config_tree X c)).
Proof.
  repeat match goal with |- _ /\ _ => split end; intros; apply shown_printed.
  - apply shown_value.
  - now apply shown_group.
  - apply shown_entry.
  - apply shown_id.
  - now apply shown_sample.
  - strct.
  - strct.
Qed.

Theorem C64_errors : forall other,
  (forall e, e_source e = None -> printed_as (debug_error other e) (error_tree e None)) /\
  (forall e m, e_source e = Some (SrcMsg m) ->
     printed_as (debug_error other e)
       (error_tree e (Some (Tuple "CustomMessageError" (atom ([34] ++ message_text m ++ [34])))))) /\
  (forall e s a b, e_source e = Some s -> (forall m, s <> SrcMsg m) ->
     other s false = Ok a -> other s true = Ok b ->
     printed_as (debug_error other e) (error_tree e (Some (Leaf a b)))) /\
  printed_as debug_try_from (Tuple "TryFromGroupError" (atom (txt "()"))) /\
  show_try_from = txt "can only convert groups with a single element to ReadValues".
Proof.
  intros other. repeat match goal with |- _ /\ _ => split end; intros; try apply shown_printed; try reflexivity.
  - unfold debug_error, error_tree. rewrite H. strct.
  - unfold debug_error, error_tree. rewrite H. apply (shown_struct _ _ _ true); [reflexivity|].
    apply SF1; [reflexivity|leaf|]. apply SF1; [reflexivity| |apply SF0].
    apply shown_tuple; [reflexivity|]. apply shown_tuple; [reflexivity|]. now apply shown_atom.
  - unfold debug_error, error_tree. rewrite H. apply (shown_struct _ _ _ true); [reflexivity|].
    apply SF1; [reflexivity|leaf|]. apply SF1; [reflexivity| |apply SF0].
    apply shown_tuple; [reflexivity|]. destruct s; try (now apply shown_leaf). exfalso. now apply (H0 m).
  - apply shown_tuple; [reflexivity|]. now apply shown_atom.
Qed.

(** Every record that is read has such a tree. *)
Lemma cut_exists : forall l, bytes l -> exists ps, cut l ps.
Proof.
  intros l H. destruct (C50_byte_str (fun _ => []) l H) as (ps & Hr & Hp & _). exists ps. now split.
Qed.

Lemma samples_counters : forall s : sample cow, exists ks, forall g, s_values s = Some g -> counters g ks.
Proof.
  intros s. destruct (s_values s) as [g|].
  - destruct (counters_exist g) as (ks & H). exists ks. intros h E. now injection E as <-.
  - exists []. discriminate.
Qed.

Theorem C64_every : forall X pl S (PB : parsebuf S) mo fin cap mem p l a r p',
  pl_ok pl -> source PB mo fin cap mem p l a -> parse_record_enum pl PB p = (Ok r, p') ->
  exists t, record_tree X (pl_host pl) r t /\ printed_as (show_record X pl r) t.
Proof.
  intros X pl S PB mo fin cap mem p l a r p' Hpl (rep & HC & Hr & Hw) E.
  rewrite <- (N.add_0_r a) in Hr.
  destruct (NoHint.record_safe pl PB mo fin cap mem rep a HC Hpl _ record_visitor p l 0 Hr Hw)
    as (r' & q & l' & pos' & E' & _ & H).
  unfold parse_record_enum in E. rewrite E in E'. injection E' as <- <-.
  destruct H as [(b & md & E1 & Hb)|(e & E1 & _)]; [|discriminate].
  enough (exists t, record_tree X (pl_host pl) r t) as (t & Ht).
  { exists t. split; [exact Ht|]. now apply C64_record. }
  destruct b; cbn in E1; injection E1 as ->; try (eexists; constructor; fail); cbn in Hb;
    try (destruct (cut_exists _ Hb) as (ps & Hc); eexists; econstructor; exact Hc).
  - destruct (samples_counters r0) as (ks & Hk). eexists. econstructor. exact Hk.
  - destruct Hb as [Hd Hb]. destruct (cut_exists _ Hb) as (ps & Hc).
    destruct (m2_detail r0) as [maj min ino gen|b n] eqn:Em.
    + eexists. eapply TMmap2; eassumption.
    + destruct Hd as (H1 & H2 & H3).
      destruct (hex_str_shows (firstn (N.to_nat n) b) false) as (h & Hh).
      { apply Forall_forall. intros x Hx. unfold bytes in H3. rewrite Forall_forall in H3. apply H3.
        rewrite <- (firstn_skipn (N.to_nat n) b). apply in_or_app. now left. }
      eexists. eapply TMmap2Build; try eassumption. lia.
  - destruct r0; eexists; constructor.
Qed.

(** A sample with a group and an empty list; a build id; an error; a leaf that
    itself takes two lines. *)
Definition ex_lines (l : list string) : text := separated nl (map txt l).
Definition ex_ext2 : ext :=
  mkExt (fun c => [c]) (fun ty n alt => if alt then txt ty ++ txt "(" ++ nl ++ dec n ++ txt ")" else dec n)
    (fun _ _ => txt "b").

Example C64_example :
  let g := mkReadGroup 0x0D 9 0 (Owned [5; 1; 6; 2]) in
  let s := mkSample (Some 16) None None None (Some 255) None None None None (Some g)
    (Some (Owned [1; 2])) None None None None None None None (Some 3) None None (Some (Owned [])) None None None in
  let r := mkMmap2 1 2 3 4 5 (MdBuildId (repeat 17 20) 2) 5 6 (Owned [47; 98]) in
  let rt := Tuple "Mmap2" (Struct "Mmap2"
      [("pid", num 1); ("tid", num 2); ("addr", addr 3); ("len", num 4);
       ("pgoff", num 5); ("build_id", atom (txt "1111")); ("prot", num 5);
       ("flags", num 6); ("filename", atom (app [34] (app (txt "/b") [34])))]%string false) in
  counters g [mkCounter 5 1 0; mkCounter 6 2 0] /\
  several_lines (sample_tree ex_ext2 LE s [mkCounter 5 1 0; mkCounter 6 2 0]) = ex_lines
    ["Sample {"; "    ip: 16,"; "    addr: 0x000000000000FF,"; "    values: GroupRead {";
     "        time_enabled: 9,"; "        entries: ["; "            GroupEntry {";
     "                value: 5,"; "                id: 1,"; "                .."; "            },";
     "            GroupEntry {"; "                value: 6,"; "                id: 2,";
     "                .."; "            },"; "        ],"; "        .."; "    },";
     "    callchain: ["; "        1,"; "        2,"; "    ],"; "    transaction: Txn("; "    3),";
     "    aux: [],"; "    .."; "}"]%string /\
  show_sample ex_ext2 pl64 s true =
    Ok (several_lines (sample_tree ex_ext2 LE s [mkCounter 5 1 0; mkCounter 6 2 0])) /\
  record_tree ex_ext2 LE (RBody (BMmap2 r)) rt /\
  show_record ex_ext2 pl64 (RBody (BMmap2 r)) true = Ok (several_lines rt) /\
  debug_error (fun _ => d_text []) (mkError KEof (Some (SrcMsg MsgAttrTail))) true =
    Ok (ex_lines ["ParseError {"; "    code: Eof,"; "    source: Some("; "        CustomMessageError("]%string
        ++ nl ++ txt "            " ++ [34] ++ message_text MsgAttrTail ++ [34] ++ txt "," ++ nl
        ++ ex_lines ["        ),"; "    ),"; "}"]%string) /\
  several_lines (id_tree sample_id_default) = txt "SampleId { .. }" /\
  one_line (id_tree sample_id_default) = txt "SampleId { .. }".
Proof.
  cbv zeta. split; [exists []; split; reflexivity|].
  split; [vm_compute; reflexivity|]. split; [vm_compute; reflexivity|].
  split; [|repeat split; vm_compute; reflexivity].
  match goal with |- record_tree _ _ (RBody (BMmap2 ?r)) _ =>
    apply (TMmap2Build ex_ext2 LE r [Char 47; Char 98] (repeat 17 20) 2 (txt "1111")) end.
  - split; [repeat constructor|]. split; [reflexivity|]. repeat split; left; reflexivity.
  - reflexivity.
  - discriminate.
  - reflexivity.
Qed.

Print Assumptions C64_record.
Print Assumptions C64_values.
Print Assumptions C64_errors.
Print Assumptions C64_every.
