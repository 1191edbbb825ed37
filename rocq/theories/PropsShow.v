(** Theorems: what Debug and Display print (C51, C52, C53, C54, C55, C56, C57). *)
From Coq Require Import String NArith List Bool Lia.
From Verif Require Import Base BaseFacts Types Platform Config Buf Parser Contract Records Sample Record.
From Verif Require Import Read Access Owned Fmt Text Show Bits Wire Views Spec ReadFacts TextFacts ShowFacts.
From Verif Require Import ExData SameFacts PropsSame PropsAccess.
From Verif Require Safe NoHint RefFrame Flat PropsAttr PropsParts.
From Verif Require Import Attr WireAttr.
Import ListNotations.
Open Scope N_scope.

(** ** C51: counter values *)

(** [name: value, ] if there is a value, and the same on a line of its own. *)
Definition inline (p : string * option N) : text :=
  match snd p with Some v => txt (fst p) ++ txt ": " ++ dec v ++ txt ", " | None => [] end.
Definition outline (p : string * option N) : text :=
  match snd p with
  | Some v => txt "    " ++ txt (fst p) ++ txt ": " ++ dec v ++ txt "," ++ nl
  | None => []
  end.
Definition if_bit (rf k v : N) : option N := if N.testbit rf k then Some v else None.

Definition value_items (v : read_value) : list (string * option N) :=
  [("value", Some (rv_value v)); ("time_enabled", if_bit (rv_format v) 0 (rv_enabled v));
   ("time_running", if_bit (rv_format v) 1 (rv_running v));
   ("id", if_bit (rv_format v) 2 (rv_id v)); ("lost", if_bit (rv_format v) 4 (rv_lost v))]%string.

Lemma inlines : forall l, flat_map (fun p => item "" ", " (fst p) (snd p)) l = flat_map inline l.
Proof.
  intros l. apply flat_map_ext. intros [n [v|]]; reflexivity.
Qed.
Lemma outlines : forall l, flat_map (fun p => line (fst p) (snd p)) l = flat_map outline l.
Proof.
  intros l. apply flat_map_ext. intros [n [v|]]; [|reflexivity]. unfold line, item, outline. cbn [fst snd].
  rewrite <- !app_assoc. reflexivity.
Qed.

Lemma rv_items : forall v,
  rv_fields v = map (fun p => (fst p, option_map d_dec (snd p))) (value_items v).
Proof.
  intros v. unfold rv_fields, value_items, rv_get_enabled, rv_get_running, rv_get_id, rv_get_lost,
    if_bit, then_some, RF_TIME_ENABLED, RF_TIME_RUNNING, RF_ID, RF_LOST. rewrite !contains_pow2. reflexivity.
Qed.

Theorem C51_read_value : forall v,
  show_read_value v false = Ok (txt "SingleRead { " ++ flat_map inline (value_items v) ++ txt ".. }") /\
  show_read_value v true =
    Ok (txt "SingleRead {" ++ nl ++ flat_map outline (value_items v) ++ txt "    .." ++ nl ++ txt "}").
Proof.
  intros v. rewrite show_read_value_fields, rv_items. split.
  - rewrite numbers_plain, inlines. reflexivity.
  - rewrite numbers_pretty by (repeat constructor; try discriminate). rewrite outlines. reflexivity.
Qed.

(** Two values print the same exactly when no accessor tells them apart. *)
Theorem C51_read_value_inj : forall v w alt,
  show_read_value v alt = show_read_value w alt <->
  rv_value v = rv_value w /\ rv_get_enabled v = rv_get_enabled w /\
  rv_get_running v = rv_get_running w /\ rv_get_id v = rv_get_id w /\ rv_get_lost v = rv_get_lost w.
Proof. intros v w alt. apply code_read_value. Qed.

Definition commas (l : list text) : text :=
  match l with [] => [] | t :: r => t ++ flat_map (fun u => txt ", " ++ u) r end.

Definition counter_items (rf : N) (k : counter) : list (string * option N) :=
  [("value", Some (ct_value k)); ("id", if_bit rf 2 (ct_id k)); ("lost", if_bit rf 4 (ct_lost k))]%string.
Definition time_items (g : read_group cow) : list (string * option N) :=
  [("time_enabled", if_bit (rg_format g) 0 (rg_enabled g));
   ("time_running", if_bit (rg_format g) 1 (rg_running g))]%string.

Lemma entry_text : forall rf k, show_entry (entry_for rf k) false =
  Ok (txt "GroupEntry { " ++ flat_map inline (counter_items rf k) ++ txt ".. }").
Proof.
  intros rf k. rewrite show_entry_fields.
  replace (ge_fields (entry_for rf k))
    with (map (fun p => (fst p, option_map d_dec (snd p))) (counter_items rf k)).
  - rewrite numbers_plain, inlines. reflexivity.
  - unfold ge_fields, counter_items, entry_for, ge_get_id, ge_get_lost, if_bit, then_some, RF_ID, RF_LOST.
    cbn [ge_format ge_value ge_id ge_lost]. rewrite !contains_pow2.
    destruct (N.testbit rf 2), (N.testbit rf 4); reflexivity.
Qed.

Theorem C51_group : forall g ks, counters g ks ->
  show_read_group g false =
  Ok (txt "GroupRead { " ++ flat_map inline (time_items g) ++ txt "entries: ["
      ++ commas (map (fun k => txt "GroupEntry { " ++ flat_map inline (counter_items (rg_format g) k)
                               ++ txt ".. }") ks)
      ++ txt "], .. }").
Proof.
  intros g ks H. unfold show_read_group. cbv zeta. unfold RF_TIME_ENABLED, RF_TIME_RUNNING.
  rewrite !contains_pow2.
  set (T := map (fun k => txt "GroupEntry { " ++ flat_map inline (counter_items (rg_format g) k) ++ txt ".. }") ks).
  assert (E : show_entries g false = Ok (txt "[" ++ commas T ++ txt "]")).
  { rewrite (show_entries_text g ks false H). rewrite (d_list_text false _ T).
    - unfold list_text. destruct T; reflexivity.
    - unfold T. clear. induction ks as [|k ks IH]; constructor; [apply entry_text|exact IH]. }
  unfold time_items, if_bit, d_struct, if_field.
  destruct (N.testbit (rg_format g) 0), (N.testbit (rg_format g) 1);
    cbn [app fields_plain flat_map inline fst snd]; unfold d_dec, d_text; cbn [obind]; rewrite E; cbn [obind];
    f_equal; rewrite <- !app_assoc; cbn [app]; rewrite ?app_nil_r, <- ?app_assoc; reflexivity.
Qed.

(** Two groups print the same exactly when they record the same times and, counter
    by counter, the same value, id and lost count. *)
Theorem C51_group_inj : forall g h ks js alt, counters g ks -> counters h js ->
  (show_read_group g alt = show_read_group h alt <->
   rg_get_enabled g = rg_get_enabled h /\ rg_get_running g = rg_get_running h /\
   map (fun k => map snd (counter_items (rg_format g) k)) ks =
   map (fun k => map snd (counter_items (rg_format h) k)) js).
Proof.
  intros g h ks js alt Hg Hh. rewrite (proj2 code_read_group g h alt). unfold same_group.
  assert (E : forall rf rf' ks js,
    map (seen rf) ks = map (seen rf') js <->
    map (fun k => map snd (counter_items rf k)) ks = map (fun k => map snd (counter_items rf' k)) js).
  { clear. intros rf rf'. assert (E1 : forall k j, seen rf k = seen rf' j <->
      map snd (counter_items rf k) = map snd (counter_items rf' j)).
    { intros k j. unfold seen, counter_items, if_bit, then_some. cbn [map snd]. split; congruence. }
    induction ks as [|k ks IH]; intros [|j js]; cbn [map]; split; intros E; try discriminate; try reflexivity.
    - assert (E2 := f_equal (hd (seen rf k)) E). assert (E3 := f_equal (@tl _) E). cbn [hd tl] in E2, E3.
      apply E1 in E2. apply IH in E3. congruence.
    - assert (E2 := f_equal (hd []) E). assert (E3 := f_equal (@tl _) E). cbn [hd tl] in E2, E3.
      apply E1 in E2. apply IH in E3. congruence. }
  split.
  - intros (H1 & H2 & H3). split; [exact H1|]. split; [exact H2|]. apply E. now apply H3.
  - intros (H1 & H2 & H3). split; [exact H1|]. split; [exact H2|]. intros ks' js' Hk Hj.
    assert (R : forall u a b, counters u a -> counters u b ->
              map (seen (rg_format u)) a = map (seen (rg_format u)) b).
    { intros u a b. apply (proj1 (proj2 code_read_group u u alt) eq_refl). }
    rewrite <- (R g ks ks' Hg Hk), <- (R h js js' Hh Hj). now apply E.
Qed.

Example C51_example :
  let v := mkReadValue 0x15 7 100 0 3 0 in
  let g := mkReadGroup 0x0D 9 0 (Owned [5; 1; 6; 2]) in
  show_read_value v false = Ok (txt "SingleRead { value: 7, time_enabled: 100, id: 3, lost: 0, .. }") /\
  counters g [mkCounter 5 1 0; mkCounter 6 2 0] /\
  show_read_group g false =
    Ok (txt "GroupRead { time_enabled: 9, entries: [GroupEntry { value: 5, id: 1, .. }, GroupEntry { value: 6, id: 2, .. }], .. }").
Proof.
  split; [vm_compute; reflexivity|]. split; [|vm_compute; reflexivity].
  exists []. split; reflexivity.
Qed.

(** ** C52: SampleId, RecordMetadata and Sample *)

Definition id_items (s : sample_id) : list (string * option N) :=
  [("pid", si_pid s); ("tid", si_tid s); ("time", si_time s); ("id", si_id s);
   ("stream_id", si_stream_id s); ("cpu", si_cpu s)]%string.

Theorem C52_sample_id : forall s,
  show_sample_id s false = Ok (txt "SampleId { " ++ flat_map inline (id_items s) ++ txt ".. }") /\
  show_sample_id s true =
    Ok (if existsb (fun p => match snd p with Some _ => true | None => false end) (id_items s)
        then txt "SampleId {" ++ nl ++ flat_map outline (id_items s) ++ txt "    .." ++ nl ++ txt "}"
        else txt "SampleId { .. }").
Proof.
  intros s. rewrite show_sample_id_fields.
  change (si_fields s) with (map (fun p => (fst p, option_map d_dec (snd p))) (id_items s)). split.
  - rewrite numbers_plain, inlines. reflexivity.
  - rewrite numbers_pretty by (repeat constructor; try discriminate). rewrite outlines.
    destruct (existsb _ _); reflexivity.
Qed.

Theorem C52_sample_id_inj : forall s t alt, show_sample_id s alt = show_sample_id t alt <-> s = t.
Proof. intros s t alt. apply code_sample_id. Qed.

Theorem C52_metadata_inj : forall m n alt, show_metadata m alt = show_metadata n alt <-> m = n.
Proof. intros m n alt. apply code_metadata. Qed.

(** Fields of a sample that hold no group or data_src are determined by the text. *)
Definition plain_fields (s : sample list) :=
  (s_ip s, s_pid s, s_tid s, s_time s, s_addr s, s_id s, s_stream_id s, s_cpu s, s_period s,
   (s_callchain s, s_raw s, s_lbr_hw_index s, s_lbr s, s_regs_user s, s_stack_user s, s_weight s),
   (s_transaction s, s_regs_intr s, s_phys_addr s, s_aux s, s_cgroup s, s_data_page_size s,
    s_code_page_size s)).

(** Either both have none, or both have one and they print the same. *)
Definition alike {A : Type} (d : A -> fmt) (alt : bool) (x y : option A) : Prop :=
  match x, y with
  | None, None => True | Some a, Some b => d a alt = d b alt | _, _ => False
  end.

Lemma opt_alike : forall A (d : A -> fmt) R alt x y, code d R -> (opt_rel R x y <-> alike d alt x y).
Proof.
  intros A d R alt [a|] [b|] [_ H]; cbn; try tauto. now rewrite (H a b alt).
Qed.

Lemma opt_map_rel : forall A B (f : A -> B) R x y, (forall a b, R a b <-> f a = f b) ->
  (opt_rel R x y <-> option_map f x = option_map f y).
Proof.
  intros A B f R [a|] [b|] H; cbn; split; intros E; try tauto; try discriminate.
  - f_equal. now apply H.
  - apply H. congruence.
Qed.

Lemma regs_rel : forall r s, same_registers r s <-> view_registers r = view_registers s.
Proof.
  intros r s. unfold same_registers, view_registers. split.
  - intros (-> & -> & ->). reflexivity.
  - intros E. injection E as E1 E2 E3. auto.
Qed.

Theorem C52_sample_inj : forall X pl s t alt, word_codes X -> branch_codes X ->
  (show_sample X pl s alt = show_sample X pl t alt <->
   plain_fields (view_sample s) = plain_fields (view_sample t) /\
   alike show_read_group alt (s_values s) (s_values t) /\
   alike (show_data_src X pl) alt (s_data_src s) (s_data_src t)).
Proof.
  intros X pl s t alt HW HB. rewrite (proj2 (code_sample X pl HW HB) s t alt). unfold same_sample.
  rewrite (opt_alike _ _ _ alt _ _ code_read_group), (opt_alike _ _ _ alt _ _ (code_data_src X pl HW)).
  rewrite !(opt_map_rel _ _ view_registers same_registers _ _ regs_rel).
  rewrite (opt_map_rel _ _ cow_list (fun a b => cow_list a = cow_list b) (s_lbr s) (s_lbr t)) by tauto.
  rewrite !(opt_map_rel _ _ cow_list same_list) by (unfold same_list; tauto).
  unfold plain_fields, view_sample.
  cbn [s_ip s_pid s_tid s_time s_addr s_id s_stream_id s_cpu s_period s_values s_callchain s_raw
       s_lbr_hw_index s_lbr s_regs_user s_stack_user s_weight s_data_src s_transaction s_regs_intr
       s_phys_addr s_aux s_cgroup s_data_page_size s_code_page_size].
  split.
  - intros H. decompose [and] H. split; [|split; assumption]. congruence.
  - intros (H & H1 & H2). injection H. intros. repeat split; assumption.
Qed.

(** data_src: alike exactly when all nine fields are. *)
Theorem C52_data_src_inj : forall X pl v w alt, word_codes X ->
  let o := pl_host pl in
  (show_data_src X pl v alt = show_data_src X pl w alt <->
   ds_mem_op o v = ds_mem_op o w /\ ds_mem_lvl o v = ds_mem_lvl o w /\
   ds_mem_snoop o v = ds_mem_snoop o w /\ ds_mem_lock o v = ds_mem_lock o w /\
   ds_mem_dtlb o v = ds_mem_dtlb o w /\ ds_mem_lvl_num o v = ds_mem_lvl_num o w /\
   ds_mem_remote o v = ds_mem_remote o w /\ ds_mem_blk o v = ds_mem_blk o w /\
   ds_mem_hops o v = ds_mem_hops o w).
Proof. intros X pl v w alt HW o. exact (proj2 (code_data_src X pl HW) v w alt). Qed.

(** An instance of the other crates' impls, to show that there are such. *)
Definition ex_ext : ext :=
  mkExt (fun c => [c]) (fun _ n _ => dec n)
    (fun b alt => match d_list [d_dec (be_from b); d_dec (be_to b); d_dec (be_flags b)] alt with
                  | Ok t => t | _ => [] end).

Lemma ex_words : word_codes ex_ext.
Proof. intros ty. exact code_dec. Qed.
Lemma ex_branches : branch_codes ex_ext.
Proof.
  pose proof (code_list _ _ _ code_dec) as [Hg HR].
  set (L := fun b => [be_from b; be_to b; be_flags b]).
  assert (E : forall b alt, Ok (x_branch ex_ext b alt) = d_list (map d_dec (L b)) alt).
  { intros b alt. destruct (Hg (L b) alt) as (t & E & _). unfold ex_ext, x_branch.
    change [d_dec (be_from b); d_dec (be_to b); d_dec (be_flags b)] with (map d_dec (L b)). now rewrite E. }
  split.
  - intros b alt. destruct (Hg (L b) alt) as (t & Et & Ht). exists t. rewrite E. auto.
  - intros b c alt. rewrite !E. rewrite (HR (L b) (L c) alt). rewrite Forall2_eq'. unfold L. split; [|congruence].
    intros H. injection H as H1 H2 H3. destruct b, c. cbn in *. congruence.
Qed.

Definition no_sample : sample cow :=
  mkSample None None None None None None None None None None None None None None None None None None
    None None None None None None None.

Example C52_example :
  word_codes ex_ext /\ branch_codes ex_ext /\
  show_sample_id (mkSampleId (Some 1) (Some 2) None None None (Some 3)) false =
    Ok (txt "SampleId { pid: 1, tid: 2, cpu: 3, .. }") /\
  show_sample ex_ext pl64 (mkSample (Some 16) None None None (Some 255) None None None None None
      (Some (Owned [1; 2])) None None None None None None None None None None None None None None) false =
    Ok (txt "Sample { ip: 16, addr: 0x000000000000FF, callchain: [1, 2], .. }") /\
  show_sample ex_ext pl64 no_sample true = Ok (txt "Sample { .. }").
Proof. split; [apply ex_words|]. split; [apply ex_branches|]. repeat split; vm_compute; reflexivity. Qed.

(** ** C53: Display of ParseError

    Full statement: the description of the kind, then [": "] and the text of the
    source if there is one; an [External] error with a source prints the source
    only.  False: the separator is on the wrong kinds. *)
Definition describe (k : error_kind) : text :=
  match k with
  | KEof => txt "unexpected EOF during parsing"
  | KInvalidRecord => txt "invalid record"
  | KUnsupportedData => txt "unsupported serialized data"
  | KUnsupportedConfig => txt "unsupported config"
  | KExternal => txt "user-provided error"
  end.

Definition message_of (src : error_source -> text) (e : perror) : text :=
  match e_source e, e_kind e with
  | None, k => describe k
  | Some s, KExternal => src s
  | Some s, k => describe k ++ txt ": " ++ src s
  end.

(** Without a source the message is right; with one it is the right message but
    for the separator. *)
Theorem C53_display_partial : forall src e,
  (e_source e = None -> show_error src e = message_of src e) /\
  (forall s, e_source e = Some s -> e_kind e <> KExternal ->
     show_error src e = describe (e_kind e) ++ src s) /\
  (forall s, e_source e = Some s -> e_kind e = KExternal -> show_error src e = txt ": " ++ src s).
Proof.
  intros src [k o]. unfold show_error, message_of. cbn [e_kind e_source].
  split; [intros ->; destruct k; cbn; reflexivity|].
  split; intros s ->; destruct k; intros H; try congruence; reflexivity.
Qed.

(** No error with a source prints the right message. *)
Theorem C53_refuted : forall src e s, e_source e = Some s -> show_error src e <> message_of src e.
Proof.
  intros src [k o] s E H. cbn [e_source] in E. subst o. unfold show_error, message_of in H.
  cbn [e_kind e_source] in H.
  apply (f_equal (@List.length N)) in H.
  destruct k; rewrite ?app_length in H; cbn [describe] in H;
    repeat match type of H with context [List.length (txt ?x)] =>
      let n := eval vm_compute in (List.length (txt x)) in change (List.length (txt x)) with n in H end;
    cbn [List.length] in H; lia.
Qed.

Example C53_example :
  show_error (fun _ => txt "too small") (custom_error KInvalidRecord MsgHeaderTooSmall)
    = txt "invalid recordtoo small" /\
  show_error (fun _ => txt "broken pipe") (new_error (SrcIo 32 false)) = txt ": broken pipe" /\
  show_error (fun _ => []) eof_error = txt "unexpected EOF during parsing".
Proof. repeat split. Qed.

(** The errors made by the crate print differently unless they are equal; [other]
    is the text of errors made by others. *)
Definition own_error (e : perror) : Prop := forall s, e_source e = Some s -> exists m, s = SrcMsg m.

Theorem C53_identifies : forall other e e', own_error e -> own_error e' ->
  show_error (show_source other) e = show_error (show_source other) e' -> e = e'.
Proof.
  intros other [k o] [k' o'] H H' E.
  assert (M : forall x (e : error_kind), own_error (mkError e x) -> x = None \/ exists m, x = Some (SrcMsg m)).
  { intros [s|] e Hx; [right|now left]. destruct (Hx s eq_refl) as [m ->]. now exists m. }
  apply M in H, H'. destruct H as [->|[m ->]], H' as [->|[m' ->]];
    unfold show_error in E; cbn [e_kind e_source] in E; cbn [show_source] in E.
  - destruct k, k'; vm_compute in E; congruence.
  - exfalso. pose proof (message_nonempty m') as N. revert N E. generalize (message_text m').
    intros t N E. destruct k, k'; vm_compute in E; try discriminate E; injection E as E; congruence.
  - exfalso. pose proof (message_nonempty m) as N. revert N E. generalize (message_text m).
    intros t N E. destruct k, k'; vm_compute in E; try discriminate E; injection E as E; congruence.
  - assert (D : k = k' /\ message_text m = message_text m').
    { revert E. generalize (message_text m), (message_text m'). intros t t' E.
      destruct k, k'; vm_compute in E; try discriminate E; (split; [reflexivity|]);
        injection E as E; exact E. }
    destruct D as [-> D]. apply message_inj in D. now subst m'.
Qed.

(** The same for derived Debug: which error of the crate it is can be read off. *)
Theorem C53_debug : forall other e, own_error e ->
  debug_error other e false =
    Ok (txt "ParseError { code: " ++ kind_name (e_kind e) ++ txt ", source: " ++
        match e_source e with
        | Some (SrcMsg m) => txt "Some(CustomMessageError(" ++ [34] ++ message_text m ++ [34] ++ txt "))"
        | _ => txt "None"
        end ++ txt " }").
Proof.
  intros other [k o] H. unfold debug_error. cbn [e_kind e_source].
  destruct o as [s|].
  - destruct (H s eq_refl) as [m ->].
    unfold d_struct, d_tuple1. cbn [fields_plain fields_pretty obind debug_source d_text].
    unfold d_tuple1, d_text. cbn [obind]. rewrite <- !app_assoc. reflexivity.
  - unfold d_struct. cbn [fields_plain obind]. unfold d_text. cbn [obind]. rewrite <- !app_assoc. reflexivity.
Qed.

(** The words themselves: the kinds as Debug names them, and every message of the crate
    with the kind it comes with, as Display and Debug print them. *)
Theorem C53_wording : forall other other',
  map kind_name [KEof; KInvalidRecord; KUnsupportedConfig; KUnsupportedData; KExternal] =
    map txt ["Eof"; "InvalidRecord"; "UnsupportedConfig"; "UnsupportedData"; "External"]%string /\
  map (fun m => show_source other (SrcMsg m))
    [MsgSliceTooLong; MsgHeaderTooSmall; MsgNoRoomForSampleId; MsgSingleReadGroup; MsgGroupReadSingle;
     MsgReadFormatFlags; MsgGroupTooLarge; MsgDynSize; MsgAttrTail] =
  map txt
    ["array length in bytes larger than usize::MAX";
     "header size was too small to be valid";
     "config has sample_id_all bit set but record does not have enough data to store the sample_id";
     "attempted to parse a SingleRead with a config that has GROUP set in read_format";
     "attempted to parse a GroupRead with a config that does not have GROUP set in read_format";
     "read_format contains unsupported flags";
     "number of elements in group read was too large for data type";
     "stack dyn_size was greater than the record size";
     "serialized perf_event_attr contains fields not supported by this version of perf-event-data"]%string /\
  (forall n, show_source other (SrcMsg (MsgBuildIdLen n)) =
     txt "build_id had invalid length (" ++ dec n ++ txt " > 20)") /\
  (forall n, show_source other (SrcMsg (MsgAttrSize n)) =
     dec n ++ txt " is not a valid size for a perf_event_attr struct") /\
  (forall m, debug_source other' (SrcMsg m) false =
     Ok (txt "CustomMessageError(" ++ [34] ++ show_source other (SrcMsg m) ++ [34] ++ txt ")")).
Proof.
  intros other other'. split; [reflexivity|]. split; [reflexivity|]. split; [reflexivity|].
  split; [reflexivity|]. intros m. unfold debug_source, d_tuple1, d_text. cbn [obind show_source].
  rewrite <- !app_assoc. reflexivity.
Qed.

(** What is printed for a refused attribute structure or build id names the
    offending number. *)
Theorem C53_attr_size :
  forall other pl S (PB : parsebuf S) mo fin cap mem p t s rest pos,
  let o := Flat.order_of pl (c_endian (p_cfg p)) in
  pl_ok pl -> t < 2 ^ 32 -> s < 2 ^ 32 -> ~ In s versions -> s <= 136 ->
  source PB mo fin cap mem p (w32 o t ++ w32 o s ++ rest) pos ->
  exists e, fst (parse_attr pl PB p) = Err e /\
    show_error (show_source other) e =
      txt "invalid record" ++ dec s ++ txt " is not a valid size for a perf_event_attr struct".
Proof.
  intros other pl S PB mo fin cap mem p t s rest pos o Hpl Ht Hs Hn Hm Hsrc. eexists. split.
  - exact (PropsAttr.C31_invalid_size pl S PB mo fin cap mem p t s rest pos Hpl Ht Hs Hn Hm Hsrc).
  - reflexivity.
Qed.

Theorem C53_build_id : forall other pl S (PB : parsebuf S) mo fin cap mem p n z b rest a,
  N.testbit (misc (p_cfg p)) 14 = true -> 20 < n < 256 -> len z = 3 -> len b = 20 ->
  source PB mo fin cap mem p ([n] ++ z ++ b ++ rest) a ->
  exists e, fst (parse_mmap_detail pl PB p) = Err e /\
    show_error (show_source other) e =
      txt "invalid record" ++ txt "build_id had invalid length (" ++ dec n ++ txt " > 20)".
Proof.
  intros other pl S PB mo fin cap mem p n z b rest a Hm [H1 H2] Hz Hb Hsrc.
  destruct (PropsParts.C28_build_id pl S PB mo fin cap mem p n z b rest a Hm H2 Hz Hb Hsrc) as (p' & -> & _).
  replace (n <=? 20) with false by (symmetry; now apply N.leb_gt). eexists. split; reflexivity.
Qed.

Example C53_example_numbers :
  option_map (show_error (show_source (fun _ => [])))
    match fst (parse_attr pl64 slice_buf (on_slice 4096 (w32 LE 1 ++ w32 LE 100) ex_cfg0)) with
    | Err e => Some e | _ => None end
  = Some (txt "invalid record100 is not a valid size for a perf_event_attr struct") /\
  debug_error (fun _ _ => Panic) (custom_error KInvalidRecord MsgDynSize) true =
    Ok (txt "ParseError {" ++ nl ++ txt "    code: InvalidRecord," ++ nl ++
        txt "    source: Some(" ++ nl ++ txt "        CustomMessageError(" ++ nl ++
        txt "            " ++ [34] ++ txt "stack dyn_size was greater than the record size" ++ [34] ++
        txt "," ++ nl ++ txt "        )," ++ nl ++ txt "    )," ++ nl ++ txt "}").
Proof. split; vm_compute; reflexivity. Qed.

(** ** C54: HexAddr *)
Theorem C54_hex_addr : forall n alt,
  exists z ds, d_hex_addr n alt = Ok ([48; 120] ++ repeat 48 z ++ ds) /\
    Forall (fun c => 48 <= c <= 57 \/ 65 <= c <= 70) ds /\
    fold_left (fun v c => v * 16 + (if c <? 58 then c - 48 else c - 55)) ds 0 = n /\
    (z = 14 - List.length ds)%nat /\ (hd 0 ds = 48 -> n = 0).
Proof.
  intros n alt. exists (14 - List.length (hex n))%nat, (hex n).
  split; [reflexivity|]. split.
  { eapply Forall_impl; [|apply hex_chars]. unfold hex_char. cbv beta. intros; lia. }
  split.
  { assert (G : forall l v, fold_left (fun v c => v * 16 + (if c <? 58 then c - 48 else c - 55)) l v
                          = fold_left (fun v d => v * 16 + d) (map char_digit l) v).
    { induction l as [|c l IH]; intros v; [reflexivity|]. cbn [fold_left map]. apply IH. }
    rewrite G. apply hex_value. }
  split; [reflexivity|]. intros H. destruct (hex n) as [|c t] eqn:E; [discriminate|]. cbn [hd] in H. subst c.
  pose proof (hex_lead n t E) as ->. rewrite <- (hex_value n), E. reflexivity.
Qed.

Theorem C54_hex_addr_inj : forall m n alt, d_hex_addr m alt = d_hex_addr n alt -> m = n.
Proof. intros m n alt H. now apply (proj2 code_hex_addr) in H. Qed.

(** No fixed width: the largest address has 16 digits, others at least 14. *)
Example C54_example :
  d_hex_addr 0xffffffff81000000 false = Ok (txt "0xFFFFFFFF81000000") /\
  d_hex_addr 0x7f00 false = Ok (txt "0x00000000007F00") /\
  d_hex_addr 0 true = Ok (txt "0x00000000000000").
Proof. repeat split; vm_compute; reflexivity. Qed.

(** ** C55: Debug of a record never panics *)
Theorem C55_no_panic : forall X pl S (PB : parsebuf S) mo fin cap mem p l a r p' alt,
  pl_ok pl -> source PB mo fin cap mem p l a -> parse_record_enum pl PB p = (Ok r, p') ->
  exists t, show_record X pl r alt = Ok t.
Proof.
  intros X pl S PB mo fin cap mem p l a r p' alt Hpl (rep & HC & Hr & Hw) E.
  rewrite <- (N.add_0_r a) in Hr.
  destruct (NoHint.record_safe pl PB mo fin cap mem rep a HC Hpl _ record_visitor p l 0 Hr Hw)
    as (r' & q & l' & pos' & E' & _ & H).
  unfold parse_record_enum in E. rewrite E in E'. injection E' as <- <-.
  destruct H as [(b & md & E1 & Hb)|(e & E1 & _)]; [|discriminate].
  apply record_shows.
  destruct b; cbn in E1; injection E1 as ->; cbn; try exact I.
  destruct Hb as [Hb _]. unfold Safe.detail_ok in Hb. unfold detail_ok.
  destruct (m2_detail r0) as [|b n]; [exact I|]. destruct Hb as (H1 & H2 & H3). split; [lia|exact H3].
Qed.

(** Whatever the values, these have no way to panic at all. *)
Theorem C55_values : forall X pl alt,
  (forall v, exists t, show_read_value v alt = Ok t) /\
  (forall g, exists t, show_read_group g alt = Ok t) /\
  (forall s, exists t, show_sample_id s alt = Ok t) /\
  (forall m, exists t, show_metadata m alt = Ok t) /\
  (forall s, exists t, show_sample X pl s alt = Ok t).
Proof.
  intros X pl alt.
  split; [intros v; apply good_shows, code_read_value|].
  split; [intros g; apply good_shows, code_read_group|].
  split; [intros s; apply good_shows, code_sample_id|].
  split; [intros m; apply good_shows, code_metadata|].
  intros s. apply sample_shows.
Qed.

(** A record with a build id, and a value (which no safe code can build) that
    would panic. *)
Example C55_example :
  let r := mkMmap2 1 2 3 4 5 (MdBuildId (repeat 17 20) 16) 5 6 [47; 98] in
  let d := w_record LE ex_set0 0x4000 sample_id_default (WMmap2 r 6) in
  (exists x, fst (parse_record_enum pl64 slice_buf (on_slice 4096 d ex_cfg0)) = Ok x /\
     show_record ex_ext pl64 x false =
     Ok (txt "Mmap2(Mmap2 { pid: 1, tid: 2, addr: 0x00000000000003, len: 4, pgoff: 5, build_id: "
         ++ repeat 49 32 ++ txt ", prot: 5, flags: 6, filename: " ++ [34] ++ txt "/b" ++ [34] ++ txt " })")) /\
  show_record ex_ext pl64 (RBody (BMmap2 (mkMmap2 1 2 3 4 5 (MdBuildId [] 16) 5 6 (Owned [])))) false = Panic.
Proof.
  split; [|vm_compute; reflexivity].
  eexists. split; [vm_compute; reflexivity|]. vm_compute. reflexivity.
Qed.

(** ** C56: Debug does not depend on who holds the bytes *)
Theorem C56_same_contents : forall X pl r r' alt, view_record r = view_record r' ->
  show_record X pl r alt = show_record X pl r' alt.
Proof. intros X pl r r' alt H. now rewrite (record_viewed X pl r r' H). Qed.

Theorem C56_into_owned : forall X alt,
  (forall r, show_cgroup X (cgroup_into_owned r) alt = show_cgroup X r alt) /\
  (forall r, show_comm X (comm_into_owned r) alt = show_comm X r alt) /\
  (forall r, show_ksymbol X (ksymbol_into_owned r) alt = show_ksymbol X r alt) /\
  (forall r, show_mmap X (mmap_into_owned r) alt = show_mmap X r alt) /\
  (forall r, show_mmap2 X (mmap2_into_owned r) alt = show_mmap2 X r alt) /\
  (forall g, show_read_group (group_into_owned g) alt = show_read_group g alt) /\
  (forall r, show_text_poke (text_poke_to_owned r) alt = show_text_poke r alt).
Proof. intros X alt. repeat split. Qed.

(** The same bytes from two sources; [tame] as in C03. *)
Theorem C56_same_bytes_partial :
  forall X alt pl c l fin S1 (PB1 : parsebuf S1) mo1 cap1 mem1 p1 a1 S2 (PB2 : parsebuf S2) mo2 cap2 mem2 p2 a2
    r1 r2 p1' p2',
  pl_ok pl -> p_cfg p1 = c -> p_cfg p2 = c ->
  source PB1 mo1 fin cap1 mem1 p1 l a1 -> source PB2 mo2 fin cap2 mem2 p2 l a2 ->
  tame pl c mo1 a1 l -> tame pl c mo2 a2 l ->
  parse_record_enum pl PB1 p1 = (Ok r1, p1') -> parse_record_enum pl PB2 p2 = (Ok r2, p2') ->
  show_record X pl r1 alt = show_record X pl r2 alt.
Proof.
  intros X alt pl c l fin S1 PB1 mo1 cap1 mem1 p1 a1 S2 PB2 mo2 cap2 mem2 p2 a2 r1 r2 p1' p2'
    Hpl E1 E2 H1 H2 T1 T2 R1 R2.
  destruct (C03_same_bytes_partial pl c l fin S1 PB1 mo1 cap1 mem1 p1 a1 S2 PB2 mo2 cap2 mem2 p2 a2
    Hpl E1 E2 H1 H2 T1 T2) as (n & x1 & x2 & q1 & q2 & G1 & G2 & Hs & _).
  unfold parse_record_enum in R1, R2. rewrite (G1 _ record_visitor) in R1. rewrite (G2 _ record_visitor) in R2.
  destruct x1 as [e1|[b1 m1]], x2 as [e2|[b2 m2]]; try discriminate; cbn [same_result] in Hs; try contradiction.
  destruct Hs as [Hv <-]. apply C56_same_contents.
  rewrite <- !PropsFrame.deliver_answer in R1, R2.
  injection R1 as R1 _. injection R2 as R2 _.
  destruct b1, b2; try discriminate Hv; cbn [RefFrame.deliver] in R1, R2;
    cbn in R1, R2; injection R1 as <-; injection R2 as <-; cbn [view_record view_body] in *; congruence.
Qed.

(** The sources of [C03_example]: one lends the call chain, the other copies it. *)
Example C56_example :
  exists r1 r2,
  fst (parse_record_enum pl64 slice_buf (on_slice 4096 chain_bytes chain_cfg)) = Ok r1 /\
  fst (parse_record_enum pl64 bufreader_buf
         (reader_of [take 11 chain_bytes; drop 11 chain_bytes] chain_cfg)) = Ok r2 /\
  r1 <> r2 /\ show_record ex_ext pl64 r1 false = show_record ex_ext pl64 r2 false /\
  tame pl64 chain_cfg Whole 4096 chain_bytes /\ tame pl64 chain_cfg NoExt 0 chain_bytes.
Proof.
  eexists. eexists. split; [vm_compute; reflexivity|]. split; [vm_compute; reflexivity|].
  split; [discriminate|]. split; [vm_compute; reflexivity|].
  destruct C03_example as (_ & _ & H1 & H2 & _). split; assumption.
Qed.

(** ** C57: Debug of ParseConfig

    Everything the parsers look at but the byte order is there. *)
Theorem C57_config_inj : forall X c d alt, word_codes X ->
  (show_config X c alt = show_config X d alt <->
   read_format c = read_format d /\ sample_type c = sample_type d /\
   sample_id_all c = sample_id_all d /\ branch_hw_index c = branch_hw_index d /\
   misc c = misc d /\ c_regs_user c = c_regs_user d /\ c_regs_intr c = c_regs_intr d).
Proof. intros X c d alt HW. exact (proj2 (code_config X HW) c d alt). Qed.

(** The byte order is not shown. *)
Theorem C57_endian : forall X c e alt, show_config X (with_endian c e) alt = show_config X c alt.
Proof. reflexivity. Qed.

Example C57_example : word_codes ex_ext /\
  show_config ex_ext ex_cfg false =
    Ok (txt "ParseConfig { read_format: 0, sample_type: 6, sample_id_all: true, branch_hw_index: false, misc: 0x0, regs_user: 0x0, regs_intr: 0x0 }").
Proof. split; [apply ex_words|vm_compute; reflexivity]. Qed.

Print Assumptions C51_read_value.
Print Assumptions C51_read_value_inj.
Print Assumptions C51_group.
Print Assumptions C51_group_inj.
Print Assumptions C52_sample_id.
Print Assumptions C52_sample_id_inj.
Print Assumptions C52_metadata_inj.
Print Assumptions C52_sample_inj.
Print Assumptions C52_data_src_inj.
Print Assumptions C53_display_partial.
Print Assumptions C53_refuted.
Print Assumptions C53_identifies.
Print Assumptions C53_debug.
Print Assumptions C53_wording.
Print Assumptions C53_attr_size.
Print Assumptions C53_build_id.
Print Assumptions C54_hex_addr.
Print Assumptions C54_hex_addr_inj.
Print Assumptions C55_no_panic.
Print Assumptions C55_values.
Print Assumptions C56_same_contents.
Print Assumptions C56_into_owned.
Print Assumptions C56_same_bytes_partial.
Print Assumptions C57_config_inj.
Print Assumptions C57_endian.
