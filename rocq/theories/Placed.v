(** What sources that lend all they have as one piece give, at every address: the flat
    parsers again, with the quirk of arrays at unaligned addresses built in.  [bad pos] says
    that memory for position [pos] is not aligned. *)
From Coq Require Import NArith List Bool Lia.
From Verif Require Import Base BaseFacts Types Platform Config Buf Parser Contract Flat Refine.
From Verif Require Import Instances Prims Slices Records Sample Record Attr Views RefRecords.
From Verif Require Import RefFrame RefTop ConfFacts Spec NoHint FrameFacts RoundFacts SameFacts.
From Verif Require Import Copied.
Import ListNotations.
Open Scope N_scope.

Section Placed.
Context (pl : platform) (bad : N -> bool).

(** An array at a bad position in the byte order of the host is lent, dropped, and read again
    from what follows it. *)
Definition g_array {B : Type} (E : felem B) (n : N) : F (list B) :=
  fun env l pos =>
    let o := order_of pl (c_endian (fe_cfg env)) in
    let size := n * fl_size E in
    let native := order_eqb o (pl_host pl) in
    if native && (usize_max pl <? size)
    then FErr (custom_error KInvalidRecord MsgSliceTooLong) l pos []
    else if native && (len l =? 0) then FErr (fe_fin env) [] pos []
    else if len l <? size then FErr (fe_fin env) [] (pos + len l) []
    else if native && negb (n =? 0) && bad pos then
      if len (drop size l) <? size then FErr (fe_fin env) [] (pos + len l) []
      else FOk (decode E o (take size (drop size l))) (drop size (drop size l)) (pos + size + size) []
    else FOk (decode E o (take size l)) (drop size l) (pos + size) [].

Definition g_namespaces : F (namespaces list) :=
  pid <~ f_uint pl 4 ;; tid <~ f_uint pl 4 ;; n <~ f_uint pl 8 ;;
  l <~ g_array fl_ns (as_usize pl n) ;; fret (mkNamespaces pid tid l).

Definition g_read_group : F (read_group list) :=
  c <~ fcfg ;;
  let rf := read_format c in
  if negb (contains rf RF_GROUP) then ffail (custom_error KUnsupportedConfig MsgGroupReadSingle)
  else if negb (difference rf RF_ALL =? 0)
  then ffail (custom_error KUnsupportedConfig MsgReadFormatFlags)
  else
    nr <~ f_uint pl 8 ;;
    te <~ f_if (contains rf RF_TIME_ENABLED) (f_uint pl 8) ;;
    tr <~ f_if (contains rf RF_TIME_RUNNING) (f_uint pl 8) ;;
    let n := as_usize pl nr * element_len rf in
    if usize_max pl <? n then ffail (custom_error KInvalidRecord MsgGroupTooLarge)
    else d <~ g_array fl_u64 n ;;
         fret (mkReadGroup rf (unwrap_or te 0) (unwrap_or tr 0) d).

Definition g_registers (mask : N) : F (registers list) :=
  abi <~ f_uint pl 8 ;; l <~ g_array fl_u64 (popcount mask) ;; fret (mkRegs abi mask l).

Definition g_sample_read : F (read_group list) :=
  c <~ fcfg ;;
  if contains (read_format c) RF_GROUP then g_read_group
  else v <~ f_read_value pl ;; fret (f_group_of_value v).

Definition g_callchain : F (list N) :=
  nr <~ f_uint pl 8 ;; g_array fl_u64 (as_usize pl nr).

Definition g_lbr (hw : bool) : F (list branch_entry * option N) :=
  nr <~ f_uint pl 8 ;; h <~ f_if hw (f_uint pl 8) ;; l <~ g_array fl_branch (as_usize pl nr) ;; fret (l, h).

Definition g_sample : F (sample list) :=
  c <~ fcfg ;;
  let sty := sample_type c in
  id0 <~ f_if (contains sty SF_IDENTIFIER) (f_uint pl 8) ;;
  ip <~ f_if (contains sty SF_IP) (f_uint pl 8) ;;
  pid <~ f_if (contains sty SF_TID) (f_uint pl 4) ;;
  tid <~ f_if (contains sty SF_TID) (f_uint pl 4) ;;
  time <~ f_if (contains sty SF_TIME) (f_uint pl 8) ;;
  addr <~ f_if (contains sty SF_ADDR) (f_uint pl 8) ;;
  id1 <~ f_if (contains sty SF_ID) (f_uint pl 8) ;;
  stream_id <~ f_if (contains sty SF_STREAM_ID) (f_uint pl 8) ;;
  cpu <~ f_if (contains sty SF_CPU) (a <~ f_uint pl 4 ;; _ <~ f_uint pl 4 ;; fret a) ;;
  period <~ f_if (contains sty SF_PERIOD) (f_uint pl 8) ;;
  values <~ f_if (contains sty SF_READ) g_sample_read ;;
  callchain <~ f_if (contains sty SF_CALLCHAIN) g_callchain ;;
  raw <~ f_if (contains sty SF_RAW) (f_raw pl) ;;
  lbr <~ f_if (contains sty SF_BRANCH_STACK) (g_lbr (branch_hw_index c)) ;;
  regs_user <~ f_if (contains sty SF_REGS_USER) (g_registers (c_regs_user c)) ;;
  stack_user <~ f_if (contains sty SF_STACK_USER) (f_stack_user pl) ;;
  weight <~ f_if (contains sty SF_WEIGHT) (f_uint pl 8) ;;
  data_src <~ f_if (contains sty SF_DATA_SRC) (f_uint pl 8) ;;
  transaction <~ f_if (contains sty SF_TRANSACTION) (f_uint pl 8) ;;
  regs_intr <~ f_if (contains sty SF_REGS_INTR) (g_registers (c_regs_intr c)) ;;
  phys_addr <~ f_if (contains sty SF_PHYS_ADDR) (f_uint pl 8) ;;
  cgroup <~ f_if (contains sty SF_CGROUP) (f_uint pl 8) ;;
  data_page_size <~ f_if (contains sty SF_DATA_PAGE_SIZE) (f_uint pl 8) ;;
  code_page_size <~ f_if (contains sty SF_CODE_PAGE_SIZE) (f_uint pl 8) ;;
  aux <~ f_if (contains sty SF_AUX) (f_sample_aux pl) ;;
  fret (mkSample ip pid tid time addr (opt_or id1 id0) stream_id cpu period values callchain raw
         (match lbr with Some (_, hw) => hw | None => None end)
         (match lbr with Some (l, _) => Some l | None => None end)
         regs_user stack_user weight data_src transaction regs_intr phys_addr aux
         cgroup data_page_size code_page_size).


Definition g_body (t : N) : F (body list) :=
  if t =? 9 then r <~ g_sample ;; fret (BSample r)
  else if t =? 16 then r <~ g_namespaces ;; fret (BNamespaces r)
  else f_body pl t.

Definition g_record_with_header (h : header) : F (body list * metadata) :=
  r <~ f_metadata_with_header pl h ;;
  c <~ fcfg ;;
  b <~ f_sub (g_body (h_type h)) (with_misc c (h_misc h)) (fst r) ;;
  fret (b, snd r).

Definition g_record : F (body list * metadata) :=
  h <~ f_header pl ;; g_record_with_header h.
End Placed.

Section Slices.
Context (pl : platform) (bad : N -> bool) {S : Type} (PB : parsebuf S) (fin : perror) (cap : N)
  (mem : memory) (rep : S -> list N -> N -> Prop) (a0 : N).
Context (HC : contract PB Whole fin cap mem rep) (Hcap : cap <= isize_max pl).
Context (Hbad : forall pos, bad pos = negb ((a0 + pos) mod word_align pl =? 0)).

Notation Ref := (Ref Whole fin cap rep a0).
Notation step := (step cap rep a0).

Lemma direct_run : forall A (E : elem A) n p,
  parse_slice pl PB E n p =
    match (if negb (is_native pl (c_endian (p_cfg p))) then ret None
     else match checked_mul pl n (el_size E) with
       | None => fail (custom_error KInvalidRecord MsgSliceTooLong)
       | Some byte_len =>
           r <- parse_bytes_direct PB byte_len ;;
           match r with
           | None => ret None
           | Some (a, d) =>
               if (a mod word_align pl =? 0) || (len d =? 0)
               then ret (Some (a, map (el_native E) (chunks (el_size E) d)))
               else ret None
           end
       end) p with
    | (Ok (Some (a, l)), p') => (Ok (Borrowed a l), p')
    | (Ok None, p') => (l <- parse_repeated pl PB E n ;; ret (Owned l)) p'
    | (Err e, p') => (Err e, p')
    | (Panic, p') => (Panic, p')
    | (Fuel, p') => (Fuel, p')
    end.
Proof.
  intros A E n p.
  match goal with |- _ = match ?D with pair _ _ => _ end =>
    assert (Ed : parse_slice_direct pl PB E n p = D) by reflexivity; rewrite <- Ed end.
  unfold parse_slice. unfold bind at 1.
  destruct (parse_slice_direct pl PB E n p) as [[[[a d]|]|e| |] p']; reflexivity.
Qed.

Section Array.
Context {A : Type} (E : elem A) (FE : felem A).
Context (Hsize : el_size E = fl_size FE) (Hpos : 0 < fl_size FE) (Hle : fl_size FE <= 16384)
  (Hnat : forall l, len l = fl_size FE -> el_native E l = fl_dec FE (pl_host pl) l)
  (Hel : Ref eq (el_parse E PB) (f_elem pl FE)).

Lemma Ref_placed : forall n, Ref (fun c l => cow_list c = l) (parse_slice pl PB E n) (g_array pl bad FE n).
Proof.
  intros n p l pos Hr Hw.
  pose proof (Ref_slice pl PB Whole fin cap mem rep a0 HC Hcap E FE Hsize Hpos Hle Hnat Hel n p l pos Hr Hw) as R.
  unfold g_array, f_array in *. cbn [fe_cfg fe_fin] in *.
  set (o := order_of pl (c_endian (p_cfg p))) in *. set (sz := fl_size FE) in *.
  destruct (order_eqb o (pl_host pl)) eqn:Eo; cbn [andb] in *.
  2:{ destruct (len l <? n * sz); [exact R|]. intros _.
      destruct (R (Forall_nil _)) as (c & p' & E1 & [E2 _] & Hs). eauto. }
  destruct (usize_max pl <? n * sz) eqn:Eov; [exact R|].
  destruct (N.eqb_spec (len l) 0) as [El|El]; [exact R|].
  destruct (N.ltb_spec (len l) (n * sz)) as [Hl|Hl]; [exact R|].
  destruct (N.eqb_spec n 0) as [En|En]; cbn [negb andb] in *.
  { intros _. destruct (R (Forall_nil _)) as (c & p' & E1 & [E2 _] & Hs). eauto. }
  rewrite Hbad. destruct (N.eqb_spec ((a0 + pos) mod word_align pl) 0) as [Ea|Ea]; cbn [negb].
  { intros _. assert (K : Forall (ev_ok Whole a0) [ESlice (pl_align pl) pos]).
    { constructor; [exact Ea|constructor]. }
    destruct (R K) as (c & p' & E1 & [E2 _] & Hs). eauto. }
  clear R.
  assert (H : exists x d p1, parse_bytes_direct PB (n * sz) p = (Ok (Some (x, d)), p1) /\
     len d = n * sz /\ x mod 8 = (a0 + pos) mod 8 /\ step p l pos p1 (drop (n * sz) l) (pos + n * sz)).
  { pose proof (bytes_direct_spec PB Whole fin cap mem rep a0 HC (n * sz) p l pos Hr Hw) as H.
    destruct l as [|y t]; [elim El; reflexivity|].
    destruct H as ([[x d]|] & p1 & E1 & H).
    - destruct H as (H1 & H2 & H3 & H4 & H5). exists x, d, p1. split; [exact E1|].
      split; [rewrite H2, len_take; lia|]. auto.
    - destruct H as [H _]. specialize (H eq_refl). lia. }
  destruct H as (x & d & p1 & E1 & Hd & Hx & Hs1).
  assert (Erun : parse_slice pl PB E n p = (l <- parse_repeated pl PB E n ;; ret (Owned l)) p1).
  { rewrite direct_run, is_native_order. fold o. rewrite Eo. cbn [negb].
    unfold checked_mul. rewrite Hsize. fold sz. rewrite N.leb_antisym, Eov. cbn [negb].
    unfold bind at 1. rewrite E1.
    replace (x mod word_align pl =? 0) with false.
    2:{ symmetry. apply N.eqb_neq. intros H. apply Ea. rewrite <- H.
        unfold word_align. symmetry. now apply mod_align. }
    replace (len d =? 0) with false by (symmetry; apply N.eqb_neq; nia). reflexivity. }
  rewrite Erun.
  pose proof (repeated_spec pl PB Whole fin cap mem rep a0 HC Hcap E FE Hsize Hpos Hle Hel n p1
                (drop (n * sz) l) (pos + n * sz) (st_rep _ _ _ _ _ _ _ _ _ Hs1) (wf_drop _ _ Hw)) as H.
  fold sz in H. rewrite (st_cfg _ _ _ _ _ _ _ _ _ Hs1) in H. fold o in H.
  unfold bind. run H r p'. revert H. destruct (len (drop (n * sz) l) <? n * sz); intros [-> H] _.
  - exists p'. split; [reflexivity|]. replace (pos + len l) with (pos + n * sz + len (drop (n * sz) l))
      by (rewrite len_drop; lia). eapply step_trans; eassumption.
  - eexists. exists p'. split; [reflexivity|]. split; [reflexivity|]. eapply step_trans; eassumption.
Qed.
End Array.
End Slices.

Section Parts.
Context (pl : platform) (bad : N -> bool) {S : Type} (PB : parsebuf S) (fin : perror) (cap : N)
  (mem : memory) (rep : S -> list N -> N -> Prop) (a0 : N).
Context (HC : contract PB Whole fin cap mem rep) (Hcap : cap <= isize_max pl).
Context (Hbad : forall pos, bad pos = negb ((a0 + pos) mod word_align pl =? 0)).

Notation Ref := (Ref Whole fin cap rep a0).
Notation sees v := (vrel v (fun _ => True)).

Local Definition r_u8 := Ref_u8 pl PB Whole fin cap mem rep a0 HC.
Local Definition r_u16 := Ref_u16 pl PB Whole fin cap mem rep a0 HC.
Local Definition r_u32 := Ref_u32 pl PB Whole fin cap mem rep a0 HC.
Local Definition r_u64 := Ref_u64 pl PB Whole fin cap mem rep a0 HC.
Local Definition r_cfg := Ref_cfg Whole fin cap rep a0.

Ltac prim :=
  first [apply r_u64 | apply r_u32 | apply r_u16 | apply r_u8 | apply r_cfg
        | apply Ref_parse_if_eq; prim ].
Ltac next := eapply Ref_bind; [prim|]; let x := fresh "x" in let y := fresh "y" in
  let E := fresh "E" in
  intros x y E; try match type of E with x = y => subst y end.
Ltac steps := repeat next.
Ltac done := apply Ref_ret; try reflexivity.

Lemma p_slice_u64 : forall n, Ref (sees cow_list) (parse_slice pl PB (elem_u64 pl) n) (g_array pl bad fl_u64 n).
Proof.
  intros n. eapply Ref_weaken;
    [|apply (Ref_placed pl bad PB fin cap mem rep a0 HC Hcap Hbad (elem_u64 pl) fl_u64)].
  - intros c l H. split; [exact H|exact I].
  - reflexivity.
  - reflexivity.
  - cbn; lia.
  - reflexivity.
  - exact r_u64.
Qed.

Lemma p_slice_ns : forall n, Ref (sees cow_list) (parse_slice pl PB (elem_ns pl) n) (g_array pl bad fl_ns n).
Proof.
  intros n. eapply Ref_weaken;
    [|apply (Ref_placed pl bad PB fin cap mem rep a0 HC Hcap Hbad (elem_ns pl) fl_ns)].
  - intros c l H. split; [exact H|exact I].
  - reflexivity.
  - reflexivity.
  - cbn; lia.
  - reflexivity.
  - eapply Ref_ext; [intros; apply f_ns_eq|]. cbn [el_parse elem_ns]. unfold parse_ns_entry. steps. done.
Qed.

Lemma p_slice_branch : forall n, Ref (sees cow_list) (parse_slice pl PB (elem_branch pl) n) (g_array pl bad fl_branch n).
Proof.
  intros n. eapply Ref_weaken;
    [|apply (Ref_placed pl bad PB fin cap mem rep a0 HC Hcap Hbad (elem_branch pl) fl_branch)].
  - intros c l H. split; [exact H|exact I].
  - reflexivity.
  - reflexivity.
  - cbn; lia.
  - reflexivity.
  - eapply Ref_ext; [intros; apply f_branch_eq|]. cbn [el_parse elem_branch]. unfold parse_branch_entry.
    steps. done.
Qed.

Lemma p_namespaces : Ref (sees view_namespaces) (parse_namespaces pl PB) (g_namespaces pl bad).
Proof.
  unfold parse_namespaces, g_namespaces; steps.
  eapply Ref_bind; [apply p_slice_ns|]. intros c l [<- _]. done. split; [reflexivity|exact I].
Qed.

Lemma p_read_group : Ref (sees view_read_group) (parse_read_group pl PB) (g_read_group pl bad).
Proof.
  unfold parse_read_group, g_read_group; next. cbv zeta.
  destruct (negb (contains (read_format x) RF_GROUP)); [apply Ref_fail|].
  destruct (negb (difference (read_format x) RF_ALL =? 0)); [apply Ref_fail|].
  steps. unfold checked_mul.
  destruct (N.leb_spec (as_usize pl x0 * element_len (read_format x)) (usize_max pl)) as [H|H].
  - replace (usize_max pl <? as_usize pl x0 * element_len (read_format x)) with false
      by (symmetry; apply N.ltb_ge; lia).
    eapply Ref_bind; [apply p_slice_u64|]. intros c l [<- _]. done. split; [reflexivity|exact I].
  - replace (usize_max pl <? as_usize pl x0 * element_len (read_format x)) with true
      by (symmetry; apply N.ltb_lt; lia).
    apply Ref_fail.
Qed.

Lemma p_registers : forall mask, Ref (sees view_registers) (parse_registers pl PB mask) (g_registers pl bad mask).
Proof.
  intros mask. unfold parse_registers, g_registers; steps.
  eapply Ref_bind; [apply p_slice_u64|]. intros c l [<- _]. done. split; [reflexivity|exact I].
Qed.

Lemma p_sample_read : Ref (sees view_read_group) (parse_sample_read pl PB) (g_sample_read pl bad).
Proof.
  unfold parse_sample_read, g_sample_read; next.
  destruct (contains (read_format x) RF_GROUP); [apply p_read_group|].
  eapply Ref_bind; [eapply Ref_read_value; eassumption|]. intros v ? <-. done. split; [reflexivity|exact I].
Qed.

Lemma p_callchain : Ref (sees cow_list) (parse_callchain pl PB) (g_callchain pl bad).
Proof. unfold parse_callchain, g_callchain; steps. apply p_slice_u64. Qed.

Lemma p_lbr : forall hw, Ref (sees lbr_view) (parse_lbr pl PB hw) (g_lbr pl bad hw).
Proof.
  intros hw. unfold parse_lbr, g_lbr; steps.
  eapply Ref_bind; [apply p_slice_branch|]. intros c l [<- _]. done. split; [reflexivity|exact I].
Qed.

Lemma p_raw : Ref (sees cow_list) (parse_raw pl PB) (f_raw pl).
Proof. eapply Ref_weaken; [|eapply Ref_raw; eassumption]. intros x y [H _]. split; [exact H|exact I]. Qed.

Lemma p_stack_user : Ref (sees cow_list) (parse_stack_user pl PB) (f_stack_user pl).
Proof. eapply Ref_weaken; [|eapply Ref_stack_user; eassumption]. intros x y [H _]. split; [exact H|exact I]. Qed.

Lemma p_sample_aux : Ref (sees cow_list) (parse_sample_aux pl PB) (f_sample_aux pl).
Proof. eapply Ref_weaken; [|eapply Ref_sample_aux; eassumption]. intros x y [H _]. split; [exact H|exact I]. Qed.

Lemma p_sample : Ref (sees view_sample) (parse_sample pl PB) (g_sample pl bad).
Proof.
  unfold parse_sample, g_sample. next. cbv zeta.
  Ltac vnext L := eapply Ref_bind; [apply Ref_parse_if_v; apply L|];
    let x := fresh "v" in let y := fresh "y" in
    let H := fresh "Hok" in intros x y [<- H].
  steps. eapply Ref_bind. { apply Ref_parse_if_eq. steps. done. } intros ? ? <-.
  next. vnext p_sample_read. vnext p_callchain. vnext p_raw. vnext p_lbr.
  vnext p_registers. vnext p_stack_user. steps. vnext p_registers.
  steps. vnext p_sample_aux. done.
  split; [|exact I]. unfold view_sample; cbn. destruct v2 as [[l h]|]; reflexivity.
Qed.

Lemma p_body : forall t, Ref (fun x y => view_body x = y) (parse_body pl PB t) (g_body pl bad t).
Proof.
  intros t. unfold g_body. destruct (N.eqb_spec t 9) as [->|E9]; [|destruct (N.eqb_spec t 16) as [->|E16]].
  - change (parse_body pl PB 9) with (r <- parse_sample pl PB ;; ret (BSample r)).
    eapply Ref_bind; [apply p_sample|]. intros x y [<- _]. apply Ref_ret. reflexivity.
  - change (parse_body pl PB 16) with (r <- parse_namespaces pl PB ;; ret (BNamespaces r)).
    eapply Ref_bind; [apply p_namespaces|]. intros x y [<- _]. apply Ref_ret. reflexivity.
  - eapply Ref_weaken; [|eapply Ref_body; eassumption]. intros x y [H _]. exact H.
Qed.
End Parts.

Section Record.
Context (pl : platform) (bad : N -> bool) {S : Type} (PB : parsebuf S) (fin : perror) (cap : N)
  (mem : memory) (rep : S -> list N -> N -> Prop) (a0 : N).
Context (HC : contract PB Whole fin cap mem rep) (H16 : 65536 <= cap) (Hcap : cap <= isize_max pl).
Context (Hbad : forall pos, bad pos = negb ((a0 + pos) mod word_align pl =? 0)).

Lemma RefC_collect_placed : forall c h, h_size h < 65536 ->
  RefC Whole fin cap rep a0 c shows_record (collect_with_header pl PB h) (g_record_with_header pl bad h).
Proof.
  intros c h Hh. unfold collect_with_header, g_record_with_header.
  eapply RefC_bind with (R := fun x y => rel_meta Whole mem a0 c x y /\
     (md_ty (snd y) = h_type h /\ md_misc (snd y) = h_misc h)).
  { intros p l pos Hc Hr Hw.
    pose proof (RefC_metadata_with_header pl PB Whole fin cap mem rep a0 HC H16 c h Hh p l pos Hc Hr Hw) as G.
    pose proof (f_metadata_meta pl h (mkEnv c fin) l pos) as G2.
    destruct (f_metadata_with_header pl h _ l pos) as [b l' pos' ev|]; [|exact G].
    intros He. destruct (G He) as (a & p' & E & HR & Hs). exists a, p'; auto. }
  intros [q md] [st md'] [[E (n & Hn & Hq)] [Ety Emi]]. cbn [fst snd] in *. subst md'.
  rewrite Ety, Emi. apply RefC_fcfg.
  destruct Hq as (Ec & Eo & El & Eof & Elen & Hwq & Hrep). rewrite Ec.
  destruct (cursor_as_slice (p_buf q)) as [[x d]|] eqn:Esl.
  - unfold cursor_as_slice in Esl.
    destruct Hrep as (start & cs & H1 & H2 & H3 & H4 & H5 & H6 & H7).
    assert (Ecs : cs = [Borrowed x d]).
    { rewrite <- (rev_involutive cs), <- H1.
      destruct (cu_chunks (p_buf q)) as [|[a' d'|] [|]]; try discriminate.
      injection Esl as -> ->. reflexivity. }
    subst cs. cbn [chunks_ok map concat cow_list] in *. rewrite Eof in *.
    rewrite drop_0, app_nil_r in H5. rewrite N.add_0_r in H2.
    destruct H3 as (Hne & (Hm & Hmo) & _). destruct Hmo as [Hmo _]. rewrite <- H2 in Hmo.
    eapply RefC_bind with (R := fun x y => view_body x = y).
    + apply (RefC_sub Whole fin cap rep a0 c _ _ _ _ (slice_rep cap mem) Whole (x + 7 * snd st));
        cbn [p_cfg p_log p_buf new_parser]; try reflexivity; try assumption.
      * apply Ref_RefC. apply (p_body pl bad slice_buf eof_error cap mem); [apply slice_contract|assumption|].
        intros pos0. rewrite Hbad. f_equal. f_equal. unfold word_align. apply mod_align.
        replace (x + 7 * snd st + pos0) with (x + (7 * snd st + pos0)) by lia.
        rewrite (mod_shift _ _ _ Hmo).
        replace (a0 + snd st + (7 * snd st + pos0)) with (a0 + pos0 + snd st * 8) by lia.
        now rewrite N.mod_add by lia.
      * split; [cbn; congruence|]. cbn [sl_addr].
        replace (x + 7 * snd st + snd st) with (x + snd st * 8) by lia.
        rewrite N.mod_add by lia. split; [reflexivity|]. rewrite H5. split; [assumption|].
        rewrite <- H5. lia.
      * intros [al pos0|] He; cbn [ev_ok] in *; [|reflexivity].
        rewrite <- He; apply mod_align;
          replace (x + 7 * snd st + pos0) with (x + (7 * snd st + pos0)) by lia;
          rewrite (mod_shift _ _ _ Hmo);
          replace (a0 + snd st + (7 * snd st + pos0)) with (a0 + pos0 + snd st * 8) by lia;
          now rewrite N.mod_add by lia.
    + intros b b' Hb. apply RefC_ret. split; [exact Hb|reflexivity].
  - eapply RefC_bind with (R := fun x y => view_body x = y).
    + apply (RefC_sub Whole fin cap rep a0 c _ _ _ _ (cursor_rep Whole cap mem) Whole a0);
        cbn [p_cfg p_log p_buf new_parser]; try reflexivity; try assumption; auto.
      * apply Ref_RefC. eapply p_body; [apply cursor_contract|assumption|assumption].
      * eapply cursor_rep_mono; [|exact Hrep]. lia.
    + intros b b' Hb. apply RefC_ret. split; [exact Hb|reflexivity].
Qed.

Lemma Ref_collect_placed : Ref Whole fin cap rep a0 shows_record (collect pl PB) (g_record pl bad).
Proof.
  unfold collect, g_record.
  eapply Ref_bind; [apply (Ref_header_b pl PB Whole fin cap mem rep a0 HC)|]. intros h ? [<- Hh].
  apply RefC_Ref. intros c. now apply RefC_collect_placed.
Qed.
End Record.

(** No event about arrays is left. *)
Section Events.
Context (pl : platform) (bad : N -> bool) (C : config -> Prop) (P : event -> Prop).
Notation E := (evs C P).

Lemma evs_placed : forall B (FE : felem B) n, E (g_array pl bad FE n).
Proof.
  intros B FE n env l pos _. unfold g_array. cbv zeta.
  destruct (_ && _); [constructor|]. destruct (_ && _); [constructor|].
  destruct (_ <? _); [constructor|]. destruct (_ && _); [destruct (_ <? _)|]; constructor.
Qed.

Lemma evs_g_namespaces : E (g_namespaces pl bad).
Proof. unfold g_namespaces. repeat first [apply evs_placed | evs_step]. Qed.

Lemma evs_g_read_group : E (g_read_group pl bad).
Proof.
  unfold g_read_group. evs_step. cbv zeta. destruct (negb _); [evs_step|].
  destruct (negb _); [evs_step|]. evs_step; [evs_step|]. evs_step; [evs_step; evs_step|].
  evs_step; [evs_step; evs_step|]. destruct (_ <? _); [evs_step|]. evs_step; [apply evs_placed|]. evs_step.
Qed.

Lemma evs_g_sample_read : E (g_sample_read pl bad).
Proof.
  unfold g_sample_read. evs_step. destruct (contains _ _); [apply evs_g_read_group|].
  evs_step; [apply evs_read_value|evs_step].
Qed.

Lemma evs_g_sample : E (g_sample pl bad).
Proof.
  unfold g_sample. evs_step. cbv zeta.
  repeat match goal with
  | |- evs _ _ (g_sample_read pl bad) => apply evs_g_sample_read
  | |- evs _ _ (g_callchain pl bad) => unfold g_callchain
  | |- evs _ _ (g_lbr pl bad _) => unfold g_lbr
  | |- evs _ _ (g_registers pl bad _) => unfold g_registers
  | |- evs _ _ (g_array pl bad _ _) => apply evs_placed
  | |- evs _ _ (f_raw pl) => apply evs_raw
  | |- evs _ _ (f_stack_user pl) => apply evs_stack
  | |- evs _ _ (f_sample_aux pl) => apply evs_aux
  | _ => evs_step end.
Qed.
End Events.

Lemma placed_events : forall pl bad a env l,
  match g_record pl bad env l 0 with FOk _ _ _ ev | FErr _ _ _ ev => Forall (ev_ok Whole a) ev end.
Proof.
  intros pl bad a env l.
  assert (G : evs (fun _ => True) (ev_ok Whole a) (g_record pl bad)); [|exact (G env l 0 I)].
  unfold g_record. apply evs_bind; [apply evs_noev, noev_header|]. intros h.
  unfold g_record_with_header.
  apply evs_bind; [now apply evs_metadata|]. intros r. apply evs_cfg_bind. intros c Hc.
  apply evs_bind; [|intros; apply evs_ret].
  apply evs_sub; [|exact I]. unfold g_body.
  destruct (N.eqb_spec (h_type h) 9) as [E9|E9]; [|destruct (N.eqb_spec (h_type h) 16) as [E16|E16]].
  - apply evs_bind; [apply evs_g_sample|intros; apply evs_ret].
  - apply evs_bind; [apply evs_g_namespaces|intros; apply evs_ret].
  - apply evs_body_quiet; [left; split; assumption|]. intros _. reflexivity.
Qed.

Definition bad_at (pl : platform) (a pos : N) : bool := negb ((a + pos) mod word_align pl =? 0).

Lemma collect_placed : forall pl S (PB : parsebuf S) fin cap mem rep a0, pl_ok pl ->
  contract PB Whole fin cap mem rep ->
  forall a, a mod word_align pl = a0 mod word_align pl ->
  Ref Whole fin 65536 rep a0 shows_record (collect pl PB) (g_record pl (bad_at pl a)).
Proof.
  intros pl S PB fin cap mem rep a0 Hpl HC a Ha.
  rewrite collect_no_hint. pose proof (record_cap pl Hpl).
  apply (Ref_collect_placed pl (bad_at pl a) (no_hint PB) fin 65536 mem rep a0); try assumption; try lia.
  - now apply no_hint_contract with (cap := cap).
  - intros pos. unfold bad_at. f_equal. f_equal.
    assert (W : word_align pl <> 0) by (unfold word_align; destruct (pl_align pl); discriminate).
    rewrite (N.add_mod a), (N.add_mod a0), Ha by exact W. reflexivity.
Qed.
