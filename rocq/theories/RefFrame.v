(** Refinement for record framing, dispatch and perf_event_attr. *)
From Coq Require Import NArith List Bool Lia.
From Verif Require Import Base BaseFacts Types Platform Config Buf Parser Contract Flat Refine.
From Verif Require Import Instances Prims Slices Records Sample Record Attr Views RefRecords.
Import ListNotations.
Open Scope N_scope.

(** * Dispatch in two steps: parse the body, then call the visitor. *)

Definition deliver {O : Type} (V : visitor O) (b : body cow) (md : metadata) : out O :=
  match b with
  | BMmap r => call V (v_mmap V) r md
  | BLost r => call V (v_lost V) r md
  | BComm r => call V (v_comm V) r md
  | BExit r => call V (v_exit V) r md
  | BThrottle r => call V (v_throttle V) r md
  | BUnthrottle r => call V (v_unthrottle V) r md
  | BFork r => call V (v_fork V) r md
  | BRead r => call V (v_read V) r md
  | BSample r => call V (v_sample V) r md
  | BMmap2 r => visit_mmap2 V r md
  | BAux r => call V (v_aux V) r md
  | BItraceStart r => call V (v_itrace_start V) r md
  | BLostSamples r => call V (v_lost_samples V) r md
  | BSwitch => visit_switch V md
  | BSwitchCpuWide r => call V (v_switch_cpu_wide V) r md
  | BNamespaces r => call V (v_namespaces V) r md
  | BKsymbol r => call V (v_ksymbol V) r md
  | BBpfEvent r => call V (v_bpf_event V) r md
  | BCgroup r => call V (v_cgroup V) r md
  | BTextPoke r => call V (v_text_poke V) r md
  | BAuxOutputHwId r => call V (v_aux_output_hw_id V) r md
  | BUnknown d => call V (v_unknown V) d md
  end.

Definition parse_body (pl : platform) {S : Type} (PB : parsebuf S) (t : N) : M S (body cow) :=
  if t =? 1 then r <- parse_mmap pl PB ;; ret (BMmap r)
  else if t =? 2 then r <- parse_lost pl PB ;; ret (BLost r)
  else if t =? 3 then r <- parse_comm pl PB ;; ret (BComm r)
  else if t =? 4 then r <- parse_exit pl PB ;; ret (BExit r)
  else if t =? 5 then r <- parse_throttle pl PB ;; ret (BThrottle r)
  else if t =? 6 then r <- parse_throttle pl PB ;; ret (BUnthrottle r)
  else if t =? 7 then r <- parse_exit pl PB ;; ret (BFork r)
  else if t =? 8 then r <- parse_read pl PB ;; ret (BRead r)
  else if t =? 9 then r <- parse_sample pl PB ;; ret (BSample r)
  else if t =? 10 then r <- parse_mmap2 pl PB ;; ret (BMmap2 r)
  else if t =? 11 then r <- parse_aux pl PB ;; ret (BAux r)
  else if t =? 12 then r <- parse_itrace_start pl PB ;; ret (BItraceStart r)
  else if t =? 13 then r <- parse_lost_samples pl PB ;; ret (BLostSamples r)
  else if t =? 15 then r <- parse_switch_cpu_wide pl PB ;; ret (BSwitchCpuWide r)
  else if t =? 16 then r <- parse_namespaces pl PB ;; ret (BNamespaces r)
  else if t =? 17 then r <- parse_ksymbol pl PB ;; ret (BKsymbol r)
  else if t =? 18 then r <- parse_bpf_event pl PB ;; ret (BBpfEvent r)
  else if t =? 19 then r <- parse_cgroup pl PB ;; ret (BCgroup r)
  else if t =? 20 then r <- parse_text_poke pl PB ;; ret (BTextPoke r)
  else if t =? 21 then r <- parse_aux_output_hw_id pl PB ;; ret (BAuxOutputHwId r)
  else r <- parse_rest PB ;; ret (BUnknown r).

Lemma bind_ret_lift : forall S A B O (m : M S A) (c : A -> B) (k : B -> out O) p,
  bind (bind m (fun r => ret (c r))) (fun b => lift (k b)) p = bind m (fun r => lift (k (c r))) p.
Proof. intros. unfold bind, ret, lift. destruct (m p) as [[] q]; reflexivity. Qed.

Lemma dispatch_eq : forall pl S (PB : parsebuf S) O (V : visitor O) md p,
  dispatch pl PB V md p = (b <- parse_body pl PB (md_ty md) ;; lift (deliver V b md)) p.
Proof.
  intros. unfold dispatch, parse_body.
  unfold PERF_RECORD_MMAP, PERF_RECORD_LOST, PERF_RECORD_COMM, PERF_RECORD_EXIT,
    PERF_RECORD_THROTTLE, PERF_RECORD_UNTHROTTLE, PERF_RECORD_FORK, PERF_RECORD_READ,
    PERF_RECORD_SAMPLE, PERF_RECORD_MMAP2, PERF_RECORD_AUX, PERF_RECORD_ITRACE_START,
    PERF_RECORD_LOST_SAMPLES, PERF_RECORD_SWITCH_CPU_WIDE, PERF_RECORD_NAMESPACES,
    PERF_RECORD_KSYMBOL, PERF_RECORD_BPF_EVENT, PERF_RECORD_CGROUP, PERF_RECORD_TEXT_POKE,
    PERF_RECORD_AUX_OUTPUT_HW_ID.
  repeat match goal with
  | |- (if ?b then _ else _) _ = _ => destruct b; [rewrite bind_ret_lift; reflexivity|]
  end.
  rewrite bind_ret_lift; reflexivity.
Qed.

(** A record as its body and metadata. *)
Definition collect_with_header (pl : platform) {S : Type} (PB : parsebuf S) (h : header)
  : M S (body cow * metadata) :=
  r <- parse_metadata_with_header pl PB h ;;
  let '(p, md) := r in
  match cursor_as_slice (p_buf p) with
  | Some data =>
      b <- sub (parse_body pl slice_buf (md_ty md)) (new_parser data (with_misc (p_cfg p) (md_misc md))) ;;
      ret (b, md)
  | None =>
      b <- sub (parse_body pl cursor_buf (md_ty md))
             (new_parser (p_buf p) (with_misc (p_cfg p) (md_misc md))) ;;
      ret (b, md)
  end.

Definition collect (pl : platform) {S : Type} (PB : parsebuf S) : M S (body cow * metadata) :=
  h <- parse_header pl PB ;; collect_with_header pl PB h.

Lemma sub_dispatch : forall pl S S2 (PB : parsebuf S2) O (V : visitor O) md q (p : parser S),
  sub (dispatch pl PB V md) q p =
  (r <- (b <- sub (parse_body pl PB (md_ty md)) q ;; ret (b, md)) ;;
   lift (deliver V (fst r) (snd r))) p.
Proof.
  intros. unfold sub, bind, ret, lift. rewrite dispatch_eq. unfold bind, lift.
  destruct (parse_body pl PB (md_ty md) q) as [[] q']; reflexivity.
Qed.

Lemma record_with_header_eq : forall pl S (PB : parsebuf S) O (V : visitor O) h p,
  parse_record_with_header pl PB V h p =
  (r <- collect_with_header pl PB h ;; lift (deliver V (fst r) (snd r))) p.
Proof.
  intros. unfold parse_record_with_header, collect_with_header, parse_record_impl.
  unfold bind at 1 2 3.
  destruct (parse_metadata_with_header pl PB h p) as [[[q md]|e| |] p1]; try reflexivity.
  destruct (cursor_as_slice (p_buf q)); apply sub_dispatch.
Qed.

Lemma record_eq : forall pl S (PB : parsebuf S) O (V : visitor O) p,
  parse_record pl PB V p =
  (r <- collect pl PB ;; lift (deliver V (fst r) (snd r))) p.
Proof.
  intros. unfold parse_record, collect. unfold bind at 1 2 3.
  destruct (parse_header pl PB p) as [[h|e| |] p1]; try reflexivity.
  apply record_with_header_eq.
Qed.

(** * Framing *)

Definition rel_body (mo : mode) (mem : memory) (pl : platform) : body cow -> body list -> Prop :=
  vrel view_body (ok_body mo mem pl).
Definition rel_record (mo : mode) (mem : memory) (pl : platform)
  (x : body cow * metadata) (y : body list * metadata) : Prop :=
  rel_body mo mem pl (fst x) (fst y) /\ snd x = snd y.

Lemma Ref_body : forall pl S (PB : parsebuf S) mo fin cap mem rep a0,
  contract PB mo fin cap mem rep -> cap <= isize_max pl ->
  forall t, Ref mo fin cap rep a0 (rel_body mo mem pl) (parse_body pl PB t) (f_body pl t).
Proof.
  intros pl S PB mo fin cap mem rep a0 HC Hcap t. unfold parse_body, f_body.
  Ltac one L := eapply Ref_bind; [eapply L; eassumption|]; intros ? ?;
    first [intros <- | intros [<- ?]]; apply Ref_ret; split; cbn; auto.
  apply Ref_if; intros _; [one Ref_mmap|].
  apply Ref_if; intros _; [one Ref_lost|].
  apply Ref_if; intros _; [one Ref_comm|].
  apply Ref_if; intros _; [one Ref_exit|].
  apply Ref_if; intros _; [one Ref_throttle|].
  apply Ref_if; intros _; [one Ref_throttle|].
  apply Ref_if; intros _; [one Ref_exit|].
  apply Ref_if; intros _; [one Ref_read|].
  apply Ref_if; intros _; [one Ref_sample|].
  apply Ref_if; intros _; [one Ref_mmap2|].
  apply Ref_if; intros _; [one Ref_aux|].
  apply Ref_if; intros _; [one Ref_itrace_start|].
  apply Ref_if; intros _; [one Ref_lost_samples|].
  apply Ref_if; intros _; [one Ref_switch_cpu_wide|].
  apply Ref_if; intros _; [one Ref_namespaces|].
  apply Ref_if; intros _; [one Ref_ksymbol|].
  apply Ref_if; intros _; [one Ref_bpf_event|].
  apply Ref_if; intros _; [one Ref_cgroup|].
  apply Ref_if; intros _; [one Ref_text_poke|].
  apply Ref_if; intros _; [one Ref_aux_output_hw_id|].
  eapply Ref_bind; [apply (Ref_rest PB mo fin cap mem rep a0 HC)|].
  intros ? ? [<- ?]; apply Ref_ret; split; cbn; auto.
Qed.

Section Frame.
Context (pl : platform) {S : Type} (PB : parsebuf S) (mo : mode) (fin : perror) (cap : N)
  (mem : memory) (rep : S -> list N -> N -> Prop) (a0 : N).
Context (HC : contract PB mo fin cap mem rep).

Notation Ref := (Ref mo fin cap rep a0).
Notation step := (step cap rep a0).

(** Refinement for parsers with configuration [c]. *)
Definition RefC (c : config) {A B : Type} (R : A -> B -> Prop) (m : M S A) (f : F B) : Prop :=
  forall p l pos, p_cfg p = c -> rep (p_buf p) l (a0 + pos) -> wf l ->
  match f (mkEnv c fin) l pos with
  | FOk b l' pos' ev =>
      Forall (ev_ok mo a0) ev ->
      exists a p', m p = (Ok a, p') /\ R a b /\ step p l pos p' l' pos'
  | FErr e l' pos' ev =>
      Forall (ev_ok mo a0) ev ->
      exists p', m p = (Err e, p') /\ step p l pos p' l' pos'
  end.

Lemma Ref_RefC : forall c A B (R : A -> B -> Prop) m f, Ref R m f -> RefC c R m f.
Proof. intros c A B R m f H p l pos <- Hr Hw. now apply H. Qed.

Lemma RefC_Ref : forall A B (R : A -> B -> Prop) m f, (forall c, RefC c R m f) -> Ref R m f.
Proof. intros A B R m f H p l pos Hr Hw. now apply H. Qed.

Lemma RefC_bind : forall c A B A' B' (R : A -> B -> Prop) (R' : A' -> B' -> Prop) m f k g,
  RefC c R m f -> (forall a b, R a b -> RefC c R' (k a) (g b)) -> RefC c R' (bind m k) (fbind f g).
Proof.
  intros c A B A' B' R R' m f k g Hm Hk p l pos Hc Hr Hw.
  specialize (Hm p l pos Hc Hr Hw). unfold fbind, bind.
  destruct (f _ l pos) as [b l1 pos1 ev1|e l1 pos1 ev1].
  - destruct (g b _ l1 pos1) as [d l2 pos2 ev2|e l2 pos2 ev2] eqn:Eg; intros Hev;
      apply Forall_app in Hev as [He1 He2];
      destruct (Hm He1) as (a & p1 & E & HR & Hs); rewrite E;
      assert (Hc1 : p_cfg p1 = c) by (rewrite (st_cfg _ _ _ _ _ _ _ _ _ Hs); exact Hc);
      specialize (Hk a b HR p1 l1 pos1 Hc1 (st_rep _ _ _ _ _ _ _ _ _ Hs) (step_wf _ _ _ _ _ _ _ _ _ Hs Hw));
      rewrite Eg in Hk.
    + destruct (Hk He2) as (a' & p2 & E2 & HR2 & Hs2).
      exists a', p2; split; [assumption|]; split; [assumption|]; eapply step_trans; eassumption.
    + destruct (Hk He2) as (p2 & E2 & Hs2).
      exists p2; split; [assumption|]; eapply step_trans; eassumption.
  - intros He1. destruct (Hm He1) as (p1 & E & Hs); rewrite E. exists p1; auto.
Qed.

Lemma RefC_fcfg : forall c A B (R : A -> B -> Prop) (m : M S A) (g : config -> F B),
  RefC c R m (g c) -> RefC c R m (d <~ fcfg ;; g d).
Proof.
  intros c A B R m g H p l pos Hc Hr Hw. specialize (H p l pos Hc Hr Hw).
  unfold fbind, fcfg; cbn [fe_cfg]. destruct (g c (mkEnv c fin) l pos); exact H.
Qed.

Lemma RefC_ret : forall c A B (R : A -> B -> Prop) a b, R a b -> RefC c R (ret a) (fret b).
Proof. intros; apply Ref_RefC; now apply Ref_ret. Qed.

Lemma RefC_fail : forall c A B (R : A -> B -> Prop) e, RefC c R (fail e) (ffail e).
Proof. intros; apply Ref_RefC; now apply Ref_fail. Qed.

Lemma RefC_split : forall c n,
  RefC c (fun q st => sub_rel mo mem a0 c n q st /\ len (fst st) = n) (split_at PB n) (f_split n).
Proof.
  intros c n p l pos <- Hr Hw.
  pose proof (split_spec PB mo fin cap mem rep a0 HC n p l pos Hr Hw) as H.
  destruct (f_split n _ l pos) as [st l' pos' ev|e l' pos' ev]; intros _.
  - destruct H as (q & p' & E & Hs & Hst & Hl & _). exists q, p'; auto.
  - destruct H as (p' & E & Hst & _). exists p'; auto.
Qed.

End Frame.

Lemma cursor_rep_mono : forall mo mem n n' c l a, n <= n' ->
  cursor_rep mo n mem c l a -> cursor_rep mo n' mem c l a.
Proof.
  intros mo mem n n' c l a Hn (start & cs & H1 & H2 & H3 & H4 & H5 & H6 & H7).
  exists start, cs; repeat split; try assumption; lia.
Qed.

Section Frame2.
Context (pl : platform) {S : Type} (PB : parsebuf S) (mo : mode) (fin : perror) (cap : N)
  (mem : memory) (rep : S -> list N -> N -> Prop) (a0 : N).
Context (HC : contract PB mo fin cap mem rep).

Notation Ref := (Ref mo fin cap rep a0).
Notation RefC := (RefC mo fin cap rep a0).
Notation step := (step cap rep a0).

(** A run on another buffer. *)
Lemma RefC_sub : forall c A B (R : A -> B -> Prop) S2 (rep2 : S2 -> list N -> N -> Prop) mo2 a2
    (m : M S2 A) (f : F B) (q : parser S2) cfg st,
  RefFrame.RefC mo2 eof_error cap rep2 a2 cfg R m f ->
  p_cfg q = cfg -> p_log q = [] -> rep2 (p_buf q) (fst st) (a2 + snd st) -> wf (fst st) ->
  (forall e, ev_ok mo a0 e -> ev_ok mo2 a2 e) ->
  RefC c R (sub m q) (f_sub f cfg st).
Proof.
  intros c A B R S2 rep2 mo2 a2 m f q cfg st Hm Hcq Hlog Hq Hwq Hev p l pos Hc Hr Hw.
  specialize (Hm q (fst st) (snd st) Hcq Hq Hwq). unfold f_sub, sub.
  assert (G : forall q' l' pos', Refine.step cap rep2 a2 q (fst st) (snd st) q' l' pos' ->
    step p l pos (mkParser (p_cfg p) (p_buf p) (p_off p) (p_log q' ++ p_log p)) l pos).
  { intros q' l' pos' [_ _ _ (new & E & Hn)]. rewrite Hlog, app_nil_r in E.
    constructor; cbn; [assumption|reflexivity| |].
    - exists 0; rewrite drop_0; repeat split; lia.
    - exists new; split; [congruence|assumption]. }
  destruct (f _ (fst st) (snd st)) as [b l' pos' ev|e l' pos' ev]; intros He;
    apply (Forall_impl _ Hev) in He.
  - destruct (Hm He) as (a & q' & E & HR & Hs). rewrite E.
    exists a; eexists; split; [reflexivity|]. split; [assumption|]. eapply G; eassumption.
  - destruct (Hm He) as (q' & E & Hs). rewrite E.
    eexists; split; [reflexivity|]. eapply G; eassumption.
Qed.

Context (H16 : 65536 <= cap).

(** The body's parser and the metadata. *)
Definition rel_meta (c : config) (x : parser cursor * metadata) (y : (list N * N) * metadata) : Prop :=
  snd x = snd y /\ exists n, n < 65536 /\ sub_rel mo mem a0 c n (fst x) (fst y).

Lemma RefC_metadata_with_header : forall c h, h_size h < 65536 ->
  RefC c (rel_meta c) (parse_metadata_with_header pl PB h) (f_metadata_with_header pl h).
Proof.
  intros c h Hh. unfold parse_metadata_with_header, f_metadata_with_header, checked_sub.
  rewrite N.leb_antisym.
  destruct (N.ltb_spec (h_size h) 8) as [H8|H8]; cbn [negb]; [apply RefC_fail|].
  eapply RefC_bind; [apply RefC_split; exact HC|]. intros q st [Hq Hlen].
  unfold PERF_RECORD_MMAP, PERF_RECORD_SAMPLE.
  destruct ((h_type h =? 1) || (h_type h =? 9)).
  { apply RefC_ret. split; [reflexivity|]. exists (h_size h - 8); split; [lia|exact Hq]. }
  apply RefC_fcfg. destruct Hq as (Ec & Eo & El & Eof & Elen & Hwq & Hrep). rewrite Ec.
  rewrite N.leb_antisym.
  destruct (N.ltb_spec (h_size h - 8) (estimate_len c)) as [He|He]; cbn [negb]; [apply RefC_fail|].
  eapply RefC_bind with (R := fun x y => snd x = snd y /\
     sub_rel mo mem a0 c (h_size h - 8 - estimate_len c) (fst x) (fst y)).
  - apply (RefC_sub c _ _ _ _ (cursor_rep mo cap mem) mo a0); try assumption; auto.
    + eapply RefC_bind; [apply RefC_split; apply cursor_contract|]. intros q2 st2 [Hq2 Hlen2].
      eapply RefC_bind; [apply Ref_RefC; eapply Ref_sample_id; apply cursor_contract|].
      intros si ? <-. apply RefC_ret. split; [reflexivity|exact Hq2].
    + eapply cursor_rep_mono; [|exact Hrep]. lia.
  - intros x y [E1 E2]. rewrite E1. apply RefC_ret. split; [reflexivity|].
    eexists; split; [|exact E2]. lia.
Qed.

Lemma f_metadata_meta : forall h env l pos,
  match f_metadata_with_header pl h env l pos with
  | FOk r _ _ _ => md_ty (snd r) = h_type h /\ md_misc (snd r) = h_misc h
  | FErr _ _ _ _ => True
  end.
Proof.
  intros h env l pos. unfold f_metadata_with_header.
  destruct (h_size h <? 8); [exact I|]. unfold fbind at 1.
  destruct (f_split _ _ _ _) as [st l1 pos1 ev1|]; [|exact I].
  destruct ((h_type h =? 1) || (h_type h =? 9)); [cbn; auto|].
  unfold fbind at 1; cbn [fcfg].
  destruct (h_size h - 8 <? estimate_len (fe_cfg env)); [exact I|].
  unfold fbind at 1. destruct (f_sub _ _ _ _ _ _); [|exact I]. cbn; auto.
Qed.

Context (Hcap : cap <= isize_max pl).

Lemma RefC_collect_with_header : forall c h, h_size h < 65536 ->
  RefC c (rel_record mo mem pl) (collect_with_header pl PB h) (f_record_with_header pl h).
Proof.
  intros c h Hh. unfold collect_with_header, f_record_with_header.
  eapply RefC_bind with (R := fun x y => rel_meta c x y /\
     (md_ty (snd y) = h_type h /\ md_misc (snd y) = h_misc h)).
  { intros p l pos Hc Hr Hw. pose proof (RefC_metadata_with_header c h Hh p l pos Hc Hr Hw) as G.
    pose proof (f_metadata_meta h (mkEnv c fin) l pos) as G2.
    destruct (f_metadata_with_header pl h _ l pos) as [b l' pos' ev|]; [|exact G].
    intros He. destruct (G He) as (a & p' & E & HR & Hs). exists a, p'; auto. }
  intros [q md] [st md'] [[E (n & Hn & Hq)] [Ety Emi]]. cbn [fst snd] in *. subst md'.
  rewrite Ety, Emi. apply RefC_fcfg.
  destruct Hq as (Ec & Eo & El & Eof & Elen & Hwq & Hrep). rewrite Ec.
  destruct (cursor_as_slice (p_buf q)) as [[x d]|] eqn:Esl.
  - unfold cursor_as_slice in Esl.
    destruct Hrep as (start & cs & H1 & H2 & H3 & H4 & H5 & H6 & H7).
    assert (Ecs : cs = [Borrowed x d]).
    { rewrite <- (rev_involutive cs), <- H1.
      destruct (cu_chunks (p_buf q)) as [|[a' d'|] [|]]; try discriminate.
      injection Esl as -> ->. reflexivity. }
    subst cs. cbn [chunks_ok map concat cow_list] in *. rewrite Eof in *.
    rewrite drop_0, app_nil_r in H5. rewrite N.add_0_r in H2.
    destruct H3 as (Hne & (Hm & Hmo) & _).
    eapply RefC_bind with (R := rel_body mo mem pl).
    + apply (RefC_sub c _ _ _ _ (slice_rep cap mem) Whole (x + 7 * snd st)); cbn [p_cfg p_log p_buf new_parser];
        try reflexivity; try assumption.
      * apply Ref_RefC. eapply Ref_weaken;
          [|eapply Ref_body; [apply slice_contract|assumption]].
        intros a b [Ha Hb]; split; [exact Ha|]. now apply ok_body_whole.
      * split; [cbn; congruence|]. cbn [sl_addr].
        replace (x + 7 * snd st + snd st) with (x + snd st * 8) by lia.
        rewrite N.mod_add by lia. split; [reflexivity|]. rewrite H5. split; [assumption|].
        rewrite <- H5. lia.
      * intros [al pos0|] He; cbn [ev_ok] in *; [|reflexivity].
        destruct mo; try contradiction;
          [destruct Hmo as [Hmo _]|]; rewrite <- H2 in Hmo;
          rewrite <- He; apply mod_align;
          replace (x + 7 * snd st + pos0) with (x + (7 * snd st + pos0)) by lia;
          rewrite (mod_shift _ _ _ Hmo);
          replace (a0 + snd st + (7 * snd st + pos0)) with (a0 + pos0 + snd st * 8) by lia;
          now rewrite N.mod_add by lia.
    + intros b b' Hb. apply RefC_ret. split; [exact Hb|reflexivity].
  - eapply RefC_bind with (R := rel_body mo mem pl).
    + apply (RefC_sub c _ _ _ _ (cursor_rep mo cap mem) mo a0); cbn [p_cfg p_log p_buf new_parser];
        try reflexivity; try assumption; auto.
      * apply Ref_RefC. eapply Ref_body; [apply cursor_contract|assumption].
      * eapply cursor_rep_mono; [|exact Hrep]. lia.
    + intros b b' Hb. apply RefC_ret. split; [exact Hb|reflexivity].
Qed.

Lemma Ref_collect_with_header : forall h, h_size h < 65536 ->
  Ref (rel_record mo mem pl) (collect_with_header pl PB h) (f_record_with_header pl h).
Proof. intros h Hh. apply RefC_Ref. intros c. now apply RefC_collect_with_header. Qed.

End Frame2.
