(** C59: bit fields and the byte order of the data. *)
From Coq Require Import NArith List Bool Lia.
From Verif Require Import Base BaseFacts Types Platform Config Buf Parser Contract Records Sample Record.
From Verif Require Import Bits Attr Access AccessFacts Wire WireAttr WireBits Roundtrip ConfFacts Spec ExData.
From Verif Require PropsConf.
From Verif Require Import Flat PropsAttr PropsPrim PropsAccess.
Import ListNotations.
Open Scope N_scope.

Lemma widths_app : forall a b, widths (a ++ b) = widths a + widths b.
Proof. induction a as [|[w v] a IH]; intros b; [reflexivity|]. cbn. fold (widths (a ++ b)). rewrite IH. cbn. fold (widths a). lia. Qed.

Lemma low_field : forall pre w v post, fit pre -> v < 2 ^ w ->
  field (low_first (pre ++ (w, v) :: post)) (widths pre) w = v.
Proof.
  induction pre as [|[w' v'] pre IH]; intros w v post Hf Hv; unfold field in *.
  - cbn [app low_first widths fold_right]. change (2 ^ 0) with 1. rewrite N.div_1_r.
    rewrite N.mul_comm, N.mod_add by (apply N.pow_nonzero; discriminate). now apply N.mod_small.
  - inversion Hf as [|? ? Hv' Hf']; subst. cbn [fst snd] in Hv'.
    cbn [app low_first widths fold_right fst]. fold (widths pre).
    rewrite N.pow_add_r, <- N.div_div by (apply N.pow_nonzero; discriminate).
    rewrite (N.mul_comm (2 ^ w')), N.div_add, (N.div_small v') by (try exact Hv'; apply N.pow_nonzero; discriminate).
    cbn [N.add]. now apply IH.
Qed.

Lemma low_below : forall fs, fit fs -> low_first fs < 2 ^ widths fs.
Proof.
  induction fs as [|[w v] fs IH]; intros Hf; [reflexivity|].
  inversion Hf as [|? ? Hv Hf']; subst. cbn [fst snd] in Hv. specialize (IH Hf').
  cbn [low_first widths fold_right fst]. fold (widths fs). rewrite N.pow_add_r. nia.
Qed.

Lemma high_below : forall fs room, fit fs -> widths fs <= room -> high_first room fs < 2 ^ room.
Proof.
  induction fs as [|[w v] fs IH]; intros room Hf Hr; cbn [high_first].
  - apply N.neq_0_lt_0, N.pow_nonzero. discriminate.
  - inversion Hf as [|? ? Hv Hf']; subst. cbn [fst snd] in Hv.
    cbn [widths fold_right fst] in Hr. fold (widths fs) in Hr.
    specialize (IH (room - w) Hf' ltac:(lia)).
    replace room with (w + (room - w)) at 3 by lia. rewrite N.pow_add_r. nia.
Qed.

Lemma high_field : forall pre room w v post, fit (pre ++ (w, v) :: post) ->
  widths (pre ++ (w, v) :: post) <= room ->
  field (high_first room (pre ++ (w, v) :: post)) (room - widths pre - w) w = v.
Proof.
  induction pre as [|[w' v'] pre IH]; intros room w v post Hf Hr.
  - unfold field. cbn [app] in *. inversion Hf as [|? ? Hv Hf']; subst. cbn [fst snd] in Hv.
    cbn [widths fold_right fst high_first] in *. fold (widths post) in Hr.
    pose proof (high_below post (room - w) Hf' ltac:(lia)) as Hb.
    rewrite N.sub_0_r, N.div_add_l, (N.div_small _ _ Hb), N.add_0_r
      by (apply N.pow_nonzero; discriminate).
    now apply N.mod_small.
  - cbn [app] in *. inversion Hf as [|? ? Hv' Hf']; subst. clear Hf.
    cbn [widths fold_right fst high_first] in *. fold (widths pre) in *.
    fold (widths (pre ++ (w, v) :: post)) in Hr.
    assert (Hw : widths pre + w <= widths (pre ++ (w, v) :: post)).
    { rewrite widths_app. cbn. lia. }
    specialize (IH (room - w') w v post Hf' ltac:(lia)).
    assert (He : exists e, room - (w' + widths pre) - w = e /\ room - w' - widths pre - w = e /\
      room - w' = e + w + widths pre).
    { exists (room - w' - widths pre - w). clear - Hr Hw. lia. }
    destruct He as (e & E1 & E2 & E3). rewrite E2 in IH. rewrite E1. rewrite E3 at 1.
    clear - IH. revert IH. generalize (high_first (room - w') (pre ++ (w, v) :: post)).
    intros H IH. unfold field in *. rewrite !N.pow_add_r.
    replace (v' * (2 ^ e * 2 ^ w * 2 ^ widths pre)) with ((v' * 2 ^ widths pre * 2 ^ w) * 2 ^ e)
      by (generalize (2 ^ e) (2 ^ w) (2 ^ widths pre); intros; ring).
    rewrite N.div_add_l by (apply N.pow_nonzero; discriminate).
    rewrite N.add_comm, N.mod_add by (apply N.pow_nonzero; discriminate). exact IH.
Qed.

Lemma packed_field : forall o pre w v post, fit (pre ++ (w, v) :: post) ->
  widths (pre ++ (w, v) :: post) = 64 ->
  field (packed o (pre ++ (w, v) :: post)) (place o (widths pre) w) w = v.
Proof.
  intros o pre w v post Hf Hw. destruct o; cbn [packed place].
  - apply Forall_app in Hf. destruct Hf as [Hp Hq]. inversion Hq; subst. now apply low_field.
  - apply high_field; [exact Hf|lia].
Qed.

Lemma high_multiple : forall fs room, widths fs <= room ->
  exists q, high_first room fs = q * 2 ^ (room - widths fs).
Proof.
  induction fs as [|[w v] fs IH]; intros room Hr; cbn [high_first].
  - now exists 0.
  - cbn [widths fold_right fst] in *. fold (widths fs) in *.
    destruct (IH (room - w) ltac:(lia)) as [q Hq]. rewrite Hq.
    replace (room - (w + widths fs)) with (room - w - widths fs) by lia.
    exists (v * 2 ^ widths fs + q).
    replace (room - w) with (room - w - widths fs + widths fs) at 1 by lia.
    rewrite N.pow_add_r. nia.
Qed.

Lemma zero_at_end : forall r fs, low_first (fs ++ [(r, 0)]) = low_first fs.
Proof.
  intros r. induction fs as [|[w v] fs IH]; cbn [app low_first]; [now rewrite N.mul_0_r|].
  now rewrite IH.
Qed.
Lemma zero_at_end_high : forall r fs room, high_first room (fs ++ [(r, 0)]) = high_first room fs.
Proof.
  intros r. induction fs as [|[w v] fs IH]; intros room; cbn [app high_first]; [reflexivity|].
  now rewrite IH.
Qed.

(** A field looked for at the wrong end, among the reserved bits. *)
Lemma wrong_end : forall o h fs r off w, o <> h -> fit fs -> widths fs + r = 64 -> off + w <= r ->
  field (packed o (fs ++ [(r, 0)])) (place h off w) w = 0.
Proof.
  intros o h fs r off w Hne Hf Hw Hr. unfold field.
  destruct o, h; try congruence; cbn [packed place].
  - rewrite zero_at_end. rewrite N.div_small; [apply N.mod_0_l, N.pow_nonzero; discriminate|].
    eapply N.lt_le_trans; [now apply low_below|]. apply N.pow_le_mono_r; [discriminate|lia].
  - rewrite zero_at_end_high. destruct (high_multiple fs 64 ltac:(lia)) as [q ->].
    replace (64 - widths fs) with (r - off - w + w + off) by lia. rewrite !N.pow_add_r.
    rewrite N.mul_assoc, N.div_mul by (apply N.pow_nonzero; discriminate).
    rewrite N.mul_assoc. apply N.mod_mul, N.pow_nonzero. discriminate.
Qed.

Lemma bit_field : forall w i, N.testbit w i = negb (field w i 1 =? 0).
Proof. intros w i. symmetry. apply bit_nonzero. Qed.
Lemma bool_bit_back : forall b, negb (bool_bit b =? 0) = b.
Proof. intros []; reflexivity. Qed.
Lemma bool_bit_fits : forall b, bool_bit b < 2.
Proof. intros []; reflexivity. Qed.

(** What the accessors of an entry say. *)
Definition reports (h : order) (b : branch_entry) (k : kernel_branch) : Prop :=
  be_from b = kb_from k /\ be_to b = kb_to k /\
  be_mispred h b = kb_mispred k /\ be_predicted h b = kb_predicted k /\
  be_in_tx h b = kb_in_tx k /\ be_abort h b = kb_abort k /\
  be_cycles h b = kb_cycles k /\ be_ty h b = kb_type k.

Lemma branch_fit : forall k, kernel_branch_ok k -> fit (branch_bits k ++ [(31, 0)]).
Proof. intros k (_ & _ & H). apply Forall_app. split; [exact H|]. now repeat constructor. Qed.

Lemma branch_word_below : forall o k, kernel_branch_ok k -> branch_word o k < 2 ^ 64.
Proof.
  intros o k H. pose proof (branch_fit k H) as Hf. unfold branch_word. destruct o; cbn [packed].
  - exact (low_below _ Hf).
  - apply high_below; [exact Hf|]. cbn. lia.
Qed.

Lemma same_order_reports : forall o k, kernel_branch_ok k -> reports o (branch_of o k) k.
Proof.
  intros o k Hk. pose proof (branch_fit k Hk) as Hf.
  unfold reports. split; [reflexivity|]. split; [reflexivity|].
  destruct (C45_branch o (branch_of o k)) as (-> & -> & -> & -> & -> & ->).
  rewrite !bit_field. cbn [branch_of be_flags].
  assert (P : forall pre w v post, branch_bits k ++ [(31, 0)] = pre ++ (w, v) :: post ->
    field (branch_word o k) (place o (widths pre) w) w = v).
  { intros pre w v post E. unfold branch_word. rewrite E in *.
    apply packed_field; [exact Hf|]. rewrite <- E. reflexivity. }
  pose proof (P [] 1 _ _ eq_refl) as P0.
  pose proof (P [_] 1 _ _ eq_refl) as P1.
  pose proof (P [_; _] 1 _ _ eq_refl) as P2.
  pose proof (P [_; _; _] 1 _ _ eq_refl) as P3.
  pose proof (P [_; _; _; _] 16 _ _ eq_refl) as P4.
  pose proof (P [_; _; _; _; _] 4 _ _ eq_refl) as P5.
  cbn in P0, P1, P2, P3, P4, P5.
  rewrite P0, P1, P2, P3, P4, P5.
  rewrite !bool_bit_back. repeat split.
Qed.

(** ** Branch entries

    Entries written by a kernel of the byte order of the host: every accessor says
    what the kernel wrote.  What is missing: the other order. *)
Theorem C59_branch_partial : forall pl S (PB : parsebuf S) mo fin cap mem p ks rest a,
  let o := pl_host pl in
  order_of pl (c_endian (p_cfg p)) = o ->
  cap <= isize_max pl -> Forall kernel_branch_ok ks ->
  ks = [] \/ lends_aligned pl mo a -> w_list (w_branch o) (map (branch_of o) ks) ++ rest <> [] ->
  len ks * 24 <= usize_max pl ->
  source PB mo fin cap mem p (w_list (w_branch o) (map (branch_of o) ks) ++ rest) a ->
  exists c p', parse_slice pl PB (elem_branch pl) (len ks) p = (Ok c, p') /\
    Forall2 (reports o) (cow_list c) ks.
Proof.
  intros pl S PB mo fin cap mem p ks rest a o Ho Hcap Hk Hal Hne Hlen Hs.
  assert (Hm : len (map (branch_of o) ks) = len ks) by (unfold len; now rewrite map_length).
  destruct (C10_branch_partial pl S PB mo fin cap mem p (map (branch_of o) ks) rest a Hcap)
    as (c & p' & E & Ec & _).
  - apply Forall_map. eapply Forall_impl; [|exact Hk]. intros k H.
    pose proof (branch_word_below o k H). destruct H as (H1 & H2 & _). now repeat split.
  - intros _. rewrite Ho. split; [|split; [exact Hne|now rewrite Hm]].
    destruct Hal as [->|H]; [now left|now right].
  - rewrite Ho. exact Hs.
  - rewrite Hm in E. exists c, p'. split; [exact E|]. rewrite Ec. clear - Hk.
    induction Hk; cbn [map]; constructor; [now apply same_order_reports|assumption].
Qed.

(** Entries of the other byte order: whatever the kernel wrote, every flag reads as
    false and the cycle count and the type as zero. *)
Theorem C59_branch_cross_refuted : forall o h k, o <> h -> kernel_branch_ok k ->
  let b := branch_of o k in
  be_from b = kb_from k /\ be_to b = kb_to k /\
  be_mispred h b = false /\ be_predicted h b = false /\ be_in_tx h b = false /\
  be_abort h b = false /\ be_cycles h b = 0 /\ be_ty h b = 0.
Proof.
  intros o h k Hne (_ & _ & Hf) b. split; [reflexivity|]. split; [reflexivity|].
  destruct (C45_branch h b) as (-> & -> & -> & -> & -> & ->).
  rewrite !bit_field. unfold b, branch_of, branch_word. cbn [be_flags].
  rewrite !(wrong_end o h) by (try assumption; try reflexivity; discriminate).
  repeat split.
Qed.

(** ** The flags of an attr *)

Lemma attr_fit : forall k, kf_precise_ip k < 4 -> fit (attr_bits k).
Proof.
  intros k H. unfold attr_bits, fit. rewrite !Forall_app, !Forall_map.
  split; [|split].
  - apply Forall_forall. intros b _. apply bool_bit_fits.
  - repeat constructor; try apply bool_bit_fits. exact H.
  - apply Forall_forall. intros b _. apply bool_bit_fits.
Qed.

Lemma attr_word_below : forall o k, kf_precise_ip k < 4 -> attr_word o k < 2 ^ 64.
Proof.
  intros o k H. assert (Hf : fit (attr_bits k ++ [(26, 0)])).
  { apply Forall_app. split; [now apply attr_fit|]. now repeat constructor. }
  unfold attr_word. destruct o; cbn [packed].
  - exact (low_below _ Hf).
  - apply high_below; [exact Hf|]. cbn. lia.
Qed.

Lemma sample_id_all_read : forall o h a k, at_bits a = attr_word o k -> kf_precise_ip k < 4 ->
  at_sample_id_all h a = order_eqb o h && kf_sample_id_all k.
Proof.
  intros o h a k Ea Hp. unfold at_sample_id_all. rewrite Ea.
  rewrite get_bits_field by lia.
  change (match h with LE => 18 | BE => 64 - 18 - 1 end) with (place h 18 1).
  change ((attr_word o k / 2 ^ place h 18 1) mod 2 ^ 1) with (field (attr_word o k) (place h 18 1) 1).
  pose proof (attr_fit k Hp) as Hf.
  assert (D : o = h \/ o <> h) by (destruct o, h; auto; right; discriminate).
  destruct D as [<-|Hne].
  - replace (order_eqb o o) with true by now destruct o. rewrite andb_true_l.
    rewrite <- (bool_bit_back (kf_sample_id_all k)). do 2 f_equal.
    set (pre := firstn 17 (attr_bits k)).
    set (post := skipn 18 (attr_bits k) ++ [(26, 0)]).
    assert (E : attr_bits k ++ [(26, 0)] = pre ++ (1, bool_bit (kf_sample_id_all k)) :: post)
      by reflexivity.
    change 18 with (widths pre). unfold attr_word. rewrite E. apply packed_field; rewrite <- E.
    + apply Forall_app. split; [exact Hf|]. now repeat constructor.
    + reflexivity.
  - replace (order_eqb o h) with false by (destruct o, h; reflexivity || congruence).
    unfold attr_word. rewrite (wrong_end o h); [reflexivity|exact Hne|exact Hf|reflexivity|discriminate].
Qed.

(** What the kernel does for an attr: what shapes its records. *)
Definition settings_of (a : attr) (k : kernel_flags) : settings :=
  let s := attr_seen a in
  mkSettings (at_sample_type s) (at_read_format s) (kf_sample_id_all k)
    (N.testbit (at_branch_sample_type s) 17) (at_sample_regs_user s) (at_sample_regs_intr s).

Lemma seen_small : forall a, (64 <= at_size a) -> at_bits (attr_seen a) = at_bits a /\
  at_sample_type (attr_seen a) = at_sample_type a /\ at_read_format (attr_seen a) = at_read_format a.
Proof.
  intros a H. cbn. repeat split;
    match goal with |- context [?x <=? ?y] =>
      replace (x <=? y) with true by (symmetry; apply N.leb_le; lia) end; reflexivity.
Qed.

Lemma ok_size : forall a r2 r3 ext, attr_ok a r2 r3 ext -> 64 <= at_size a.
Proof.
  intros a r2 r3 ext H. unfold attr_ok in H.
  assert (D : In (at_size a) versions /\ ext = [] \/ 136 < at_size a /\ len ext = at_size a - 136)
    by apply H.
  destruct D as [[D _]|[D _]]; [|lia].
  cbn in D. repeat (destruct D as [<-|D]; [discriminate|]). contradiction.
Qed.

(** An attr from a kernel of the byte order of the host: the configuration made of the
    parsed attr describes that kernel's records.  What is missing: the other order,
    and what C30 leaves open. *)
Theorem C59_attr_partial :
  forall pl S (PB : parsebuf S) mo fin cap mem p a k r2 r3 ext four rest pos e,
  let o := order_of pl (c_endian (p_cfg p)) in
  o = pl_host pl ->
  pl_ok pl -> attr_ok a r2 r3 ext -> zero_bytes ext -> zero_bytes four -> len four = 4 ->
  at_bits a = attr_word o k -> kf_precise_ip k < 4 ->
  at_sample_type a < 2 ^ 40 -> at_read_format a < 2 ^ 5 ->
  source PB mo fin cap mem p (w_attr o a r2 r3 ext ++ four ++ rest) pos ->
  exists b p', parse_attr pl PB p = (Ok b, p') /\
    configured (config_of_attr (pl_host pl) e b) (settings_of a k).
Proof.
  intros pl S PB mo fin cap mem p a k r2 r3 ext four rest pos e o Ho Hpl Ha Hz Hz4 H4 Hb Hp Hst Hrf Hs.
  destruct (C30_decoding_partial pl S PB mo fin cap mem p a r2 r3 ext four rest pos Hpl Ha Hz H4
    (or_intror Hz4) Hs) as (p' & E & _).
  exists (attr_seen a), p'. split; [exact E|].
  destruct (seen_small a (ok_size _ _ _ _ Ha)) as (E1 & E2 & E3).
  pose proof (PropsConf.C14_attr (pl_host pl) e (attr_seen a)) as C. rewrite E2 in C.
  destruct (C Hst) as (C1 & _ & C3 & C4 & C5 & C6 & _).
  pose proof (PropsConf.C14_read_format (pl_host pl) e (attr_seen a)) as R. rewrite E3 in R.
  unfold configured, settings_of. cbn [ws_sample_type ws_read_format ws_id_all ws_hw_index ws_regs_user ws_regs_intr].
  rewrite E2, E3. split; [exact C1|]. split; [exact (R Hrf)|]. split.
  - assert (H := sample_id_all_read o (pl_host pl) (attr_seen a) k ltac:(now rewrite E1) Hp).
    rewrite <- Ho in H at 2. replace (order_eqb o o) with true in H by now destruct o.
    rewrite andb_true_l in H. rewrite <- H. unfold sample_id_all, config_of_attr. cbn [c_flags].
    exact (proj1 (proj2 (proj2 (cf_new_spec _ _ _ _ _)))).
  - now repeat split.
Qed.

(** An attr of the other byte order: the configuration says that there are no sample
    ids, whether or not the kernel adds them to its records. *)
Theorem C59_attr_cross_refuted :
  forall pl S (PB : parsebuf S) mo fin cap mem p a k r2 r3 ext four rest pos e,
  let o := order_of pl (c_endian (p_cfg p)) in
  o <> pl_host pl ->
  pl_ok pl -> attr_ok a r2 r3 ext -> zero_bytes ext -> zero_bytes four -> len four = 4 ->
  at_bits a = attr_word o k -> kf_precise_ip k < 4 ->
  source PB mo fin cap mem p (w_attr o a r2 r3 ext ++ four ++ rest) pos ->
  exists b p', parse_attr pl PB p = (Ok b, p') /\
    sample_id_all (config_of_attr (pl_host pl) e b) = false.
Proof.
  intros pl S PB mo fin cap mem p a k r2 r3 ext four rest pos e o Ho Hpl Ha Hz Hz4 H4 Hb Hp Hs.
  destruct (C30_decoding_partial pl S PB mo fin cap mem p a r2 r3 ext four rest pos Hpl Ha Hz H4
    (or_intror Hz4) Hs) as (p' & E & _).
  exists (attr_seen a), p'. split; [exact E|].
  destruct (seen_small a (ok_size _ _ _ _ Ha)) as (E1 & _).
  assert (H := sample_id_all_read o (pl_host pl) (attr_seen a) k ltac:(now rewrite E1) Hp).
  replace (order_eqb o (pl_host pl)) with false in H by (destruct o, (pl_host pl); reflexivity || congruence).
  rewrite andb_false_l in H. rewrite <- H. unfold sample_id_all, config_of_attr. cbn [c_flags].
  exact (proj1 (proj2 (proj2 (cf_new_spec _ _ _ _ _)))).
Qed.

(** ** A whole session: an attr, then a LOST record with a sample id.  [o] is the order
    of the recording machine. *)
Definition ex_flags : kernel_flags :=
  mkKernelFlags true true false false false true true false true true false false true true false 2
    false true false false false false true true false false false false true true false false
    false false false false false.
Definition session_attr (o : order) : attr :=
  mkAttr 1 136 0 1000 6 0 (attr_word o ex_flags) 1 0 0 0 0 0 0 0 0 0 0 0 0 0.
Definition session_bytes (o : order) : list N :=
  w_attr o (session_attr o) 0 0 [] ++ [0; 0; 0; 0] ++ w_record o ex_set 1 ex_id (WLost (mkLost 7 9)).
Definition recorded (o : order) : endian := match o with LE => Little | BE => Big end.
Definition lost_ids : visitor sample_id :=
  {| v_unimplemented := fun md => Ok (md_sample_id md); v_mmap := None; v_lost := None; v_comm := None;
     v_exit := None; v_throttle := None; v_unthrottle := None; v_fork := None; v_read := None;
     v_sample := None; v_mmap2 := None; v_aux := None; v_itrace_start := None; v_lost_samples := None;
     v_switch := None; v_switch_cpu_wide := None; v_namespaces := None; v_ksymbol := None;
     v_bpf_event := None; v_cgroup := None; v_text_poke := None; v_aux_output_hw_id := None;
     v_unknown := None |}.
(** Parse the attr, make a configuration of it, parse the record, return its sample id. *)
Definition session (pl : platform) (o : order) : out sample_id :=
  match parse_attr pl slice_buf (on_slice 4096 (session_bytes o) (config_default (recorded o))) with
  | (Ok a, p) =>
      fst (parse_record pl slice_buf lost_ids
             (new_parser (p_buf p) (config_of_attr (pl_host pl) (recorded o) a)))
  | (Err e, _) => Err e
  | (Panic, _) => Panic
  | (Fuel, _) => Fuel
  end.

Example C59_session_example :
  session (mkPlatform LE 64 Align8) LE = Ok ex_id /\ session (mkPlatform BE 64 Align8) BE = Ok ex_id.
Proof. split; vm_compute; reflexivity. Qed.

(** The ids get lost between machines of different orders. *)
Theorem C59_session_refuted :
  session (mkPlatform LE 64 Align8) BE = Ok (mkSampleId None None None None None None) /\
  session (mkPlatform BE 64 Align8) LE = Ok (mkSampleId None None None None None None).
Proof. split; vm_compute; reflexivity. Qed.

Example C59_example :
  let k := mkKernelBranch 4096 8192 true false true false 77 3 1 2 4 in
  kernel_branch_ok k /\ branch_word LE k = 0x1093004D5 /\ branch_word BE k = 0xA004D34A00000000 /\
  reports LE (branch_of LE k) k /\ reports BE (branch_of BE k) k /\
  ~ reports LE (branch_of BE k) k /\
  attr_ok (session_attr LE) 0 0 [] /\ attr_ok (session_attr BE) 0 0 [] /\ kf_precise_ip ex_flags < 4.
Proof.
  cbv zeta. split; [repeat constructor|].
  split; [vm_compute; reflexivity|]. split; [vm_compute; reflexivity|].
  split; [vm_compute; repeat split|]. split; [vm_compute; repeat split|].
  split; [intros (_ & _ & H & _); vm_compute in H; discriminate|].
  split; [|split; [|reflexivity]].
  all: unfold attr_ok; vm_compute; repeat split; try reflexivity; left; split; [tauto|reflexivity].
Qed.

Print Assumptions C59_branch_partial.
Print Assumptions C59_branch_cross_refuted.
Print Assumptions C59_attr_partial.
Print Assumptions C59_attr_cross_refuted.
Print Assumptions C59_session_refuted.
