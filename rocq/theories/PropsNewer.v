(** C90: records to which a newer kernel appends fields. *)
From Coq Require Import NArith List Bool Lia.
From Verif Require Import Base BaseFacts Types Platform Config Buf Parser Contract Flat Refine.
From Verif Require Import Instances Records Sample Record Views RefFrame RefTop Wire Codec Roundtrip ConfFacts Spec SliceRecord SameFacts.
From Verif Require Import Accept AcceptFacts AcceptRecord ExData FrameFacts RoundFacts PropsFrame PropsSame PropsBorrow PropsAttr PropsAccept.
From Verif Require Import Matter PropsDepend Client Framing Newer NewerFacts.
Import ListNotations.
Open Scope N_scope.

Lemma under_source : forall S (PB : parsebuf S) mo fin cap mem p l a d,
  source PB mo fin cap mem p l a -> source PB mo fin cap mem (under d p) l a.
Proof. intros S PB mo fin cap mem p l a d H. exact H. Qed.

Lemma tame_under : forall pl c d mo a l, tame pl d mo a l -> same_for pl (from_order (order_of pl (c_endian c)) (take 4 l)) c d ->
  tame pl c mo a l.
Proof.
  intros pl c d mo a l [T1 T2] (Ho & Hs & _). unfold same_order in Ho. unfold tame. rewrite Ho in *. split; [exact T1|].
  destruct T2 as [T2|[T2|[T2|(T2 & T3 & T4)]]]; auto. right; right; right. split; [exact T2|]. split; [exact T3|].
  intros H9. destruct (Hs H9) as (Hf & _). unfold same_flags in Hf. rewrite Forall_forall in Hf.
  rewrite (Hf SF_STACK_USER), (Hf SF_REGS_INTR) by (cbn; tauto). exact (T4 H9).
Qed.

Lemma type_of : forall pl e t m s x, t < 2 ^ 32 -> m < 2 ^ 16 -> s < 2 ^ 16 ->
  from_order (order_of pl e) (take 4 (w_header (order_of pl e) t m s ++ x)) = t.
Proof.
  intros pl e t m s x Ht Hm Hs. pose proof (head_of_header pl (mkConfig 0 0 0 e) t m s x Ht Hm Hs) as H.
  cbn [c_endian] in H. apply (f_equal h_type) in H. exact H.
Qed.

Lemma name_ends : forall bits host o w m si b f s, is_record bits host o w m si b f -> name_of (expected b) = Some s ->
  last s 1 <> 0.
Proof.
  intros bits host o w m si b f s (body & unread & tail & _ & _ & _ & Hg & _) E.
  destruct b; try discriminate; cbn [expected name_of] in E; injection E as <-; cbn [body_given] in Hg; unfold string_given in Hg; tauto.
Qed.

(** What comes of a record when something is appended to it: it is read whenever it was, with the same metadata, and
    only a name at its end, or the bytes of an unknown record, take in what was appended.  The configuration may differ
    in what does not matter (C73), among it flags of sample_type which the crate does not know. *)
(** [tame] (C03) leaves out what the crate reads wrongly or refuses from some sources: TEXT_POKE in pieces, and arrays
    of words borrowed from memory they are misaligned in.  The full statement is the one without it. *)
Theorem C90_appended_partial :
  forall pl w f f' extra x1 x2 t S1 (PB1 : parsebuf S1) mo1 fin1 cap1 mem1 p1 a1 p1' b md
    S2 (PB2 : parsebuf S2) mo2 fin2 cap2 mem2 p2 a2,
  let o := order_of pl (c_endian (p_cfg p1)) in
  pl_ok pl -> configured (p_cfg p1) w -> ws_regs_user w < 2 ^ 64 -> ws_regs_intr w < 2 ^ 64 ->
  longer o w f f' extra -> t = from_order o (take 4 f) -> same_for pl t (p_cfg p1) (p_cfg p2) ->
  source PB1 mo1 fin1 cap1 mem1 p1 (f ++ x1) a1 -> tame pl (p_cfg p1) mo1 a1 (f ++ x1) ->
  source PB2 mo2 fin2 cap2 mem2 p2 (f' ++ x2) a2 -> tame pl (p_cfg p2) mo2 a2 (f' ++ x2) ->
  gives pl PB1 p1 (inr (b, md)) p1' ->
  exists b' p2', gives pl PB2 p2 (inr (b', md)) p2' /\ grown (view_body b) extra (view_body b') /\
    (forall s, name_of (view_body b) = Some s -> (view_body b' = view_body b <-> zero_bytes extra)) /\
    after PB1 mo1 fin1 cap1 mem1 p1 (len f) x1 a1 p1' /\ after PB2 mo2 fin2 cap2 mem2 p2 (len f') x2 a2 p2'.
Proof.
  intros pl w f f' extra x1 x2 t S1 PB1 mo1 fin1 cap1 mem1 p1 a1 p1' b md S2 PB2 mo2 fin2 cap2 mem2 p2 a2 o
    Hpl Hw Hu Hi HL Et Hsame Hs1 T1 Hs2 T2 G1.
  pose proof HL as (t0 & m & core & tail & Ht & Hm & Ef & Ef' & Htl & Hz).
  assert (Hz1 : 8 + len (core ++ tail) < 2 ^ 16) by (rewrite len_app; lia).
  assert (Hz2 : 8 + len (core ++ extra ++ tail) < 2 ^ 16) by (rewrite !len_app; lia).
  assert (E1 : f = w_header o t0 m (8 + len (core ++ tail)) ++ core ++ tail)
    by (rewrite Ef, len_app, N.add_assoc; reflexivity).
  assert (E2 : f' = w_header o t0 m (8 + len (core ++ extra ++ tail)) ++ core ++ extra ++ tail)
    by (rewrite Ef', !len_app, !N.add_assoc; reflexivity).
  assert (Lf : len f = 8 + len (core ++ tail)) by (rewrite E1, len_app, w_header_len; reflexivity).
  assert (Lf' : len f' = 8 + len (core ++ extra ++ tail)) by (rewrite E2, len_app, w_header_len; reflexivity).
  assert (Et0 : t = t0) by (rewrite Et, E1; unfold o; now apply type_of).
  clear Et. subst t.
  (* the record of the first source *)
  assert (A1 : after PB1 mo1 fin1 cap1 mem1 p1 (len f) x1 a1 p1').
  { pose proof (C01_record_framing pl S1 PB1 mo1 fin1 cap1 mem1 _ record_visitor p1 t0 m (core ++ tail) x1 a1) as F.
    cbv zeta in F. fold o in F. rewrite (app_assoc (w_header o t0 m _)), <- E1 in F. specialize (F Ht Hm Hz1 Hs1).
    specialize (G1 _ record_visitor). rewrite G1 in F. cbn [snd] in F. unfold after. rewrite Lf. exact F. }
  destruct A1 as (A1s & A1c & A1o).
  assert (M1 : moved PB1 mo1 fin1 cap1 mem1 (f ++ x1) a1 p1 (len f) p1').
  { split; [rewrite len_app; lia|]. rewrite drop_app_exact by reflexivity. split; [exact A1s|]. now split. }
  destruct (proj1 (C65_record_partial pl S1 PB1 mo1 fin1 cap1 mem1 w p1 (f ++ x1) a1 (view_body b) md (len f) Hpl Hw Hu Hi Hs1 T1))
    as (_ & m1 & si & wb & Ev & Emd & Hrec).
  { exists b, p1'. auto. }
  rewrite take_app_exact in Hrec by reflexivity. fold o in Hrec.
  destruct (record_longer _ _ _ _ _ _ _ _ _ _ HL Hrec) as (wb' & Ety & Hgr & Hrec').
  (* the second source, under the configuration of the first *)
  assert (Ho : order_of pl (c_endian (p_cfg p2)) = o) by (symmetry; apply Hsame).
  set (q := under (p_cfg p1) p2).
  assert (Hq : source PB2 mo2 fin2 cap2 mem2 q (f' ++ x2) a2) by exact Hs2.
  assert (Tq : tame pl (p_cfg q) mo2 a2 (f' ++ x2)).
  { apply (tame_under pl _ (p_cfg p2)); [exact T2|]. cbn [q under p_cfg]. fold o.
    rewrite E2, <- app_assoc. unfold o. rewrite type_of by assumption. exact Hsame. }
  destruct (proj2 (C65_record_partial pl S2 PB2 mo2 fin2 cap2 mem2 w q (f' ++ x2) a2 (expected wb') md (len f') Hpl Hw Hu Hi Hq Tq))
    as (b' & q' & G2 & Ev' & M2).
  { split; [rewrite len_app; lia|]. exists m1, si, wb'. split; [reflexivity|]. split; [now rewrite Ety|].
    rewrite take_app_exact by reflexivity. exact Hrec'. }
  assert (Hq2 : source PB2 mo2 fin2 cap2 mem2 q (w_header (order_of pl (c_endian (p_cfg q))) t0 m
    (8 + len (core ++ extra ++ tail)) ++ (core ++ extra ++ tail) ++ x2) a2).
  { cbn [q under p_cfg]. fold o. rewrite (app_assoc (w_header o t0 m _)), <- E2. exact Hs2. }
  exists b', (under (p_cfg p2) q').
  assert (Gp : gives pl PB2 p2 (inr (b', md)) (under (p_cfg p2) q')).
  { intros O V. pose proof (C73_source pl S2 PB2 mo2 fin2 cap2 mem2 q t0 m _ _ a2 O V (p_cfg p2) Ht Hm Hz2 Hq2 Hsame) as H.
    unfold cannot_tell in H. rewrite (G2 O V) in H. destruct p2 as [c2 s2 o2 l2]. exact H. }
  split; [exact Gp|]. split; [rewrite Ev, Ev'; exact Hgr|]. split; [|split].
  - intros s Es. rewrite Ev in Es. pose proof (name_ends _ _ _ _ _ _ _ _ _ Hrec Es) as Hls. rewrite Ev, Ev'.
    assert (Hx : exists k k' s', expected wb' = renamed (expected wb) s' /\ last s' 1 <> 0 /\
      s' ++ repeat 0 k' = s ++ repeat 0 k ++ extra).
    { unfold grown in Hgr. destruct (expected wb); try discriminate Es; rewrite Es in Hgr; exact Hgr. }
    destruct Hx as (k & k' & s' & -> & Hl' & E).
    assert (Hn : name_of (renamed (expected wb) s') = Some s')
      by (destruct (expected wb); try discriminate Es; reflexivity).
    split.
    + intros Eq. rewrite Eq, Es in Hn. injection Hn as <-. apply app_inv_head in E.
      assert (Z : zero_bytes (repeat 0 k ++ extra)) by (rewrite <- E; apply Forall_forall; intros y; apply repeat_spec).
      now apply Forall_app in Z.
    + intros Z. assert (Ex : extra = repeat 0 (length extra)).
      { clear - Z. induction Z as [|y l -> Z IH]; [reflexivity|]. cbn. now rewrite <- IH. }
      rewrite Ex, <- repeat_app in E.
      assert (s' = s).
      { assert (St : forall y j, last y 1 <> 0 -> strip (y ++ repeat 0 j) = y).
        { intros y j Hy. rewrite <- (Nnat.Nat2N.id j). exact (strip_str y (N.of_nat j) Hy). }
        rewrite <- (St s' k' Hl'), E. now apply St. }
      subst s'. destruct (expected wb); try discriminate Es; cbn [name_of] in Es; injection Es as <-; destruct r; reflexivity.
  - split; [exact A1s|now split].
  - destruct M2 as (_ & Ms & Mc & Mo). rewrite drop_app_exact in Ms by reflexivity. split; [exact Ms|]. split; [reflexivity|].
    exact Mo.
Qed.

(** The types which are read as before whatever is appended: LOST, EXIT, THROTTLE, UNTHROTTLE, FORK, READ, SAMPLE, AUX,
    ITRACE_START, LOST_SAMPLES, SWITCH_CPU_WIDE, NAMESPACES, BPF_EVENT, TEXT_POKE and AUX_OUTPUT_HW_ID. *)
Theorem C90_same_partial :
  forall pl w f f' extra x1 x2 t S1 (PB1 : parsebuf S1) mo1 fin1 cap1 mem1 p1 a1 p1' b md
    S2 (PB2 : parsebuf S2) mo2 fin2 cap2 mem2 p2 a2,
  let o := order_of pl (c_endian (p_cfg p1)) in
  pl_ok pl -> configured (p_cfg p1) w -> ws_regs_user w < 2 ^ 64 -> ws_regs_intr w < 2 ^ 64 ->
  longer o w f f' extra -> t = from_order o (take 4 f) -> same_for pl t (p_cfg p1) (p_cfg p2) ->
  In t [2; 4; 5; 6; 7; 8; 9; 11; 12; 13; 15; 16; 18; 20; 21] ->
  source PB1 mo1 fin1 cap1 mem1 p1 (f ++ x1) a1 -> tame pl (p_cfg p1) mo1 a1 (f ++ x1) ->
  source PB2 mo2 fin2 cap2 mem2 p2 (f' ++ x2) a2 -> tame pl (p_cfg p2) mo2 a2 (f' ++ x2) ->
  gives pl PB1 p1 (inr (b, md)) p1' ->
  exists b' p2', gives pl PB2 p2 (inr (b', md)) p2' /\ view_body b' = view_body b /\
    after PB2 mo2 fin2 cap2 mem2 p2 (len f') x2 a2 p2'.
Proof.
  intros pl w f f' extra x1 x2 t S1 PB1 mo1 fin1 cap1 mem1 p1 a1 p1' b md S2 PB2 mo2 fin2 cap2 mem2 p2 a2 o
    Hpl Hw Hu Hi HL Et Hsame Hin Hs1 T1 Hs2 T2 G1.
  destruct (C90_appended_partial pl w f f' extra x1 x2 t S1 PB1 mo1 fin1 cap1 mem1 p1 a1 p1' b md S2 PB2 mo2 fin2 cap2 mem2 p2 a2
    Hpl Hw Hu Hi HL Et Hsame Hs1 T1 Hs2 T2 G1) as (b' & p2' & G2 & Hg & _ & _ & A2).
  exists b', p2'. split; [exact G2|]. split; [|exact A2].
  assert (Hk : kind_ok t b).
  { pose proof HL as (t0 & m & core & tail & Ht & Hm & Ef & _ & _ & Hz).
    assert (Et0 : t = t0) by (rewrite Et, Ef; unfold o; apply type_of; [exact Ht|exact Hm|lia]). subst t0.
    assert (Hz1 : 8 + len core + len tail < 2 ^ 16) by lia.
    rewrite Ef, <- app_assoc in Hs1.
    destruct (C24_dispatch pl S1 PB1 mo1 fin1 cap1 mem1 p1 t m _ _ a1 Hpl Ht Hm Hz1 Hs1)
      as [(e & q & H)|(b0 & si & q & Hk & H)]; specialize (H _ keep_visitor); specialize (G1 _ keep_visitor);
      cbn beta iota in G1; rewrite keep_answer in G1; rewrite G1 in H; [discriminate|].
    rewrite keep_answer in H. injection H as <- _ _. exact Hk. }
  clear - Hk Hin Hg. unfold kind_ok in Hk.
  destruct b; cbn [body_kind] in Hk; cbn [view_body grown name_of] in Hg |- *; try exact Hg;
    exfalso; cbn [In] in Hin; lia.
Qed.

(** A recording of a newer kernel, record by record. *)
Definition reads_on (r : result) (x : result * list N) : Prop :=
  match r, fst x with
  | inr (b, md), inr (b', md') => md' = md /\ grown (view_body b) (snd x) (view_body b')
  | inr _, inl _ => False
  | inl _, _ => True
  end.

Definition tame_at (pl : platform) (c : config) (mo : mode) (a : N) (fs : list (list N)) (x : list N) : Prop :=
  forall fs1 f fs2, fs = fs1 ++ f :: fs2 -> tame pl c mo (a + len (concat fs1)) (f ++ concat fs2 ++ x).

Lemma tame_at_next : forall pl c mo a f fs x, tame_at pl c mo a (f :: fs) x ->
  tame pl c mo a (f ++ concat fs ++ x) /\ tame_at pl c mo (a + len f) fs x.
Proof.
  intros pl c mo a f fs x H. split.
  - specialize (H [] f fs eq_refl). cbn [concat] in H. change (len (@nil N)) with 0 in H. now rewrite N.add_0_r in H.
  - intros fs1 g fs2 ->. specialize (H (f :: fs1) g fs2 eq_refl). cbn [concat] in H.
    now rewrite len_app, N.add_assoc in H.
Qed.

Theorem C90_recording_partial :
  forall pl w c c' gs fs x1 x2 S1 (PB1 : parsebuf S1) mo1 fin1 cap1 mem1 S2 (PB2 : parsebuf S2) mo2 fin2 cap2 mem2 p1 a1 p2 a2,
  let o := order_of pl (c_endian c) in
  let fs' := map fst gs in
  pl_ok pl -> configured c w -> ws_regs_user w < 2 ^ 64 -> ws_regs_intr w < 2 ^ 64 ->
  (forall t, same_for pl t c c') -> p_cfg p1 = c -> p_cfg p2 = c' ->
  Forall2 (fun f g => longer o w f (fst g) (snd g)) fs gs ->
  source PB1 mo1 fin1 cap1 mem1 p1 (concat fs ++ x1) a1 -> tame_at pl c mo1 a1 fs x1 ->
  source PB2 mo2 fin2 cap2 mem2 p2 (concat fs' ++ x2) a2 -> tame_at pl c' mo2 a2 fs' x2 ->
  exists rs1 p1' rs2 p2', run_gives pl PB1 p1 rs1 p1' /\ run_gives pl PB2 p2 rs2 p2' /\
    length rs1 = length fs /\ length rs2 = length fs /\ Forall2 reads_on rs1 (combine rs2 (map snd gs)) /\
    after PB1 mo1 fin1 cap1 mem1 p1 (len (concat fs)) x1 a1 p1' /\ after PB2 mo2 fin2 cap2 mem2 p2 (len (concat fs')) x2 a2 p2'.
Proof.
  intros pl w c c' gs. induction gs as [|[f' extra] gs IH];
    intros fs x1 x2 S1 PB1 mo1 fin1 cap1 mem1 S2 PB2 mo2 fin2 cap2 mem2 p1 a1 p2 a2 o fs' Hpl Hw Hu Hi Hsame E1 E2 HF Hs1 T1 Hs2 T2.
  - inversion HF; subst fs. exists [], p1, [], p2. cbn [run_gives map combine length concat].
    unfold fs' in *. cbn [map concat app] in Hs1, Hs2. change (len (@nil N)) with 0.
    do 4 (split; [reflexivity|]). split; [constructor|]. unfold after. rewrite !N.add_0_r.
    split; (split; [assumption|now split]).
  - inversion HF as [|f g fs0 gs0 HL HF']; subst fs g gs0. cbn [fst snd] in HL.
    unfold fs' in *. cbn [map fst concat] in *. rewrite <- app_assoc in Hs1, Hs2.
    apply tame_at_next in T1 as [T1 T1']. apply tame_at_next in T2 as [T2 T2'].
    subst c c'.
    destruct (C03_same_bytes_partial pl (p_cfg p1) _ fin1 S1 PB1 mo1 cap1 mem1 p1 a1 S1 PB1 mo1 cap1 mem1 p1 a1
      Hpl eq_refl eq_refl Hs1 Hs1 T1 T1) as (n1 & r1 & _ & p1' & _ & G1 & _).
    destruct (C03_same_bytes_partial pl (p_cfg p2) _ fin2 S2 PB2 mo2 cap2 mem2 p2 a2 S2 PB2 mo2 cap2 mem2 p2 a2
      Hpl eq_refl eq_refl Hs2 Hs2 T2 T2) as (n2 & r2 & _ & p2' & _ & G2 & _).
    assert (Ho : order_of pl (c_endian (p_cfg p2)) = o) by (symmetry; apply (Hsame 0)).
    pose proof HL as (t & m & core & tail & Ht & Hm & Ef & Ef' & Htl & Hz).
    assert (A1 : after PB1 mo1 fin1 cap1 mem1 p1 (len f) (concat fs0 ++ x1) a1 p1').
    { pose proof (C01_record_framing pl S1 PB1 mo1 fin1 cap1 mem1 _ record_visitor p1 t m (core ++ tail) (concat fs0 ++ x1) a1) as F.
      cbv zeta in F. fold o in F. rewrite (app_assoc (w_header o t m _)), len_app, N.add_assoc, <- Ef in F.
      specialize (F Ht Hm ltac:(lia) Hs1). specialize (G1 _ record_visitor). rewrite G1 in F. cbn [snd] in F.
      assert (Lf : len f = 8 + len core + len tail) by (rewrite Ef, !len_app, w_header_len; lia).
      unfold after. rewrite Lf. exact F. }
    assert (A2 : after PB2 mo2 fin2 cap2 mem2 p2 (len f') (concat (map fst gs) ++ x2) a2 p2').
    { pose proof (C01_record_framing pl S2 PB2 mo2 fin2 cap2 mem2 _ record_visitor p2 t m (core ++ extra ++ tail)
        (concat (map fst gs) ++ x2) a2) as F.
      cbv zeta in F. rewrite Ho, (app_assoc (w_header o t m _)), !len_app, !N.add_assoc, <- Ef' in F.
      specialize (F Ht Hm Hz Hs2). specialize (G2 _ record_visitor). rewrite G2 in F. cbn [snd] in F.
      assert (Lf : len f' = 8 + len core + len extra + len tail) by (rewrite Ef', !len_app, w_header_len; lia).
      unfold after. rewrite Lf, !N.add_assoc. exact F. }
    assert (R : reads_on r1 (r2, extra)).
    { destruct r1 as [e|[b md]]; [exact Logic.I|].
      destruct (C90_appended_partial pl w f f' extra _ _ _ S1 PB1 mo1 fin1 cap1 mem1 p1 a1 p1' b md S2 PB2 mo2 fin2 cap2 mem2 p2 a2
        Hpl Hw Hu Hi HL eq_refl (Hsame _) Hs1 T1 Hs2 T2 G1) as (b' & q & G2' & Hg & _).
      destruct (gives_once _ _ _ _ _ _ _ _ G2 G2') as [-> _]. now split. }
    destruct A1 as (A1s & A1c & A1o), A2 as (A2s & A2c & A2o).
    destruct (IH fs0 x1 x2 S1 PB1 mo1 fin1 cap1 mem1 S2 PB2 mo2 fin2 cap2 mem2 p1' (a1 + len f) p2' (a2 + len f') Hpl Hw Hu Hi Hsame A1c A2c
      HF' A1s T1' A2s T2') as (rs1 & q1 & rs2 & q2 & R1 & R2 & L1 & L2 & HR & (B1s & B1c & B1o) & (B2s & B2c & B2o)).
    exists (r1 :: rs1), q1, (r2 :: rs2), q2.
    split; [exists p1'; now split|]. split; [exists p2'; now split|].
    split; [cbn; now rewrite L1|]. split; [cbn; now rewrite L2|].
    split; [cbn; constructor; assumption|].
    unfold after. rewrite !len_app, !N.add_assoc.
    split; (split; [assumption|]); split; congruence.
Qed.

(** LOST with eight more bytes before its sample_id, under a configuration with one more flag in sample_type (bit 25,
    which the crate knows nothing of). *)
Definition new_cfg : config := mkConfig (cf_new 0 (6 + 2 ^ 25) true false 0) 0 0 Little.
Definition long_lost : list N :=
  w_header LE 2 1 48 ++ (w64 LE 7 ++ w64 LE 9) ++ [1; 2; 3; 4; 5; 6; 7; 8] ++ (w32 LE 1234 ++ w32 LE 1235 ++ w64 LE 999).

Example C90_example :
  let p1 := on_slice 4096 (ex_lost ++ [1]) ex_cfg in
  let p2 := reader_of [long_lost] new_cfg in
  configured ex_cfg ex_set /\ longer LE ex_set ex_lost long_lost [1; 2; 3; 4; 5; 6; 7; 8] /\
  (forall t, same_for pl64 t ex_cfg new_cfg) /\ sample_type ex_cfg <> sample_type new_cfg /\
  (forall cap mem, 16384 <= cap -> source bufreader_buf NoExt eof_error cap mem p2 (long_lost ++ []) 0) /\
  tame pl64 ex_cfg Whole 4096 (ex_lost ++ [1]) /\ tame pl64 new_cfg NoExt 0 (long_lost ++ []) /\
  (exists p1', gives pl64 slice_buf p1 (inr (BLost (mkLost 7 9), mkMeta 2 1 ex_id)) p1') /\
  (exists p2', gives pl64 bufreader_buf p2 (inr (BLost (mkLost 7 9), mkMeta 2 1 ex_id)) p2').
Proof.
  cbv zeta. split; [repeat split|]. split.
  { exists 2, 1, (w64 LE 7 ++ w64 LE 9), (w32 LE 1234 ++ w32 LE 1235 ++ w64 LE 999). vm_compute. repeat split. }
  split.
  { intros t. split; [reflexivity|]. split; [intros _|split; [intros _ _; split; [reflexivity|intros _]|reflexivity]].
    - split; [|repeat split]. unfold same_flags, sample_flags. repeat (constructor; [vm_compute; reflexivity|]). constructor.
    - unfold same_flags, id_flags. repeat (constructor; [vm_compute; reflexivity|]). constructor. }
  split; [vm_compute; discriminate|]. split.
  { intros cap mem Hc. apply (reader_source [] [long_lost] None); [exact Hc| | |]; try (vm_compute; congruence);
      repeat constructor; discriminate. }
  split; [split; [vm_compute; discriminate|left; split; vm_compute; discriminate]|].
  split; [split; [vm_compute; discriminate|left; split; vm_compute; discriminate]|].
  split; (eexists; apply collect_gives; vm_compute; reflexivity).
Qed.

(** A name of which only zeros are the continuation, and one which goes on: that names too stay as they are is false. *)
Definition short_comm : list N := w_header LE 3 0 24 ++ (w32 LE 7 ++ w32 LE 8 ++ [65; 66; 0; 0; 0; 0; 0; 0]).
Definition long_comm (extra : list N) : list N :=
  w_header LE 3 0 32 ++ (w32 LE 7 ++ w32 LE 8 ++ [65; 66; 0; 0; 0; 0; 0; 0]) ++ extra.

Theorem C90_names_refuted :
  let read f := match fst (parse_record pl64 slice_buf keep (on_slice 4096 f ex_cfg0)) with
                | Ok (b, _) => Some b | _ => None end in
  longer LE ex_set0 short_comm (long_comm [0; 0; 0; 0; 0; 0; 0; 0]) [0; 0; 0; 0; 0; 0; 0; 0] /\
  longer LE ex_set0 short_comm (long_comm [1; 0; 0; 0; 0; 0; 0; 0]) [1; 0; 0; 0; 0; 0; 0; 0] /\
  read short_comm = Some (BComm (mkComm 7 8 [65; 66])) /\
  read (long_comm [0; 0; 0; 0; 0; 0; 0; 0]) = Some (BComm (mkComm 7 8 [65; 66])) /\
  read (long_comm [1; 0; 0; 0; 0; 0; 0; 0]) = Some (BComm (mkComm 7 8 [65; 66; 0; 0; 0; 0; 0; 0; 1])).
Proof.
  cbv zeta. split; [exists 3, 0, (w32 LE 7 ++ w32 LE 8 ++ [65; 66; 0; 0; 0; 0; 0; 0]), []; vm_compute; repeat split|].
  split; [exists 3, 0, (w32 LE 7 ++ w32 LE 8 ++ [65; 66; 0; 0; 0; 0; 0; 0]), []; vm_compute; repeat split|].
  split; [vm_compute; reflexivity|]. split; vm_compute; reflexivity.
Qed.

(** Two records of a recording, the first longer by eight bytes, the second by none. *)
Example C90_recording_example :
  let gs := [(long_lost, [1; 2; 3; 4; 5; 6; 7; 8]); (ex_lost, [])] in
  let fs := [ex_lost; ex_lost] in
  Forall2 (fun f g => longer LE ex_set f (fst g) (snd g)) fs gs /\
  (forall x, tame_at pl64 ex_cfg NoExt 0 fs x) /\ (forall x, tame_at pl64 new_cfg NoExt 0 (map fst gs) x) /\
  exists p', run_gives pl64 bufreader_buf (reader_of [long_lost ++ ex_lost] new_cfg)
    [inr (BLost (mkLost 7 9), mkMeta 2 1 ex_id); inr (BLost (mkLost 7 9), mkMeta 2 1 ex_id)] p'.
Proof.
  cbv zeta. split.
  { constructor; [|constructor; [|constructor]].
    - exists 2, 1, (w64 LE 7 ++ w64 LE 9), (w32 LE 1234 ++ w32 LE 1235 ++ w64 LE 999). vm_compute. repeat split.
    - exists 2, 1, (w64 LE 7 ++ w64 LE 9), (w32 LE 1234 ++ w32 LE 1235 ++ w64 LE 999). vm_compute. repeat split. }
  assert (T : forall c x f, In f [ex_lost; long_lost] -> forall a y, c_endian c = Little -> y = f ++ x -> tame pl64 c NoExt a y).
  { intros c x f Hin a y Hc ->. unfold tame. rewrite Hc. destruct Hin as [<-|[<-|[]]];
      (split; [vm_compute; discriminate|left; split; vm_compute; discriminate]). }
  split; [|split].
  - intros x fs1 f fs2 E. apply (T _ (concat fs2 ++ x) f); [|reflexivity|reflexivity].
    assert (In f [ex_lost; ex_lost]) as [<-|[<-|[]]] by (rewrite E; apply in_or_app; right; now left); now left.
  - intros x fs1 f fs2 E. apply (T _ (concat fs2 ++ x) f); [|reflexivity|reflexivity].
    assert (In f [long_lost; ex_lost]) as [<-|[<-|[]]] by (cbn [map fst] in E; rewrite E; apply in_or_app; right; now left); cbn; auto.
  - eexists. eexists. split; [apply collect_gives; vm_compute; reflexivity|].
    eexists. split; [apply collect_gives; vm_compute; reflexivity|reflexivity].
Qed.

Print Assumptions C90_appended_partial.
Print Assumptions C90_same_partial.
Print Assumptions C90_recording_partial.
Print Assumptions C90_names_refuted.
