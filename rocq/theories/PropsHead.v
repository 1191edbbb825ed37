(** Theorems: records whose header the caller has read already (C60). *)
From Coq Require Import NArith List Bool Lia.
From Verif Require Import Base BaseFacts Types Platform Config Buf Parser Contract Flat Refine.
From Verif Require Import Instances Prims Slices Records Sample Record Attr Views RefRecords.
From Verif Require Import RefFrame RefTop Safe Wire Codec ConfFacts Roundtrip RtRecord Spec NoHint FrameFacts.
From Verif Require Import SliceExact SliceRecord SameFacts ExData PropsFrame PropsSame PropsSafe.
Import ListNotations.
Open Scope N_scope.

Lemma collect_header_no_hint : forall pl S (PB : parsebuf S) h,
  collect_with_header pl PB h = collect_with_header pl (no_hint PB) h.
Proof.
  intros. unfold collect_with_header, parse_metadata_with_header. now rewrite split_no_hint.
Qed.

(** Whatever header is given: as many bytes as it says are taken, whatever the
    visitor and whatever becomes of them. *)
Theorem C60_framing :
  forall pl S (PB : parsebuf S) mo fin cap mem O (V : visitor O) p t m payload rest a,
  source PB mo fin cap mem p (payload ++ rest) a ->
  let p' := snd (parse_record_with_header pl PB V (mkHeader t m (8 + len payload)) p) in
  after PB mo fin cap mem p (len payload) rest a p'.
Proof.
  intros pl S PB mo fin cap mem O V p t m payload rest a (rep & HC & Hr & Hw) p'.
  set (h := mkHeader t m (8 + len payload)) in *.
  destruct (still_after_split pl PB h) as (k & Hk & Ek); [unfold h; cbn [h_size]; lia|].
  destruct (split_exact S PB mo fin cap mem rep HC (len payload) p (payload ++ rest) a Hr Hw)
    as (q & p2 & E2 & Hr2 & Hc2 & Ho2 & _).
  { rewrite len_app. lia. }
  rewrite drop_app_exact in Hr2 by reflexivity.
  assert (E : p_buf p' = p_buf p2 /\ p_off p' = p_off p2 /\ p_cfg p' = p_cfg p2).
  { unfold p'. rewrite record_with_header_eq. unfold bind. rewrite Ek. unfold h. cbn [h_size].
    replace (8 + len payload - 8) with (len payload) by lia.
    unfold bind. rewrite E2. destruct (Hk q p2) as (G1 & G2 & G3).
    destruct (k q p2) as [[r|e| |] p3]; unfold lift; cbn [snd] in *; repeat split; congruence. }
  destruct E as (E3 & E4 & E5). split; [|split; congruence].
  exists rep. rewrite E3. split; [exact HC|]. split; [exact Hr2|]. now apply wf_app_r in Hw.
Qed.

(** A header that says less than its own length takes nothing. *)
Theorem C60_too_small : forall pl S (PB : parsebuf S) O (V : visitor O) p t m size,
  size < 8 ->
  parse_record_with_header pl PB V (mkHeader t m size) p =
    (Err (mkError KInvalidRecord (Some (SrcMsg MsgHeaderTooSmall))), p).
Proof.
  intros pl S PB O V p t m size H.
  unfold parse_record_with_header, parse_metadata_with_header, checked_sub. cbn [h_size].
  replace (8 <=? size) with false by (symmetry; now apply N.leb_gt). reflexivity.
Qed.

(** One that says more than there is gives the error of the source. *)
Theorem C60_truncated : forall pl S (PB : parsebuf S) mo fin cap mem O (V : visitor O) p t m size l a,
  8 + len l < size -> size < 2 ^ 16 -> source PB mo fin cap mem p l a ->
  fst (parse_record_with_header pl PB V (mkHeader t m size) p) = Err fin.
Proof.
  intros pl S PB mo fin cap mem O V p t m size l a Hl Hs (rep & HC & Hr & Hw).
  unfold parse_record_with_header, parse_metadata_with_header, checked_sub. cbn [h_size].
  replace (8 <=? size) with true by (symmetry; apply N.leb_le; lia).
  rewrite <- (N.add_0_r a) in Hr.
  pose proof (split_spec PB mo fin cap mem rep a HC (size - 8) p l 0 Hr Hw) as G.
  assert (E : exists l' n, f_split (size - 8) (mkEnv (p_cfg p) fin) l 0 = FErr fin l' n []).
  { unfold f_split, f_take. replace (size - 8 =? 0) with false by (symmetry; apply N.eqb_neq; lia).
    unfold fbind, f_take. destruct l as [|x t']; [eauto|].
    replace (len (x :: t') <? size - 8) with true by (symmetry; apply N.ltb_lt; lia). eauto. }
  destruct E as (l' & n & E). rewrite E in G. destruct G as (p' & G & _).
  unfold bind at 1. unfold bind at 1. now rewrite G.
Qed.

(** No header makes the parser panic or loop: an error of the usual kinds, or the
    answer of the visitor to a body of the kind the header says, with the misc
    of the header. *)
Theorem C60_safe : forall pl S (PB : parsebuf S) mo fin cap mem p t m size l a,
  pl_ok pl -> size < 2 ^ 16 -> source PB mo fin cap mem p l a ->
  (exists e p', kind_fine fin e /\
     forall O (V : visitor O), parse_record_with_header pl PB V (mkHeader t m size) p = (Err e, p')) \/
  (exists b si p', kind_ok t b /\
     forall O (V : visitor O),
       parse_record_with_header pl PB V (mkHeader t m size) p = (answer V b (mkMeta t m si), p')).
Proof.
  intros pl S PB mo fin cap mem p t m size l a Hpl Hs (rep & HC & Hr & Hw).
  rewrite <- (N.add_0_r a) in Hr. pose proof (record_cap pl Hpl) as Hcap.
  pose proof (s_collect_with_header pl (no_hint PB) mo fin 65527 mem rep a
    (no_hint_contract _ PB mo fin cap 65527 mem rep HC) ltac:(lia) (mkHeader t m size) ltac:(cbn [h_size]; lia) p l 0 Hr Hw)
    as (r & p' & l' & pos' & E & Hg & Hst).
  rewrite <- collect_header_no_hint in E.
  destruct r as [[b md]|e| |]; cbn [good] in Hg; try contradiction.
  - right. pose proof E as E2. apply collect_kind in E2 as (G1 & G2 & G3). cbn [h_type h_misc] in *.
    exists b, (md_sample_id md), p'. split; [exact G3|]. intros O V.
    rewrite record_with_header_eq. unfold bind. rewrite E. cbn [lift fst snd].
    rewrite deliver_answer. unfold lift.
    assert (Em : md = mkMeta t m (md_sample_id md)); [|rewrite <- Em; reflexivity].
    clear - G1 G2. destruct md as [x y z]. cbn [md_ty md_misc md_sample_id] in *. now subst.
  - left. exists e, p'. split; [now apply err_ok_fine|]. intros O V.
    rewrite record_with_header_eq. unfold bind. now rewrite E.
Qed.

(** The header may come from anywhere: the result is that of parsing header and
    body together.  (The body is lent from position [a1], which would make the
    header's [a1 - 8].)

    Full statement: without [tame], see C03. *)
Theorem C60_elsewhere_partial :
  forall pl c t m size l fin S1 (PB1 : parsebuf S1) mo1 cap1 mem1 p1 a1
    S2 (PB2 : parsebuf S2) mo2 cap2 mem2 p2 a2,
  let o := order_of pl (c_endian c) in
  pl_ok pl -> p_cfg p1 = c -> p_cfg p2 = c ->
  t < 2 ^ 32 -> m < 2 ^ 16 -> size < 2 ^ 16 -> 8 <= a1 ->
  source PB1 mo1 fin cap1 mem1 p1 l a1 ->
  source PB2 mo2 fin cap2 mem2 p2 (w_header o t m size ++ l) a2 ->
  tame pl c mo1 (a1 - 8) (w_header o t m size ++ l) -> tame pl c mo2 a2 (w_header o t m size ++ l) ->
  exists n r1 r2 p1' p2',
    (forall O (V : visitor O), parse_record_with_header pl PB1 V (mkHeader t m size) p1 =
       (match r1 with inl e => Err e | inr (b, md) => answer V b md end, p1')) /\
    gives pl PB2 p2 r2 p2' /\ same_result r1 r2 /\
    moved PB1 mo1 fin cap1 mem1 l a1 p1 n p1' /\
    moved PB2 mo2 fin cap2 mem2 (w_header o t m size ++ l) a2 p2 (8 + n) p2'.
Proof.
  intros pl c t m size l fin S1 PB1 mo1 cap1 mem1 p1 a1 S2 PB2 mo2 cap2 mem2 p2 a2 o Hpl E1 E2 Ht Hm Hs
    Ha H1 H2 T1 T2.
  pose proof (record_events pl mo1 (a1 - 8) (mkEnv c fin) _ T1) as Hev.
  rewrite <- E2 in T2. pose proof (gives_flat pl S2 PB2 mo2 fin cap2 mem2 p2 _ a2 Hpl H2 T2) as G2.
  rewrite E2 in G2.
  assert (Ef : forall x l' n ev, f_record pl (mkEnv c fin) (w_header o t m size ++ l) 0 = FOk x l' n ev ->
            f_record_with_header pl (mkHeader t m size) (mkEnv c fin) l 8 = FOk x l' n ev).
  { intros x l' n ev. unfold f_record, fbind at 1. unfold o.
    destruct (Rt_header pl 0 false (mkEnv c fin) t m size l 0 Ht Hm Hs) as (ev0 & E & _).
    cbn [fe_cfg] in E. rewrite w_header_len, N.add_0_l in E.
    assert (ev0 = []) by (eapply noev_ok; [apply noev_header|exact E]). subst ev0. rewrite E.
    destruct (f_record_with_header _ _ _ _ _); cbn [app]; congruence. }
  assert (Ff : forall e l' n ev, f_record pl (mkEnv c fin) (w_header o t m size ++ l) 0 = FErr e l' n ev ->
            f_record_with_header pl (mkHeader t m size) (mkEnv c fin) l 8 = FErr e l' n ev).
  { intros x l' n ev. unfold f_record, fbind at 1. unfold o.
    destruct (Rt_header pl 0 false (mkEnv c fin) t m size l 0 Ht Hm Hs) as (ev0 & E & _).
    cbn [fe_cfg] in E. rewrite w_header_len, N.add_0_l in E.
    assert (ev0 = []) by (eapply noev_ok; [apply noev_header|exact E]). subst ev0. rewrite E.
    destruct (f_record_with_header _ _ _ _ _); cbn [app]; congruence. }
  destruct H1 as (rep & HC & Hr & Hw).
  pose proof (record_cap pl Hpl) as Hcap.
  pose proof (Ref_collect_with_header pl (no_hint PB1) mo1 fin 65536 mem1 rep (a1 - 8)
    (no_hint_contract _ PB1 mo1 fin cap1 65536 mem1 rep HC) ltac:(lia) ltac:(lia) (mkHeader t m size) Hs) as R.
  rewrite <- collect_header_no_hint in R.
  specialize (R p1 l 8). replace (a1 - 8 + 8) with a1 in R by lia. specialize (R Hr Hw). rewrite E1 in R.
  assert (Mv : forall p' l' n, step 65536 rep (a1 - 8) p1 l 8 p' l' n ->
            8 <= n /\ moved PB1 mo1 fin cap1 mem1 l a1 p1 (n - 8) p').
  { intros p' l' n Hst. destruct (st_len _ _ _ _ _ _ _ _ _ Hst) as (k & Hk & El & En & Eo).
    pose proof (st_rep _ _ _ _ _ _ _ _ _ Hst) as Hr'. subst l' n. split; [lia|].
    replace (8 + k - 8) with k by lia. split; [exact Hk|]. split.
    - exists rep. split; [exact HC|]. split; [|now apply wf_drop].
      replace (a1 + k) with (a1 - 8 + (8 + k)) by lia. exact Hr'.
    - split; [apply (st_cfg _ _ _ _ _ _ _ _ _ Hst)|exact Eo]. }
  destruct (f_record pl (mkEnv c fin) (w_header o t m size ++ l) 0) as [[b md] l' n ev|e l' n ev] eqn:E.
  - rewrite (Ef _ _ _ _ eq_refl) in R. destruct (R Hev) as ([bc md'] & p' & Ep & [[X1 X2] X3] & Hst).
    cbn [fst snd] in *. subst md'. destruct (Mv _ _ _ Hst) as [Hn Hmv].
    destruct G2 as (b2 & p2' & B2 & C2 & D2).
    exists (n - 8), (inr (bc, md)), (inr (b2, md)), p', p2'.
    split; [|split; [exact B2|split; [split; congruence|split; [exact Hmv|]]]].
    + intros O V. rewrite record_with_header_eq. unfold bind. rewrite Ep. cbn [fst snd lift].
      now rewrite deliver_answer.
    + now replace (8 + (n - 8)) with n by lia.
  - rewrite (Ff _ _ _ _ eq_refl) in R. destruct (R Hev) as (p' & Ep & Hst).
    destruct (Mv _ _ _ Hst) as [Hn Hmv]. destruct G2 as (p2' & B2 & D2).
    exists (n - 8), (inl e), (inl e), p', p2'.
    split; [|split; [exact B2|split; [reflexivity|split; [exact Hmv|]]]].
    + intros O V. rewrite record_with_header_eq. unfold bind. now rewrite Ep.
    + now replace (8 + (n - 8)) with n by lia.
Qed.

(** The body of an aligned record, copied to an odd address. *)
Theorem C60_elsewhere_refuted : exists pl c l x,
  fst (parse_record_enum pl slice_buf (on_slice 4096 l c)) = Ok (RBody (BNamespaces x)) /\
  fst (parse_record_enum_with_header pl slice_buf (mkHeader 16 0 40) (on_slice 8193 (drop 8 l) c)) = Err eof_error /\
  w_header LE 16 0 40 ++ drop 8 l = l /\
  source slice_buf Whole eof_error 100 (memory_of 8193 (drop 8 l)) (on_slice 8193 (drop 8 l) c) (drop 8 l) 8193.
Proof.
  exists pl64, (mkConfig 0 0 0 Native), ns_bytes, (mkNamespaces 5 6 (Borrowed 4120 [mkNs 77 88])).
  split; [vm_compute; reflexivity|]. split; [vm_compute; reflexivity|].
  split; [vm_compute; reflexivity|].
  apply slice_source; [| | |apply memory_of_at]; try (vm_compute; congruence). repeat constructor.
Qed.

(** A LOST record whose header was read from elsewhere. *)
Example C60_example :
  let p := on_slice 4096 (drop 8 ex_lost) ex_cfg in
  source slice_buf Whole eof_error 100 (memory_of 4096 (drop 8 ex_lost)) p (drop 8 ex_lost) 4096 /\
  ex_lost = w_header LE 2 1 40 ++ drop 8 ex_lost /\
  tame pl64 ex_cfg Whole (4096 - 8) (w_header LE 2 1 40 ++ drop 8 ex_lost) /\
  parse_record_enum_with_header pl64 slice_buf (mkHeader 2 1 40) p =
    (Ok (RBody (BLost (mkLost 7 9))), mkParser ex_cfg (mkSlice 4128 []) 32 []) /\
  fst (parse_record_enum_with_header pl64 slice_buf (mkHeader 2 1 41) p) = Err eof_error /\
  fst (parse_record_enum_with_header pl64 slice_buf (mkHeader 4000 1 40) p) =
    Ok (RUnknown 4000 (Borrowed 4096 (take 16 (drop 8 ex_lost)))).
Proof.
  split. { apply slice_source; [| | |apply memory_of_at]; try (vm_compute; congruence). repeat constructor. }
  split; [vm_compute; reflexivity|].
  split. { split; [vm_compute; discriminate|]. left. split; vm_compute; discriminate. }
  repeat split; vm_compute; reflexivity.
Qed.

Print Assumptions C60_framing.
Print Assumptions C60_too_small.
Print Assumptions C60_truncated.
Print Assumptions C60_safe.
Print Assumptions C60_elsewhere_partial.
Print Assumptions C60_elsewhere_refuted.
