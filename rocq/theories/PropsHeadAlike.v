(** C60 without the conditions of C03: between sources which lend nothing, and between memory of one alignment. *)
From Coq Require Import NArith List Bool Lia.
From Verif Require Import Base BaseFacts Types Platform Config Buf Parser Contract Flat Refine.
From Verif Require Import Instances Prims Records Sample Record Attr Views RefFrame RefTop Wire Codec Roundtrip RtRecord.
From Verif Require Import Spec ConfFacts NoHint FrameFacts SameFacts Client ClientFacts ExData PropsFrame PropsSame PropsHead PropsClient.
Import ListNotations.
Open Scope N_scope.

Lemma keep_all : forall b md, answer keep b md = Ok (view_body b, md).
Proof. intros [] md; reflexivity. Qed.

(** Two sources with the same body, whatever the header: the same answer of every visitor up to where the bytes are
    held, after the same number of bytes. *)
Theorem C60_alike :
  forall pl c t m size l fin S1 (PB1 : parsebuf S1) mo1 cap1 mem1 p1 a1 S2 (PB2 : parsebuf S2) mo2 cap2 mem2 p2 a2,
  let h := mkHeader t m size in
  pl_ok pl -> cap1 <= isize_max pl -> cap2 <= isize_max pl -> p_cfg p1 = c -> p_cfg p2 = c ->
  t < 2 ^ 32 -> m < 2 ^ 16 -> size < 2 ^ 16 ->
  (mo1 = NoExt /\ mo2 = NoExt) \/ (mo1 = Whole /\ mo2 = Whole /\ a1 mod word_align pl = a2 mod word_align pl) ->
  source PB1 mo1 fin cap1 mem1 p1 l a1 -> source PB2 mo2 fin cap2 mem2 p2 l a2 ->
  exists n r1 r2 p1' p2',
    (forall O (V : visitor O), parse_record_with_header pl PB1 V h p1 =
       (match r1 with inl e => Err e | inr (b, md) => answer V b md end, p1')) /\
    (forall O (V : visitor O), parse_record_with_header pl PB2 V h p2 =
       (match r2 with inl e => Err e | inr (b, md) => answer V b md end, p2')) /\
    same_result r1 r2 /\
    moved PB1 mo1 fin cap1 mem1 l a1 p1 n p1' /\ moved PB2 mo2 fin cap2 mem2 l a2 p2 n p2'.
Proof.
  intros pl c t m size l fin S1 PB1 mo1 cap1 mem1 p1 a1 S2 PB2 mo2 cap2 mem2 p2 a2 h Hpl Hc1 Hc2 E1 E2 Ht Hm Hs Ha H1 H2.
  destruct (C70_same pl c l fin _ (PRecord h) S1 PB1 mo1 cap1 mem1 p1 a1 S2 PB2 mo2 cap2 mem2 p2 a2 Hpl Hc1 Hc2
    (or_intror Ha) E1 E2 H1 H2) as (n & r & p1' & p2' & Hr & R1 & R2 & M1 & M2).
  assert (Eh : header_of h = h).
  { unfold header_of, h. cbn [h_type h_misc h_size]. now rewrite !N.mod_small by assumption. }
  assert (K : forall S (PB : parsebuf S) mo cap mem p a q, source PB mo fin cap mem p l a ->
    run pl (PRecord h) S PB p = (r, q) ->
    exists x, (forall O (V : visitor O), parse_record_with_header pl PB V h p =
       (match x with inl e => Err e | inr (b, md) => answer V b md end, q)) /\
       r = match x with inl e => Err e | inr (b, md) => Ok (view_body b, md) end).
  { intros S PB mo cap mem p a q Hsrc R. cbn [run] in R. rewrite Eh in R.
    destruct (C60_safe pl S PB mo fin cap mem p t m size l a Hpl Hs Hsrc) as [(e & q' & _ & H)|(b & si & q' & _ & H)];
      pose proof (H _ keep) as Hk; fold h in Hk; rewrite R in Hk.
    - injection Hk as -> ->. exists (inl e). split; [exact H|reflexivity].
    - rewrite keep_all in Hk. injection Hk as -> ->. exists (inr (b, mkMeta t m si)). split; [exact H|reflexivity]. }
  destruct (K _ _ _ _ _ _ _ _ H1 R1) as (x1 & G1 & X1), (K _ _ _ _ _ _ _ _ H2 R2) as (x2 & G2 & X2).
  exists n, x1, x2, p1', p2'. split; [exact G1|]. split; [exact G2|]. split; [|split; [exact M1|exact M2]].
  rewrite X1 in X2. destruct x1 as [e1|[b1 d1]], x2 as [e2|[b2 d2]]; try discriminate; cbn [same_result].
  - now injection X2.
  - injection X2 as Q1 Q2. now split.
Qed.

(** The header from anywhere, the body with it or without. *)
Theorem C60_elsewhere :
  forall pl c t m size l fin S1 (PB1 : parsebuf S1) mo1 cap1 mem1 p1 a1 S2 (PB2 : parsebuf S2) mo2 cap2 mem2 p2 a2,
  let o := order_of pl (c_endian c) in
  pl_ok pl -> cap1 <= isize_max pl -> cap2 <= isize_max pl -> p_cfg p1 = c -> p_cfg p2 = c ->
  t < 2 ^ 32 -> m < 2 ^ 16 -> size < 2 ^ 16 ->
  (mo1 = NoExt /\ mo2 = NoExt) \/ (mo1 = Whole /\ mo2 = Whole /\ a1 mod word_align pl = (a2 + 8) mod word_align pl) ->
  source PB1 mo1 fin cap1 mem1 p1 l a1 ->
  source PB2 mo2 fin cap2 mem2 p2 (w_header o t m size ++ l) a2 ->
  exists n r1 r2 p1' p2',
    (forall O (V : visitor O), parse_record_with_header pl PB1 V (mkHeader t m size) p1 =
       (match r1 with inl e => Err e | inr (b, md) => answer V b md end, p1')) /\
    gives pl PB2 p2 r2 p2' /\ same_result r1 r2 /\
    moved PB1 mo1 fin cap1 mem1 l a1 p1 n p1' /\
    moved PB2 mo2 fin cap2 mem2 (w_header o t m size ++ l) a2 p2 (8 + n) p2'.
Proof.
  intros pl c t m size l fin S1 PB1 mo1 cap1 mem1 p1 a1 S2 PB2 mo2 cap2 mem2 p2 a2 o Hpl Hc1 Hc2 E1 E2 Ht Hm Hs Ha H1 H2.
  destruct H2 as (rep & HC & Hr & Hw).
  pose proof (header_exact pl PB2 mo2 fin cap2 mem2 rep HC p2 t m size l a2) as H. rewrite E2 in H. fold o in H.
  destruct (H Ht Hm Hs Hr Hw) as (q & Eq & Hrq & Hcq & Hoq).
  assert (Hs2 : source PB2 mo2 fin cap2 mem2 q l (a2 + 8)).
  { exists rep. split; [exact HC|]. split; [exact Hrq|]. now apply wf_app_r in Hw. }
  destruct (C60_alike pl c t m size l fin S1 PB1 mo1 cap1 mem1 p1 a1 S2 PB2 mo2 cap2 mem2 q (a2 + 8) Hpl Hc1 Hc2 E1
    ltac:(congruence) Ht Hm Hs Ha H1 Hs2) as (n & r1 & r2 & p1' & p2' & G1 & G2 & Hsame & M1 & (L2 & A2 & B2 & D2)).
  exists n, r1, r2, p1', p2'. split; [exact G1|]. split.
  { intros O V. unfold parse_record, bind. rewrite Eq. apply G2. }
  split; [exact Hsame|]. split; [exact M1|].
  split; [rewrite len_app, w_header_len; lia|]. split.
  { rewrite drop_app, drop_all, w_header_len by (rewrite w_header_len; lia). cbn [app]. replace (8 + n - 8) with n by lia.
    rewrite N.add_assoc. exact A2. }
  split; [congruence|lia].
Qed.

(** A TEXT_POKE record without old bytes in two readers, and a NAMESPACES record at odd addresses, neither of them
    tame. *)
Example C60_alike_example :
  source bufreader_buf NoExt eof_error 16384 (fun _ => 0) (reader_of [drop 8 poke_bytes] ex_cfg0) (drop 8 poke_bytes) 0 /\
  source bufreader_buf NoExt eof_error 16384 (fun _ => 0) (reader_of [take 9 poke_bytes; drop 9 poke_bytes] ex_cfg0)
    (w_header LE 20 0 (len poke_bytes) ++ drop 8 poke_bytes) 0 /\
  ~ tame pl64 ex_cfg0 NoExt 0 poke_bytes /\
  fst (run pl64 (PRecord (mkHeader 20 0 (len poke_bytes))) _ bufreader_buf (reader_of [drop 8 poke_bytes] ex_cfg0)) =
  fst (run pl64 parse_record_p _ bufreader_buf (reader_of [take 9 poke_bytes; drop 9 poke_bytes] ex_cfg0)) /\
  source slice_buf Whole eof_error 100 (memory_of 8193 (drop 8 ns_bytes)) (on_slice 8193 (drop 8 ns_bytes) (mkConfig 0 0 0 Native))
    (drop 8 ns_bytes) 8193 /\
  8193 mod word_align pl64 = (4097 + 8) mod word_align pl64 /\
  fst (run pl64 (PRecord (mkHeader 16 0 40)) _ slice_buf (on_slice 8193 (drop 8 ns_bytes) (mkConfig 0 0 0 Native))) =
  fst (run pl64 parse_record_p _ slice_buf (on_slice 4097 ns_bytes (mkConfig 0 0 0 Native))).
Proof.
  split. { apply (reader_source [] [drop 8 poke_bytes] None); try (vm_compute; congruence); repeat constructor; discriminate. }
  split. { apply (reader_source [] [take 9 poke_bytes; drop 9 poke_bytes] None); try (vm_compute; congruence); repeat constructor; discriminate. }
  split. { intros [H _]. destruct (H eq_refl) as [H'|[H1 H2]]; [discriminate|]. first [vm_compute in H1; congruence | vm_compute in H2; congruence]. }
  split; [vm_compute; reflexivity|].
  split. { apply slice_source; [| | |apply memory_of_at]; try (vm_compute; congruence). repeat constructor. }
  split; vm_compute; reflexivity.
Qed.

Print Assumptions C60_alike.
Print Assumptions C60_elsewhere.
