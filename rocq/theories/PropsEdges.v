(** Where C24 and C42 end: unknown records without a body, and one record from memory of any alignment or from sources
    of different kinds. *)
From Coq Require Import NArith List Bool Lia.
From Verif Require Import Base BaseFacts Types Platform Config Buf Parser Contract Flat Refine.
From Verif Require Import Instances Records Sample Record Views RefFrame RefTop Wire Codec Roundtrip RtRecord RtFail ConfFacts Spec.
From Verif Require Import SliceRecord SameFacts Framing FramingFacts FrameFacts RoundFacts ExactFacts ExData.
From Verif Require Import PropsFrame PropsSame PropsFraming.
Import ListNotations.
Open Scope N_scope.

(** ** C24 *)

(** A record of an unknown type with nothing in it never reaches [visit_unknown]. *)
Theorem C24_empty_refuted :
  forall pl S (PB : parsebuf S) mo fin cap mem O (V : visitor O) p w t m si rest a,
  let o := order_of pl (c_endian (p_cfg p)) in
  let trailer := w_sample_id o w si in
  pl_ok pl -> configured (p_cfg p) w -> sample_id_ok w si -> t = 0 \/ 21 < t -> t < 2 ^ 32 -> m < 2 ^ 16 ->
  source PB mo fin cap mem p (w_header o t m (8 + len trailer) ++ trailer ++ rest) a ->
  fst (parse_record pl PB V p) = Err eof_error.
Proof.
  intros pl S PB mo fin cap mem O V p w t m si rest a o trailer Hpl Hcf Hsi Ht Ht' Hm Hs.
  assert (Hl : len trailer < 2 ^ 15).
  { unfold trailer, w_sample_id. destruct (ws_id_all w); [|reflexivity]. cbn [w_if].
    rewrite !len_app, !w_if_len, !len_app, !w32_len, !w64_len.
    destruct (sbit w 1), (sbit w 2), (sbit w 6), (sbit w 9), (sbit w 7), (sbit w 16); reflexivity. }
  apply (record_fails pl PB mo fin cap mem Hpl O V w p m si (WOther t []) rest a); try assumption.
  - repeat split; auto. constructor.
  - reflexivity.
  - unfold w_record. cbn [w_body w_trailer app]. cbv zeta. rewrite len_app, w_header_len. fold o. fold trailer. lia.
  - right; left. exact Logic.I.
  - unfold w_record. cbn [w_body w_trailer w_type app]. rewrite <- app_assoc. exact Hs.
Qed.

Example C24_empty_example :
  let l := w_header LE 77 0 8 in
  source bufreader_buf NoExt eof_error 16384 (fun _ => 0) (reader_of [l] ex_cfg0) l 0 /\
  fst (parse_record_enum pl64 bufreader_buf (reader_of [l] ex_cfg0)) = Err eof_error.
Proof.
  intros l. split; [|vm_compute; reflexivity].
  apply (reader_source [] [l] None); try (vm_compute; congruence); repeat constructor; discriminate.
Qed.

(** ** C42 *)

(** Memory in one piece: all records, aligned or not. *)
Theorem C42_lent :
  forall pl c payload x1 x2 S1 (PB1 : parsebuf S1) fin1 cap1 mem1 p1 a1
    S2 (PB2 : parsebuf S2) fin2 cap2 mem2 p2 a2 t m,
  let o := order_of pl (c_endian c) in
  let size := 8 + len payload in
  pl_ok pl -> p_cfg p1 = c -> p_cfg p2 = c -> a1 mod word_align pl = a2 mod word_align pl ->
  t < 2 ^ 32 -> m < 2 ^ 16 -> size < 2 ^ 16 ->
  let h := w_header o t m size in
  source PB1 Whole fin1 cap1 mem1 p1 (h ++ payload ++ x1) a1 ->
  source PB2 Whole fin2 cap2 mem2 p2 (h ++ payload ++ x2) a2 ->
  exists r1 r2 p1' p2',
    gives pl PB1 p1 r1 p1' /\ gives pl PB2 p2 r2 p2' /\ same_result r1 r2 /\
    after PB1 Whole fin1 cap1 mem1 p1 size x1 a1 p1' /\
    after PB2 Whole fin2 cap2 mem2 p2 size x2 a2 p2'.
Proof.
  intros pl c payload x1 x2 S1 PB1 fin1 cap1 mem1 p1 a1 S2 PB2 fin2 cap2 mem2 p2 a2 t m o size
    Hpl E1 E2 Ha Ht Hm Hz h H1 H2.
  destruct (C78_whole pl c Hpl) as (read & Hmod & Hread). cbv zeta in Hread. fold o in Hread.
  set (f := h ++ payload).
  assert (K : forall S (PB : parsebuf S) fin cap mem p a x, p_cfg p = c ->
    source PB Whole fin cap mem p (h ++ payload ++ x) a ->
    exists r p', gives pl PB p r p' /\ shown r = read a f /\ after PB Whole fin cap mem p size x a p').
  { intros S PB fin cap mem p a x Ec Hs. rewrite app_assoc in Hs. fold f in Hs.
    assert (Hb : bytes (f ++ x)) by (destruct Hs as (rep & _ & _ & Hw & _); exact Hw).
    assert (Hf' : frame o f).
    { apply Forall_app in Hb as [Hb _]. split; [exact Hb|].
      unfold size_of, f. change (from_order o (take 2 (drop 6 (h ++ payload)))) with (h_size (head_of pl c (h ++ payload))).
      pose proof (head_of_header pl c t m size payload Ht Hm Hz) as Q. fold o in Q. fold h in Q. rewrite Q. cbn [h_size].
      unfold h.
      rewrite len_app, w_header_len. unfold size. lia. }
    apply Forall_app in Hb as [_ Hx].
    destruct (proj1 (C78_frames o x Hx)) as (fs & tl & Ex & Hfs & Hu).
    assert (Hs' : source PB Whole fin cap mem p (concat (f :: fs) ++ tl) a)
      by (cbn [concat]; rewrite <- app_assoc, <- Ex; exact Hs).
    destruct (Hread S PB fin cap mem p a (f :: fs) tl O Ec (Forall_cons _ Hf' Hfs) Hu Hs') as (rs & p' & R & Er).
    destruct rs as [|r rs]; [discriminate|]. cbn [run_gives] in R. destruct R as (q & G & _).
    cbn [map placed app] in Er. injection Er as Er _.
    exists r, q. split; [exact G|]. split; [exact Er|].
    pose proof (C01_record_framing pl S PB Whole fin cap mem _ record_visitor p t m payload x a) as F.
    cbv zeta in F. rewrite Ec in F. fold o size h in F. rewrite app_assoc in F. fold f in F. specialize (F Ht Hm Hz Hs).
    specialize (G _ record_visitor). rewrite G in F. cbn [snd] in F. unfold after. rewrite Ec. exact F. }
  destruct (K _ PB1 fin1 cap1 mem1 p1 a1 x1 E1 H1) as (r1 & p1' & G1 & R1 & A1).
  destruct (K _ PB2 fin2 cap2 mem2 p2 a2 x2 E2 H2) as (r2 & p2' & G2 & R2 & A2).
  exists r1, r2, p1', p2'. split; [exact G1|]. split; [exact G2|]. split; [|now split].
  rewrite (Hmod a1 a2 f Ha) in R1. rewrite <- R2 in R1.
  destruct r1 as [e1|[b1 d1]], r2 as [e2|[b2 d2]]; cbn [shown] in R1; try discriminate; cbn [same_result].
  - now injection R1.
  - injection R1 as Q1 Q2. now split.
Qed.

(** The record of C03 of which memory in one piece and a reader differ, here with more behind it in the reader. *)
Theorem C42_across_refuted : exists l x b1 b2 p1' p2',
  x <> [] /\
  source slice_buf Whole eof_error 100 (memory_of 4096 l) (on_slice 4096 l ex_cfg0) l 4096 /\
  source bufreader_buf NoExt eof_error 16384 (fun _ => 0) (reader_of [l ++ x] ex_cfg0) (l ++ x) 0 /\
  parse_record_enum pl64 slice_buf (on_slice 4096 l ex_cfg0) = (Ok (RBody (BTextPoke b1)), p1') /\
  parse_record_enum pl64 bufreader_buf (reader_of [l ++ x] ex_cfg0) = (Ok (RBody (BTextPoke b2)), p2') /\
  cow_list (tp_old b1) = [] /\ cow_list (tp_new b1) = [1; 2; 3; 4] /\
  cow_list (tp_old b2) = [1; 2; 3; 4] /\ cow_list (tp_new b2) = [].
Proof.
  exists poke_bytes, [9]. do 4 eexists. split; [discriminate|].
  split. { apply slice_source; [| | |apply memory_of_at]; try (vm_compute; congruence). repeat constructor. }
  split. { apply (reader_source [] [poke_bytes ++ [9]] None); try (vm_compute; congruence); repeat constructor; discriminate. }
  split; [vm_compute; reflexivity|]. split; [vm_compute; reflexivity|]. repeat split; vm_compute; reflexivity.
Qed.

(** A NAMESPACES record at an odd address: refused whether or not something follows. *)
Example C42_lent_example :
  let l := ns_bytes in
  source slice_buf Whole eof_error 100 (memory_of 4097 l) (on_slice 4097 l (mkConfig 0 0 0 Native)) l 4097 /\
  source slice_buf Whole eof_error 100 (memory_of 8193 (l ++ [1])) (on_slice 8193 (l ++ [1]) (mkConfig 0 0 0 Native)) (l ++ [1]) 8193 /\
  4097 mod word_align pl64 = 8193 mod word_align pl64 /\ 4097 mod word_align pl64 <> 0 /\
  fst (parse_record_enum pl64 slice_buf (on_slice 4097 l (mkConfig 0 0 0 Native))) =
  fst (parse_record_enum pl64 slice_buf (on_slice 8193 (l ++ [1]) (mkConfig 0 0 0 Native))).
Proof.
  intros l. split. { apply slice_source; [| | |apply memory_of_at]; try (vm_compute; congruence). repeat constructor. }
  split. { apply slice_source; [| | |apply memory_of_at]; try (vm_compute; congruence). repeat constructor. }
  split; [reflexivity|]. split; [discriminate|]. vm_compute. reflexivity.
Qed.

Print Assumptions C24_empty_refuted.
Print Assumptions C42_lent.
Print Assumptions C42_across_refuted.
