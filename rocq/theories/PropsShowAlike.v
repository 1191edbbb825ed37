(** C56 without the conditions of C03: between sources which lend nothing, and between memory of one alignment; and what
    is false across the two kinds. *)
From Coq Require Import NArith List Bool Lia.
From Verif Require Import Base BaseFacts Types Platform Config Buf Parser Contract Instances Records Sample Record Views.
From Verif Require Import Spec Wire Fmt Show ExData SameFacts PropsSame PropsShow.
From Verif Require RefFrame.
Import ListNotations.
Open Scope N_scope.

Theorem C56_alike :
  forall X alt pl c l fin mo S1 (PB1 : parsebuf S1) cap1 mem1 p1 a1 S2 (PB2 : parsebuf S2) cap2 mem2 p2 a2 r1 p1',
  pl_ok pl -> p_cfg p1 = c -> p_cfg p2 = c ->
  mo = NoExt \/ (mo = Whole /\ a1 mod word_align pl = a2 mod word_align pl) ->
  source PB1 mo fin cap1 mem1 p1 l a1 -> source PB2 mo fin cap2 mem2 p2 l a2 ->
  parse_record_enum pl PB1 p1 = (Ok r1, p1') ->
  exists r2 p2', parse_record_enum pl PB2 p2 = (Ok r2, p2') /\ show_record X pl r1 alt = show_record X pl r2 alt.
Proof.
  intros X alt pl c l fin mo S1 PB1 cap1 mem1 p1 a1 S2 PB2 cap2 mem2 p2 a2 r1 p1' Hpl E1 E2 Hmo H1 H2 R1.
  assert (G : exists x1 x2 q1 q2, gives pl PB1 p1 x1 q1 /\ gives pl PB2 p2 x2 q2 /\ same_result x1 x2).
  { destruct Hmo as [->|[-> Ha]].
    - destruct (C03_copied pl c l fin S1 PB1 cap1 mem1 p1 a1 S2 PB2 cap2 mem2 p2 a2 Hpl E1 E2 H1 H2)
        as (n & x1 & x2 & q1 & q2 & G1 & G2 & Hs & _). exists x1, x2, q1, q2. auto.
    - destruct (C03_whole pl c l fin S1 PB1 cap1 mem1 p1 a1 S2 PB2 cap2 mem2 p2 a2 Hpl E1 E2 Ha H1 H2)
        as (n & x1 & x2 & q1 & q2 & G1 & G2 & Hs & _). exists x1, x2, q1, q2. auto. }
  destruct G as (x1 & x2 & q1 & q2 & G1 & G2 & Hs).
  unfold parse_record_enum in *. rewrite (G1 _ record_visitor) in R1. rewrite (G2 _ record_visitor).
  destruct x1 as [e1|[b1 m1]], x2 as [e2|[b2 m2]]; try discriminate; cbn [same_result] in Hs; try contradiction.
  destruct Hs as [Hv <-]. rewrite <- !PropsFrame.deliver_answer in *. injection R1 as R1 _.
  destruct b1, b2; try discriminate Hv; cbn [RefFrame.deliver] in *; cbn in R1 |- *; injection R1 as <-;
    do 2 eexists; (split; [reflexivity|]); apply C56_same_contents; cbn [view_record view_body] in *; congruence.
Qed.

(** A TEXT_POKE without old bytes, in memory and through a reader: the same bytes, two texts. *)
Theorem C56_across_refuted : exists X pl c l a mem,
  pl_ok pl /\ source slice_buf Whole eof_error 100 mem (on_slice a l c) l a /\
  source bufreader_buf NoExt eof_error 16384 mem (reader_of [l] c) l 0 /\
  exists r1 r2 p1' p2', parse_record_enum pl slice_buf (on_slice a l c) = (Ok r1, p1') /\
    parse_record_enum pl bufreader_buf (reader_of [l] c) = (Ok r2, p2') /\
    show_record X pl r1 false <> show_record X pl r2 false.
Proof.
  exists ex_ext, pl64, ex_cfg0, poke_bytes, 4096, (memory_of 4096 poke_bytes).
  split; [right; reflexivity|].
  split. { apply slice_source; [| | |apply memory_of_at]; try (vm_compute; congruence). repeat constructor. }
  split. { apply (reader_source [] [poke_bytes] None); try (vm_compute; congruence); repeat constructor; discriminate. }
  do 4 eexists. split; [vm_compute; reflexivity|]. split; [vm_compute; reflexivity|]. vm_compute. discriminate.
Qed.

(** The same record through two readers, cut in two places: not tame, one text. *)
Example C56_alike_example :
  ~ tame pl64 ex_cfg0 NoExt 0 poke_bytes /\
  exists r1 r2 p1' p2' t,
    parse_record_enum pl64 bufreader_buf (reader_of [poke_bytes] ex_cfg0) = (Ok r1, p1') /\
    parse_record_enum pl64 bufreader_buf (reader_of [take 13 poke_bytes; drop 13 poke_bytes] ex_cfg0) = (Ok r2, p2') /\
    show_record ex_ext pl64 r1 false = Ok t /\ show_record ex_ext pl64 r2 false = Ok t.
Proof.
  split; [intros [H _]; destruct H as [H|H]; [reflexivity|discriminate|vm_compute in H; intuition congruence]|].
  do 5 eexists. split; [vm_compute; reflexivity|]. split; [vm_compute; reflexivity|]. split; vm_compute; reflexivity.
Qed.

Print Assumptions C56_alike.
Print Assumptions C56_across_refuted.
