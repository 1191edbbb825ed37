(** Theorems: remaining hints (C37), histories of calls on cursors (C38), what a
    failed parse leaves behind (C39). *)
From Coq Require Import NArith List Bool Lia.
From Verif Require Import Base BaseFacts Types Platform Config Buf Parser Contract Refine.
From Verif Require Import Instances Prims Attr Record RefTop CallFacts Spec FrameFacts ExData.
From Verif Require Import PropsFrame PropsPrim PropsSafe.
Import ListNotations.
Open Scope N_scope.

(** ** C37 *)

(** Whatever was called before: [&[u8]]. *)
Theorem C37_slice : forall cs s s' l,
  calls slice_buf cs s = Some s' -> remains slice_buf s' l ->
  pb_hint slice_buf s' = Some (len l).
Proof.
  intros cs s s' l _ H. 
  assert (E : remains slice_buf s' (sl_data s')).
  { apply (rep_remains _ _ Whole (len (sl_data s')) (memory_of (sl_addr s') (sl_data s')) _
      (slice_contract _ _)) with (a := sl_addr s').
    split; [reflexivity|]. split; [|split]; try reflexivity. apply memory_of_at. }
  now rewrite (remains_fun _ _ _ _ H _ E).
Qed.

(** ... and it is what [len - advanced] should be. *)
Theorem C37_slice_history : forall cs s s',
  calls slice_buf cs s = Some s' ->
  remains slice_buf s' (drop (advanced cs) (sl_data s)) /\
  pb_hint slice_buf s' = Some (len (sl_data s) - advanced cs).
Proof.
  intros cs s s' H. pose proof (slice_calls cs s) as E. rewrite H in E. destruct E as [Hle ->].
  split.
  - apply (rep_remains _ _ Whole (len (sl_data s)) (memory_of (sl_addr s + advanced cs) (drop (advanced cs) (sl_data s))) _
      (slice_contract _ _)) with (a := sl_addr s + advanced cs).
    split; [reflexivity|]. split; [|split]; try reflexivity; cbn [sl_data].
    + apply memory_of_at.
    + rewrite len_drop. lia.
  - cbn. now rewrite len_drop.
Qed.

(** A reader never gives a hint. *)
Theorem C37_reader : forall s, pb_hint bufreader_buf s = None.
Proof. reflexivity. Qed.

(** The full statement is the same for record cursors: the hint is [len l].  It
    is too large by what was advanced, hence right only before the first
    advance. *)
Theorem C37_cursor_partial :
  forall S (PB : parsebuf S) mo fin cap mem p n l a,
  n <= len l -> source PB mo fin cap mem p l a ->
  exists q p', split_at PB n p = (Ok q, p') /\
    forall cs s, calls cursor_buf cs (p_buf q) = Some s ->
    exists r, remains cursor_buf s r /\ r = drop (advanced cs) (take n l) /\
      pb_hint cursor_buf s = Some (len r + advanced cs) /\
      (advanced cs = 0 <-> pb_hint cursor_buf s = Some (len r)).
Proof.
  intros S PB mo fin cap mem p n l a Hn (rep & HC & Hr & Hw). rewrite <- (N.add_0_r a) in Hr.
  pose proof (cursor_new_spec PB mo fin cap mem rep a HC n p l 0 Hr Hw) as H.
  destruct (cursor_new PB n p) as [r p'] eqn:E.
  replace (len l <? n) with false in H by (symmetry; now apply N.ltb_ge).
  destruct H as (c & -> & Hrep & Hoff & Hlen & _).
  destruct (cursor_rep_on _ _ _ _ _ _ Hrep) as (cs0 & Hon & El).
  eexists. exists p'. split.
  { unfold split_at, bind. rewrite E. reflexivity. }
  cbn [p_buf new_parser]. intros cs s Hc.
  assert (Hl : len (cursor_left cs0 c) = n) by (rewrite <- El, len_take; lia).
  pose proof (cursor_calls cs cs0 c Hon ltac:(lia)) as H. rewrite Hc in H.
  destruct H as (Ha & Hcl & cs' & Hon' & El').
  exists (cursor_left cs' s).
  assert (Hll : len (cursor_left cs' s) = n - advanced cs) by (rewrite El', len_drop; lia).
  split; [apply cursor_remains; [exact Hon'|lia]|].
  split; [now rewrite El', El|]. cbn [pb_hint cursor_buf]. rewrite Hcl, Hll, Hlen. split.
  - f_equal. lia.
  - split; [intros ->; f_equal; lia|]. intros Eq. injection Eq as Eq. lia.
Qed.

Theorem C37_cursor_refuted : exists q p' s,
  split_at slice_buf 3 (on_slice 4096 [1; 2; 3; 4] ex_cfg) = (Ok q, p') /\
  calls cursor_buf [CChunk; CAdvance 1] (p_buf q) = Some s /\
  remains cursor_buf s [2; 3] /\ pb_hint cursor_buf s = Some 3.
Proof.
  eexists. eexists. eexists. split; [vm_compute; reflexivity|]. split; [vm_compute; reflexivity|].
  split; [|vm_compute; reflexivity].
  change [2; 3] with (chunk_data (External 4097 [2; 3]) ++ []).
  eapply rem_more; [vm_compute; reflexivity|discriminate|vm_compute; reflexivity|].
  eapply rem_end. vm_compute. reflexivity.
Qed.

Example C37_example : exists s,
  calls slice_buf [CAdvance 2; CChunk; CAdvance 1] (mkSlice 0 [1; 2; 3; 4]) = Some s /\
  remains slice_buf s [4] /\ pb_hint slice_buf s = Some 1.
Proof.
  eexists. split; [vm_compute; reflexivity|]. split; [|reflexivity].
  change [4] with (chunk_data (External 3 [4]) ++ []).
  eapply rem_more; [vm_compute; reflexivity|discriminate|vm_compute; reflexivity|].
  eapply rem_end. vm_compute. reflexivity.
Qed.

(** ** C38: any history of calls on the cursor of a record.  It panics exactly
    when more than the record is advanced over, and what remains is what was not
    advanced over, wherever the chunks of the source end. *)
Theorem C38_histories :
  forall S (PB : parsebuf S) mo fin cap mem p n l a,
  n <= len l -> source PB mo fin cap mem p l a ->
  exists q p', split_at PB n p = (Ok q, p') /\
    forall cs, match calls cursor_buf cs (p_buf q) with
               | Some s => advanced cs <= n /\ remains cursor_buf s (drop (advanced cs) (take n l))
               | None => n < advanced cs
               end.
Proof.
  intros S PB mo fin cap mem p n l a Hn (rep & HC & Hr & Hw). rewrite <- (N.add_0_r a) in Hr.
  pose proof (cursor_new_spec PB mo fin cap mem rep a HC n p l 0 Hr Hw) as H.
  destruct (cursor_new PB n p) as [r p'] eqn:E.
  replace (len l <? n) with false in H by (symmetry; now apply N.ltb_ge).
  destruct H as (c & -> & Hrep & Hoff & Hlen & _).
  destruct (cursor_rep_on _ _ _ _ _ _ Hrep) as (cs0 & Hon & El).
  eexists. exists p'. split.
  { unfold split_at, bind. rewrite E. reflexivity. }
  cbn [p_buf new_parser]. intros cs.
  assert (Hl : len (cursor_left cs0 c) = n) by (rewrite <- El, len_take; lia).
  pose proof (cursor_calls cs cs0 c Hon ltac:(lia)) as H.
  destruct (calls cursor_buf cs c) as [s|]; [|lia].
  destruct H as (Ha & Hcl & cs' & Hon' & El'). split; [lia|].
  rewrite El, <- El'. apply cursor_remains; [exact Hon'|]. rewrite El', len_drop. lia.
Qed.

(** One advance across three chunks, and one past the end. *)
Example C38_example_histories : exists q p',
  split_at bufreader_buf 6 (reader_of [[1; 2]; [3]; [4; 5; 6; 7]] ex_cfg) = (Ok q, p') /\
  option_map cu_chunks (calls cursor_buf [CAdvance 1; CAdvance 4] (p_buf q)) = Some [Owned [4; 5; 6]] /\
  calls cursor_buf [CAdvance 1; CAdvance 6] (p_buf q) = None.
Proof. eexists. eexists. split; [vm_compute; reflexivity|]. split; vm_compute; reflexivity. Qed.

(** ** C39

    The documentation promises that a parser is not modified when parsing fails.
    Full statement: [k = 0] below.  What holds is that the configuration is the
    same and that the parser goes on with the rest of the same bytes. *)
Theorem C39_parsers_partial :
  forall pl S (PB : parsebuf S) mo fin cap mem p l a A (m : M S A) e p',
  cap <= isize_max pl -> source PB mo fin cap mem p l a -> public pl PB A m ->
  m p = (Err e, p') ->
  p_cfg p' = p_cfg p /\
  exists k, k <= len l /\ p_off p' = p_off p + k /\
    source PB mo fin cap mem p' (drop k l) (a + k) /\
    (l = [] -> k = 0).
Proof.
  intros pl S PB mo fin cap mem p l a A m e p' Hcap Hs Hp E.
  destruct (C04_parsers pl S PB mo fin cap mem p l a A m Hcap Hs Hp) as [_ (k & Hk & Hsrc & Hc & Ho)].
  rewrite E in *. cbn [snd] in *. split; [exact Hc|]. exists k.
  split; [exact Hk|]. split; [exact Ho|]. split; [exact Hsrc|].
  intros ->. rewrite len_nil in Hk. lia.
Qed.

Theorem C39_record_partial :
  forall pl S (PB : parsebuf S) mo fin cap mem O (V : visitor O) p l a e p',
  pl_ok pl -> source PB mo fin cap mem p l a ->
  parse_record pl PB V p = (Err e, p') ->
  p_cfg p' = p_cfg p /\
  exists k, k <= len l /\ p_off p' = p_off p + k /\
    source PB mo fin cap mem p' (drop k l) (a + k) /\
    (l = [] -> k = 0).
Proof.
  intros pl S PB mo fin cap mem O V p l a e p' Hpl Hs E.
  destruct (C04_record pl S PB mo fin cap mem O V p l a Hpl Hs) as [_ (k & Hk & Hsrc & Hc & Ho)].
  rewrite E in *. cbn [snd] in *. split; [exact Hc|]. exists k.
  split; [exact Hk|]. split; [exact Ho|]. split; [exact Hsrc|].
  intros ->. rewrite len_nil in Hk. lia.
Qed.

(** An integer cut short is lost, in every source. *)
Theorem C39_refuted :
  forall pl S (PB : parsebuf S) mo fin cap mem p l a,
  l <> [] -> len l < 8 -> source PB mo fin cap mem p l a ->
  exists p', parse_u64 pl PB p = (Err fin, p') /\ p_off p' <> p_off p /\
    source PB mo fin cap mem p' [] (a + len l).
Proof.
  intros pl S PB mo fin cap mem p l a Hl H8 Hs.
  destruct (C05_short pl S PB mo fin cap mem p l a Hs) as (_ & _ & H).
  destruct (H H8) as (p' & E & Hsrc & Hc & Ho). exists p'. split; [exact E|]. split; [|exact Hsrc].
  apply len_pos in Hl. lia.
Qed.

Example C39_example : 
  let p := on_slice 4096 [1; 2; 3] ex_cfg in
  source slice_buf Whole eof_error 3 (memory_of 4096 [1; 2; 3]) p [1; 2; 3] 4096 /\
  fst (parse_u64 pl64 slice_buf p) = Err eof_error /\
  sl_data (p_buf (snd (parse_u64 pl64 slice_buf p))) = [] /\
  p_cfg (snd (parse_u64 pl64 slice_buf p)) = ex_cfg.
Proof.
  split; [|vm_compute; auto].
  apply slice_source; [| | |apply memory_of_at]; try (vm_compute; congruence). repeat constructor.
Qed.

Print Assumptions C37_slice.
Print Assumptions C37_slice_history.
Print Assumptions C37_reader.
Print Assumptions C37_cursor_partial.
Print Assumptions C37_cursor_refuted.
Print Assumptions C38_histories.
Print Assumptions C39_parsers_partial.
Print Assumptions C39_record_partial.
Print Assumptions C39_refuted.
