(** Theorems: record framing (C01, C12, C13, C24, C25, C26, C38). *)
From Coq Require Import NArith List Bool Lia.
From Verif Require Import Base BaseFacts Types Platform Config Buf Parser Contract Flat Refine.
From Verif Require Import Instances Prims Slices Records Sample Record Attr Views RefRecords.
From Verif Require Import RefFrame RefTop Safe Wire Codec ConfFacts Roundtrip RtRecord Spec.
From Verif Require Import NoHint FrameFacts ExData.
Import ListNotations.
Open Scope N_scope.

(** ** C01: one call takes exactly the record. *)
Theorem C01_record_framing :
  forall pl S (PB : parsebuf S) mo fin cap mem O (V : visitor O) p t m payload rest a,
  let o := order_of pl (c_endian (p_cfg p)) in
  let size := 8 + len payload in
  t < 2 ^ 32 -> m < 2 ^ 16 -> size < 2 ^ 16 ->
  source PB mo fin cap mem p (w_header o t m size ++ payload ++ rest) a ->
  let p' := snd (parse_record pl PB V p) in
  source PB mo fin cap mem p' rest (a + size) /\
  p_cfg p' = p_cfg p /\ p_off p' = p_off p + size.
Proof.
  intros pl S PB mo fin cap mem O V p t m payload rest a o size Ht Hm Hs (rep & HC & Hr & Hw) p'.
  destruct (collect_exact pl PB mo fin cap mem rep HC p t m payload rest a Ht Hm Hs Hr Hw)
    as (r & p1 & E & Hr1 & Hc1 & Ho1).
  assert (Ep : p' = p1).
  { unfold p'. rewrite record_eq. unfold bind. rewrite E. destruct r; reflexivity. }
  rewrite Ep. split; [|auto]. exists rep. split; [exact HC|]. split; [exact Hr1|].
  now apply wf_app_r, wf_app_r in Hw.
Qed.

(** Every byte string of 8 bytes or more starts with a header. *)
Theorem C01_headers_are_complete : forall o l, bytes l -> 8 <= len l ->
  exists t m size rest, t < 2 ^ 32 /\ m < 2 ^ 16 /\ size < 2 ^ 16 /\ l = w_header o t m size ++ rest.
Proof.
  intros o l Hb Hl.
  assert (Hd : forall n x, bytes x -> n <= len x ->
            from_order o (take n x) < 256 ^ n /\ enc o (N.to_nat n) (from_order o (take n x)) = take n x).
  { intros n x Hx Hn. assert (E : n = len (take n x)) by (rewrite len_take; lia). split.
    - rewrite E at 2. apply from_order_bound, bytes_take, Hx.
    - apply enc_from; [now apply bytes_take|]. unfold len in E. lia. }
  assert (H4 : bytes (drop 4 l)) by now apply bytes_drop.
  assert (H6 : bytes (drop 6 l)) by now apply bytes_drop.
  destruct (Hd 4 l Hb ltac:(lia)) as [B1 E1].
  destruct (Hd 2 (drop 4 l) H4 ltac:(rewrite len_drop; lia)) as [B2 E2].
  destruct (Hd 2 (drop 6 l) H6 ltac:(rewrite len_drop; lia)) as [B3 E3].
  exists (from_order o (take 4 l)), (from_order o (take 2 (drop 4 l))),
    (from_order o (take 2 (drop 6 l))), (drop 8 l).
  split; [exact B1|]. split; [exact B2|]. split; [exact B3|].
  change (N.to_nat 4) with 4%nat in E1. change (N.to_nat 2) with 2%nat in E2, E3.
  unfold w_header, w32, w16. rewrite E1, E2, E3, <- !app_assoc.
  replace (drop 8 l) with (drop 2 (drop 6 l)) by now rewrite drop_drop.
  rewrite take_drop. replace (drop 6 l) with (drop 2 (drop 4 l)) by now rewrite drop_drop.
  now rewrite !take_drop.
Qed.

Example C01_example :
  let d := ex_lost ++ [1; 2; 3] in
  source slice_buf Whole eof_error 100 (memory_of 4096 d) (on_slice 4096 d ex_cfg)
    (w_header LE 2 1 (8 + 32) ++ drop 8 ex_lost ++ [1; 2; 3]) 4096 /\
  p_buf (snd (parse_record pl64 slice_buf record_visitor (on_slice 4096 d ex_cfg)))
    = mkSlice 4136 [1; 2; 3].
Proof.
  split; [|vm_compute; reflexivity].
  apply slice_source; [| | |apply memory_of_at]; try (vm_compute; congruence).
  repeat constructor.
Qed.

(** ** C12: metadata and body are the header's, the trailer's and what is between. *)
Theorem C12_metadata :
  forall pl S (PB : parsebuf S) mo fin cap mem p w t m si body rest a,
  let o := order_of pl (c_endian (p_cfg p)) in
  let trailer := w_sample_id o w si in
  let size := 8 + len body + len trailer in
  configured (p_cfg p) w -> sample_id_ok w si ->
  t <> 1 -> t <> 9 -> t < 2 ^ 32 -> m < 2 ^ 16 -> size < 2 ^ 16 ->
  source PB mo fin cap mem p (w_header o t m size ++ body ++ trailer ++ rest) a ->
  exists q p', parse_metadata pl PB p = (Ok (q, mkMeta t m si), p') /\
    source cursor_buf mo eof_error (len body + len trailer) mem q body (a + 8) /\
    p_cfg q = p_cfg p /\
    source PB mo fin cap mem p' rest (a + size) /\ p_cfg p' = p_cfg p.
Proof.
  intros pl S PB mo fin cap mem p w t m si body rest a o trailer size Hcf Hsi H1 H9 Ht Hm Hs
    (rep & HC & Hr & Hw).
  destruct (metadata_exact pl PB mo fin cap mem rep HC p w t m si body rest a Hcf Hsi H1 H9 Ht Hm Hs Hr Hw)
    as (q & p' & E & Hq & Hqc & Hqo & Hr' & Hc' & _).
  apply wf_app_r in Hw.
  exists q, p'. split; [exact E|]. split; [|split; [exact Hqc|split; [|exact Hc']]].
  - exists (cursor_rep mo (len body + len trailer) mem). split; [apply cursor_contract|].
    split; [exact Hq|]. now apply wf_app_l in Hw.
  - exists rep. split; [exact HC|]. split; [exact Hr'|]. now apply wf_app_r, wf_app_r in Hw.
Qed.

Theorem C12_no_trailer :
  forall pl S (PB : parsebuf S) mo fin cap mem p t m body rest a,
  let o := order_of pl (c_endian (p_cfg p)) in
  let size := 8 + len body in
  t = 1 \/ t = 9 -> m < 2 ^ 16 -> size < 2 ^ 16 ->
  source PB mo fin cap mem p (w_header o t m size ++ body ++ rest) a ->
  exists q p',
    parse_metadata pl PB p = (Ok (q, mkMeta t m (mkSampleId None None None None None None)), p') /\
    source cursor_buf mo eof_error (len body) mem q body (a + 8) /\
    p_cfg q = p_cfg p /\
    source PB mo fin cap mem p' rest (a + size) /\ p_cfg p' = p_cfg p.
Proof.
  intros pl S PB mo fin cap mem p t m body rest a o size Ht Hm Hs (rep & HC & Hr & Hw).
  destruct (metadata_whole pl PB mo fin cap mem rep HC p t m body rest a Ht Hm Hs Hr Hw)
    as (q & p' & E & Hq & Hqc & Hqo & Hr' & Hc' & _).
  apply wf_app_r in Hw.
  exists q, p'. split; [exact E|]. split; [|split; [exact Hqc|split; [|exact Hc']]].
  - exists (cursor_rep mo (len body) mem). split; [apply cursor_contract|].
    split; [exact Hq|]. now apply wf_app_l in Hw.
  - exists rep. split; [exact HC|]. split; [exact Hr'|]. now apply wf_app_r in Hw.
Qed.

(** The record parser then runs on that body, with the header's misc. *)
Theorem C12_body_parser :
  forall pl S (PB : parsebuf S) O (V : visitor O) p q md p',
  parse_metadata pl PB p = (Ok (q, md), p') ->
  exists log, parse_record pl PB V p =
    (match cursor_as_slice (p_buf q) with
     | Some s => fst (dispatch pl slice_buf V md (new_parser s (with_misc (p_cfg q) (md_misc md))))
     | None => fst (dispatch pl cursor_buf V md (new_parser (p_buf q) (with_misc (p_cfg q) (md_misc md))))
     end, mkParser (p_cfg p') (p_buf p') (p_off p') log).
Proof.
  intros pl S PB O V p q md p' H. unfold parse_metadata in H.
  apply bind_ok in H as (h & p1 & E1 & E2).
  unfold parse_record. unfold bind at 1. rewrite E1. unfold parse_record_with_header.
  unfold bind at 1. rewrite E2. unfold parse_record_impl, sub.
  destruct (cursor_as_slice (p_buf q)) as [s|].
  - destruct (dispatch pl slice_buf V md _) as [r q']. eexists; reflexivity.
  - destruct (dispatch pl cursor_buf V md _) as [r q']. eexists; reflexivity.
Qed.

Example C12_example :
  configured ex_cfg ex_set /\ sample_id_ok ex_set ex_id /\
  len (w_sample_id LE ex_set ex_id) = 16 /\
  (let d := ex_lost ++ [1; 2; 3] in
   source slice_buf Whole eof_error 100 (memory_of 4096 d) (on_slice 4096 d ex_cfg)
     (w_header LE 2 1 (8 + 16 + 16) ++ (w64 LE 7 ++ w64 LE 9) ++ w_sample_id LE ex_set ex_id ++ [1; 2; 3])
     4096) /\
  (exists q p', parse_metadata pl64 bufreader_buf (reader_of [take 11 ex_lost; drop 11 ex_lost] ex_cfg)
     = (Ok (q, mkMeta 2 1 ex_id), p') /\
     fst (parse_rest cursor_buf q) = Ok (Owned (w64 LE 7 ++ w64 LE 9))).
Proof.
  split; [repeat split; vm_compute; reflexivity|].
  split; [repeat split; vm_compute; reflexivity|].
  split; [vm_compute; reflexivity|].
  split.
  - apply slice_source; [| | |apply memory_of_at]; try (vm_compute; congruence).
    repeat constructor.
  - eexists; eexists. split; [vm_compute; reflexivity|]. vm_compute; reflexivity.
Qed.

(** ** C13: invalid sizes. *)
Theorem C13_header_too_small :
  forall pl S (PB : parsebuf S) mo fin cap mem O (V : visitor O) p t m size rest a,
  let o := order_of pl (c_endian (p_cfg p)) in
  t < 2 ^ 32 -> m < 2 ^ 16 -> size < 8 ->
  source PB mo fin cap mem p (w_header o t m size ++ rest) a ->
  fst (parse_record pl PB V p) = Err (mkError KInvalidRecord (Some (SrcMsg MsgHeaderTooSmall))).
Proof.
  intros pl S PB mo fin cap mem O V p t m size rest a o Ht Hm Hs (rep & HC & Hr & Hw).
  destruct (header_exact pl PB mo fin cap mem rep HC p t m size rest a Ht Hm ltac:(lia) Hr Hw)
    as (p1 & E1 & _).
  unfold parse_record. unfold bind at 1. rewrite E1.
  unfold parse_record_with_header, parse_metadata_with_header, checked_sub. cbn [h_size].
  replace (8 <=? size) with false by (symmetry; apply N.leb_gt; exact Hs). reflexivity.
Qed.

Theorem C13_no_room_for_sample_id :
  forall pl S (PB : parsebuf S) mo fin cap mem O (V : visitor O) p w si t m payload rest a,
  let o := order_of pl (c_endian (p_cfg p)) in
  let size := 8 + len payload in
  configured (p_cfg p) w -> t <> 1 -> t <> 9 ->
  t < 2 ^ 32 -> m < 2 ^ 16 -> size < 2 ^ 16 -> len payload < len (w_sample_id o w si) ->
  source PB mo fin cap mem p (w_header o t m size ++ payload ++ rest) a ->
  fst (parse_record pl PB V p) = Err (mkError KInvalidRecord (Some (SrcMsg MsgNoRoomForSampleId))).
Proof.
  intros pl S PB mo fin cap mem O V p w si t m payload rest a o size Hcf H1 H9 Ht Hm Hs Hlt
    (rep & HC & Hr & Hw).
  destruct (header_exact pl PB mo fin cap mem rep HC p t m size (payload ++ rest) a Ht Hm Hs Hr Hw)
    as (p1 & E1 & Hr1 & Hc1 & Ho1).
  apply wf_app_r in Hw.
  unfold parse_record. unfold bind at 1. rewrite E1.
  unfold parse_record_with_header, parse_metadata_with_header, checked_sub. cbn [h_size h_type].
  replace (8 <=? size) with true by (symmetry; apply N.leb_le; unfold size; lia).
  destruct (split_exact S PB mo fin cap mem rep HC (size - 8) p1 (payload ++ rest) (a + 8) Hr1 Hw)
    as (q & p2 & E2 & Hr2 & Hc2 & Ho2 & Hq & Hqc & Hqo & Hql).
  { rewrite !len_app. unfold size. lia. }
  unfold bind at 1 2. rewrite E2.
  replace ((t =? PERF_RECORD_MMAP) || (t =? PERF_RECORD_SAMPLE)) with false.
  2:{ symmetry. unfold PERF_RECORD_MMAP, PERF_RECORD_SAMPLE.
      apply orb_false_iff; split; now apply N.eqb_neq. }
  rewrite Hqc, Hc1, <- (sample_id_len o _ w si Hcf).
  replace (_ <=? size - 8) with false by (symmetry; apply N.leb_gt; unfold size; lia).
  reflexivity.
Qed.

(** The source ends inside the header or the record. *)
Theorem C13_truncated :
  forall pl S (PB : parsebuf S) mo fin cap mem O (V : visitor O) p t m size payload a,
  let o := order_of pl (c_endian (p_cfg p)) in
  t < 2 ^ 32 -> m < 2 ^ 16 -> size < 2 ^ 16 -> 8 + len payload < size ->
  source PB mo fin cap mem p (w_header o t m size ++ payload) a ->
  fst (parse_record pl PB V p) = Err fin.
Proof.
  intros pl S PB mo fin cap mem O V p t m size payload a o Ht Hm Hs Hlt (rep & HC & Hr & Hw).
  destruct (header_exact pl PB mo fin cap mem rep HC p t m size payload a Ht Hm Hs Hr Hw)
    as (p1 & E1 & Hr1 & Hc1 & Ho1).
  apply wf_app_r in Hw.
  unfold parse_record. unfold bind at 1. rewrite E1.
  unfold parse_record_with_header, parse_metadata_with_header, checked_sub. cbn [h_size h_type].
  replace (8 <=? size) with true by (symmetry; apply N.leb_le; lia).
  assert (Hr0 : rep (p_buf p1) payload (a + 8 + 0)) by now rewrite N.add_0_r.
  pose proof (split_spec PB mo fin cap mem rep (a + 8) HC (size - 8) p1 payload 0 Hr0 Hw) as H.
  destruct (f_split (size - 8) _ payload 0) as [st l' pos' ev|e l' pos' ev].
  - destruct H as (q & p2 & _ & _ & _ & _ & _ & Hn & _). lia.
  - destruct H as (p2 & E2 & _ & -> & _). unfold bind at 1 2. rewrite E2. reflexivity.
Qed.

Lemma short_header :
  forall pl S (PB : parsebuf S) mo fin cap mem p l a,
  len l < 8 -> source PB mo fin cap mem p l a ->
  exists p', parse_header pl PB p = (Err fin, p').
Proof.
  intros pl S PB mo fin cap mem p l a Hl (rep & HC & Hr & Hw).
  assert (E : exists l' n, f_header pl (mkEnv (p_cfg p) fin) l 0 = FErr fin l' n []).
  { unfold f_header, f_uint, fbind, fcfg, fret, f_take. cbn [fe_cfg fe_fin].
    repeat match goal with
    | |- context [match ?l with [] => _ | _ :: _ => _ end] => destruct l eqn:?
    | |- context [if ?a <? ?b then _ else _] => destruct (N.ltb_spec a b)
    end; eauto.
    exfalso.
    repeat match goal with H : drop _ _ = _ :: _ |- _ => apply (f_equal len) in H; rewrite len_drop in H end.
    rewrite ?len_drop in *. lia. }
  destruct E as (l' & n & E).
  destruct (run_err mo fin cap rep _ _ _ _ _ _ _ _ _ _ _ _ (Ref_header pl PB mo fin cap mem rep a HC)
              Hr Hw E ltac:(constructor)) as (p' & Ep & _).
  now exists p'.
Qed.

Theorem C13_truncated_header :
  forall pl S (PB : parsebuf S) mo fin cap mem O (V : visitor O) p l a,
  len l < 8 -> source PB mo fin cap mem p l a ->
  fst (parse_record pl PB V p) = Err fin.
Proof.
  intros pl S PB mo fin cap mem O V p l a Hl Hs.
  destruct (short_header pl S PB mo fin cap mem p l a Hl Hs) as (p' & Ep).
  unfold parse_record, bind. now rewrite Ep.
Qed.

Example C13_example :
  fst (parse_record pl64 slice_buf record_visitor (on_slice 0 (w_header LE 2 0 7 ++ [1]) ex_cfg))
    = Err (custom_error KInvalidRecord MsgHeaderTooSmall) /\
  len [1;2;3;4;5;6;7;8] < len (w_sample_id LE ex_set ex_id) /\
  fst (parse_record pl64 slice_buf record_visitor
    (on_slice 0 (w_header LE 2 0 16 ++ [1;2;3;4;5;6;7;8] ++ [9]) ex_cfg))
    = Err (custom_error KInvalidRecord MsgNoRoomForSampleId) /\
  fst (parse_record pl64 bufreader_buf record_visitor
         (new_parser (mkReader [2;0;0;0;0] [[0;40;0;1];[2;3]] (Some (5, false))) ex_cfg))
    = Err (mkError KExternal (Some (SrcIo 5 false))).
Proof. repeat split; vm_compute; reflexivity. Qed.

(** ** C24: dispatch. *)

(** The method a visitor has for a body, if its [impl] has it. *)
Definition own_method {O : Type} (V : visitor O) (b : body cow) : option (metadata -> out O) :=
  match b with
  | BMmap r => option_map (fun f => f r) (v_mmap V)
  | BLost r => option_map (fun f => f r) (v_lost V)
  | BComm r => option_map (fun f => f r) (v_comm V)
  | BExit r => option_map (fun f => f r) (v_exit V)
  | BThrottle r => option_map (fun f => f r) (v_throttle V)
  | BUnthrottle r => option_map (fun f => f r) (v_unthrottle V)
  | BFork r => option_map (fun f => f r) (v_fork V)
  | BRead r => option_map (fun f => f r) (v_read V)
  | BSample r => option_map (fun f => f r) (v_sample V)
  | BMmap2 r => option_map (fun f => f r) (v_mmap2 V)
  | BAux r => option_map (fun f => f r) (v_aux V)
  | BItraceStart r => option_map (fun f => f r) (v_itrace_start V)
  | BLostSamples r => option_map (fun f => f r) (v_lost_samples V)
  | BSwitch => v_switch V
  | BSwitchCpuWide r => option_map (fun f => f r) (v_switch_cpu_wide V)
  | BNamespaces r => option_map (fun f => f r) (v_namespaces V)
  | BKsymbol r => option_map (fun f => f r) (v_ksymbol V)
  | BBpfEvent r => option_map (fun f => f r) (v_bpf_event V)
  | BCgroup r => option_map (fun f => f r) (v_cgroup V)
  | BTextPoke r => option_map (fun f => f r) (v_text_poke V)
  | BAuxOutputHwId r => option_map (fun f => f r) (v_aux_output_hw_id V)
  | BUnknown d => option_map (fun f => f d) (v_unknown V)
  end.

(** What a visitor answers for a body. *)
Definition answer {O : Type} (V : visitor O) (b : body cow) (md : metadata) : out O :=
  match own_method V b with
  | Some f => f md
  | None =>
      match b, v_mmap V with
      | BMmap2 r, Some f =>
          f (mkMmap (m2_pid r) (m2_tid r) (m2_addr r) (m2_len r) (m2_pgoff r) (m2_filename r)) md
      | _, _ => v_unimplemented V md
      end
  end.

Lemma deliver_answer : forall O (V : visitor O) b md, deliver V b md = answer V b md.
Proof.
  intros O V b md. unfold answer.
  destruct b; cbn [deliver own_method]; unfold visit_mmap2, visit_switch, visit_mmap, call, option_map.
  all: repeat match goal with
  | |- context [match ?x with Some _ => _ | None => _ end] =>
      lazymatch x with match _ with _ => _ end => fail | _ => destruct x end
  end; reflexivity.
Qed.

(** What happens to a record is decided without the visitor: either an error, or
    a body of the kind the header's type says, on which the visitor's answer is
    the result.  Types that are none of PERF_RECORD_*, and SWITCH (see
    [C26_switch_refuted]), are bodies of kind [BUnknown]. *)
Theorem C24_dispatch :
  forall pl S (PB : parsebuf S) mo fin cap mem p t m size rest a,
  let o := order_of pl (c_endian (p_cfg p)) in
  pl_ok pl ->
  t < 2 ^ 32 -> m < 2 ^ 16 -> size < 2 ^ 16 ->
  source PB mo fin cap mem p (w_header o t m size ++ rest) a ->
  (exists e p', forall O (V : visitor O), parse_record pl PB V p = (Err e, p')) \/
  (exists b si p', kind_ok t b /\
     forall O (V : visitor O), parse_record pl PB V p = (answer V b (mkMeta t m si), p')).
Proof.
  intros pl S PB mo fin cap mem p t m size rest a o Hpl Ht Hm Hs (rep & HC & Hr & Hw).
  pose proof Hr as Hr0. rewrite <- (N.add_0_r a) in Hr0.
  destruct (collect_safe pl PB mo fin cap mem rep a HC Hpl p _ 0 Hr0 Hw)
    as (r & p' & l' & pos' & E & Hg & Hst).
  destruct r as [[b md]|e| |]; cbn [good] in Hg; try contradiction.
  - right. unfold collect in E.
    destruct (header_exact pl PB mo fin cap mem rep HC p t m size rest a Ht Hm Hs Hr Hw)
      as (p1 & E1 & _).
    pose proof E as E2. unfold bind in E2. rewrite E1 in E2.
    apply collect_kind in E2 as (G1 & G2 & G3). cbn [h_type h_misc] in *.
    exists b, (md_sample_id md), p'. split; [exact G3|]. intros O V.
    rewrite record_eq. unfold collect. unfold bind at 1. rewrite E. cbn [lift fst snd].
    rewrite deliver_answer. unfold lift.
    assert (Em : md = mkMeta t m (md_sample_id md)); [|rewrite <- Em; reflexivity].
    clear - G1 G2. destruct md as [x y z]. cbn [md_ty md_misc md_sample_id] in *. now subst.
  - left. exists e, p'. intros O V. rewrite record_eq. unfold bind at 1. now rewrite E.
Qed.

(** Unknown types reach [visit_unknown] with exactly the body.

    Full statement: without [body <> []] (C24_empty_refuted). *)
Theorem C24_unknown_partial :
  forall pl S (PB : parsebuf S) mo fin cap mem O (V : visitor O) p w t m si body rest a,
  let o := order_of pl (c_endian (p_cfg p)) in
  let trailer := w_sample_id o w si in
  let size := 8 + len body + len trailer in
  pl_ok pl ->
  configured (p_cfg p) w -> sample_id_ok w si ->
  t = 0 \/ 21 < t -> t < 2 ^ 32 -> m < 2 ^ 16 -> size < 2 ^ 16 -> body <> [] ->
  source PB mo fin cap mem p (w_header o t m size ++ body ++ trailer ++ rest) a ->
  exists d p', parse_record pl PB V p = (answer V (BUnknown d) (mkMeta t m si), p') /\
    cow_list d = body.
Proof.
  intros pl S PB mo fin cap mem O V p w t m si body rest a o trailer size Hpl Hcf Hsi Ht Ht'
    Hm Hs Hb (rep & HC & Hr & Hw).
  assert (Hbb : bytes body).
  { destruct Hw as [Hw _]. unfold bytes in *. apply Forall_app in Hw as [_ Hw].
    now apply Forall_app in Hw as [Hw _]. }
  assert (Ew : w_record o w m si (WOther t body) = w_header o t m size ++ body ++ trailer).
  { unfold w_record. cbn [w_type w_body w_trailer]. unfold size. rewrite len_app. fold trailer.
    now rewrite N.add_assoc. }
  destruct (Rt_record pl Hpl 0 false (mkEnv (p_cfg p) fin) w Hcf m si (WOther t body) rest 0 Hm Hsi)
    as (ev & E & Hev).
  - repeat split; auto.
  - exact Hb.
  - cbn [fe_cfg]. fold o. rewrite Ew, !len_app, w_header_len. unfold size in Hs. lia.
  - reflexivity.
  - cbn [fe_cfg] in E. fold o in E. rewrite Ew in E.
    rewrite <- !app_assoc in E.
    pose proof Hr as Hr0. rewrite <- (N.add_0_r a) in Hr0.
    pose proof (record_flat pl PB mo fin cap mem rep a HC Hpl O V p _ 0 Hr0 Hw) as G.
    rewrite E in G. destruct G as (bc & p' & Ep & Hv & _).
    + assert (Hq : ev = []); [|subst; constructor].
      eapply (unknown_noev pl (mkEnv (p_cfg p) fin)); [exact Ht|exact Ht'|exact Hm|exact Hs|].
      cbn [fe_cfg]. fold o. exact E.
    + rewrite deliver_answer in Ep. destruct bc; try discriminate. cbn in Hv. injection Hv as Hv.
      exists data, p'. split; [exact Ep|exact Hv].
Qed.

Example C24_example :
  kind_ok (F := cow) 2 (BLost (mkLost 7 9)) /\
  parse_record pl64 slice_buf record_visitor (on_slice 4096 ex_lost ex_cfg)
    = (answer record_visitor (BLost (mkLost 7 9)) (mkMeta 2 1 ex_id),
       mkParser ex_cfg (mkSlice 4136 []) 40 []) /\
  (let d := w_record LE ex_set 1 ex_id (WOther 77 [1; 2; 3]) in
   fst (parse_record pl64 bufreader_buf record_visitor (reader_of [take 9 d; drop 9 d] ex_cfg))
     = answer record_visitor (BUnknown (Owned [1; 2; 3])) (mkMeta 77 1 ex_id)).
Proof. repeat split; vm_compute; reflexivity. Qed.

(** ** C25: parsing to [Record]. *)

(** The type number of a [Record]. *)
Definition record_kind {F : Type -> Type} (r : record F) (t : N) : Prop :=
  match r with
  | RBody b => body_kind b = Some t
  | RUnknown ty _ => t = ty /\ (ty = 0 \/ ty = 14 \/ 21 < ty)
  end.

Theorem C25_record_enum :
  forall pl S (PB : parsebuf S) mo fin cap mem p t m size rest a,
  let o := order_of pl (c_endian (p_cfg p)) in
  pl_ok pl ->
  t < 2 ^ 32 -> m < 2 ^ 16 -> size < 2 ^ 16 ->
  source PB mo fin cap mem p (w_header o t m size ++ rest) a ->
  (exists e p', parse_record_enum pl PB p = (Err e, p')) \/
  (exists r p', parse_record_enum pl PB p = (Ok r, p') /\ record_kind r t).
Proof.
  intros pl S PB mo fin cap mem p t m size rest a o Hpl Ht Hm Hs Hsrc.
  destruct (C24_dispatch pl S PB mo fin cap mem p t m size rest a Hpl Ht Hm Hs Hsrc)
    as [(e & p' & H)|(b & si & p' & Hk & H)].
  - left. exists e, p'. apply H.
  - right. unfold parse_record_enum. rewrite H.
    destruct b; unfold answer; cbn [own_method record_visitor v_mmap v_lost v_comm v_exit v_throttle
      v_unthrottle v_fork v_read v_sample v_mmap2 v_aux v_itrace_start v_lost_samples v_switch
      v_switch_cpu_wide v_namespaces v_ksymbol v_bpf_event v_cgroup v_text_poke v_aux_output_hw_id
      v_unknown option_map]; eexists; exists p'; (split; [reflexivity|]);
      unfold kind_ok in Hk; cbn [body_kind record_kind] in *; try congruence.
    cbn [md_ty]. auto.
Qed.

(** [V] with another [visit_unimplemented]. *)
Definition with_unimplemented {O : Type} (f : metadata -> out O) (V : visitor O) : visitor O :=
  mkVisitor f (v_mmap V) (v_lost V) (v_comm V) (v_exit V) (v_throttle V) (v_unthrottle V)
    (v_fork V) (v_read V) (v_sample V) (v_mmap2 V) (v_aux V) (v_itrace_start V)
    (v_lost_samples V) (v_switch V) (v_switch_cpu_wide V) (v_namespaces V) (v_ksymbol V)
    (v_bpf_event V) (v_cgroup V) (v_text_poke V) (v_aux_output_hw_id V) (v_unknown V).

(** On any bytes at all the result does not depend on what [visit_unimplemented]
    would do, so it is not called. *)
Theorem C25_never_unimplemented :
  forall pl S (PB : parsebuf S) mo fin cap mem p l a,
  pl_ok pl ->
  source PB mo fin cap mem p l a ->
  fst (parse_record_enum pl PB p) <> Panic /\
  forall f, parse_record pl PB (with_unimplemented f record_visitor) p = parse_record_enum pl PB p.
Proof.
  intros pl S PB mo fin cap mem p l a Hpl (rep & HC & Hr & Hw).
  rewrite <- (N.add_0_r a) in Hr.
  destruct (collect_safe pl PB mo fin cap mem rep a HC Hpl p _ 0 Hr Hw)
    as (r & p' & l' & pos' & E & Hg & Hst).
  unfold parse_record_enum. split; [|intros f]; rewrite !record_eq; unfold bind; rewrite E;
    (destruct r as [[b md]|e| |]; cbn [good] in Hg; try contradiction);
    try discriminate; try reflexivity; destruct b; (reflexivity || discriminate).
Qed.

Example C25_example :
  record_kind (RBody (F := cow) (BLost (mkLost 7 9))) 2 /\
  fst (parse_record_enum pl64 slice_buf (on_slice 4096 ex_lost ex_cfg))
    = Ok (RBody (BLost (mkLost 7 9))) /\
  fst (parse_record_enum pl64 slice_buf (on_slice 0 (w_header LE 99 0 9 ++ [5]) ex_cfg0))
    = Ok (RUnknown 99 (Borrowed 8 [5])).
Proof. repeat split; vm_compute; reflexivity. Qed.

(** ** C26: SWITCH records.

    Full statement: every SWITCH record is delivered to [visit_switch] and parses
    as [Record::Switch].  It is false: the dispatcher has no case for type 14
    (src/parse.rs:569-591) and its catch-all rejects an empty body. *)
Theorem C26_switch_refuted :
  exists pl S (PB : parsebuf S) mo mem p m rest a,
    source PB mo eof_error (isize_max pl) mem p (w_record LE ex_set m ex_id WSwitch ++ rest) a /\
    configured (p_cfg p) ex_set /\ sample_id_ok ex_set ex_id /\
    fst (parse_record_enum pl PB p) = Err eof_error /\
    forall V : visitor bool, fst (parse_record pl PB V p) = Err eof_error.
Proof.
  exists pl64, slice, slice_buf, Whole.
  set (d := w_record LE ex_set 0 ex_id WSwitch).
  exists (memory_of 4096 d), (on_slice 4096 d ex_cfg), 0, [], 4096.
  split; [|split; [repeat split; vm_compute; reflexivity|
    split; [repeat split; vm_compute; reflexivity|split; [vm_compute; reflexivity|]]]].
  - rewrite app_nil_r. fold d. apply slice_source; [| | |apply memory_of_at]; try (vm_compute; congruence).
    repeat constructor.
  - intros V. vm_compute. reflexivity.
Qed.

(** No record at all is delivered to [visit_switch], nor parses as [Record::Switch]. *)
Theorem C26_switch_never_delivered_refuted :
  forall pl S (PB : parsebuf S) p p', parse_record_enum pl PB p <> (Ok (RBody BSwitch), p').
Proof.
  intros pl S PB p p' H. unfold parse_record_enum in H. rewrite record_eq in H.
  apply bind_ok in H as ([b md] & p1 & H1 & H2). unfold collect in H1.
  apply bind_ok in H1 as (h & p2 & _ & H1). unfold collect_with_header in H1.
  apply bind_ok in H1 as ([q md1] & p3 & _ & H1).
  assert (G : exists T (PB' : parsebuf T) t x y, parse_body pl PB' t x = (Ok b, y)).
  { destruct (cursor_as_slice (p_buf q)); apply bind_ok in H1 as (b1 & p4 & H1 & H3);
      apply sub_ok in H1 as (q' & H1); injection H3 as <- _ _; eauto 6. }
  destruct G as (T & PB' & t & x & y & G).
  assert (Hb : b = BSwitch).
  { unfold lift in H2. injection H2 as H2 _. destruct b; cbn in H2; try discriminate. reflexivity. }
  subst b. unfold parse_body in G.
  repeat match type of G with
  | (if ?c then _ else _) _ = _ => destruct c; [apply bind_ok in G as (? & ? & _ & G); discriminate|]
  end.
  apply bind_ok in G as (? & ? & _ & G); discriminate.
Qed.

(** What is left of it: a SWITCH record does not disturb its neighbours (the rest
    of the claim, delivery as a SWITCH, fails as above). *)
Theorem C26_switch_skipped_partial :
  forall pl S (PB : parsebuf S) mo fin cap mem O (V : visitor O) p w m si rest a,
  let o := order_of pl (c_endian (p_cfg p)) in
  m < 2 ^ 16 ->
  source PB mo fin cap mem p (w_record o w m si WSwitch ++ rest) a ->
  let p' := snd (parse_record pl PB V p) in
  source PB mo fin cap mem p' rest (a + len (w_record o w m si WSwitch)) /\ p_cfg p' = p_cfg p.
Proof.
  intros pl S PB mo fin cap mem O V p w m si rest a o Hm Hsrc.
  assert (E : w_record o w m si WSwitch = w_header o 14 m (8 + len (w_sample_id o w si)) ++ w_sample_id o w si)
    by reflexivity.
  rewrite E, <- app_assoc in Hsrc.
  assert (Hl : 8 + len (w_sample_id o w si) < 2 ^ 16).
  { unfold w_sample_id. destruct (ws_id_all w); [|reflexivity]. cbn [w_if].
    rewrite !len_app, !w_if_len, !len_app, !w32_len, !w64_len.
    destruct (sbit w 1), (sbit w 2), (sbit w 6), (sbit w 9), (sbit w 7), (sbit w 16); reflexivity. }
  destruct (C01_record_framing pl S PB mo fin cap mem O V p 14 m (w_sample_id o w si) rest a
              ltac:(reflexivity) Hm Hl Hsrc) as (G1 & G2 & G3).
  split; [|exact G2]. rewrite E, len_app, w_header_len. exact G1.
Qed.

(** ** C38: the sub-parser for a record delivers exactly its bytes, then Eof. *)
Theorem C38_record_cursor :
  forall S (PB : parsebuf S) mo fin cap mem p n l a,
  n <= len l -> source PB mo fin cap mem p l a ->
  exists q p', split_at PB n p = (Ok q, p') /\ p_cfg q = p_cfg p /\
    source cursor_buf mo eof_error n mem q (take n l) a /\
    moved PB mo fin cap mem l a p n p'.
Proof.
  intros S PB mo fin cap mem p n l a Hn (rep & HC & Hr & Hw).
  destruct (split_exact S PB mo fin cap mem rep HC n p l a Hr Hw Hn)
    as (q & p' & E & Hr' & Hc' & Ho' & Hq & Hqc & _).
  exists q, p'. split; [exact E|]. split; [exact Hqc|]. split.
  - exists (cursor_rep mo n mem). split; [apply cursor_contract|]. split; [exact Hq|now apply wf_take].
  - split; [exact Hn|]. split; [|auto]. exists rep. split; [exact HC|]. split; [exact Hr'|now apply wf_drop].
Qed.

(** Read to the end, such a cursor gives the bytes in order. *)
Theorem C38_cursor_bytes :
  forall S (PB : parsebuf S) mo cap mem p l a, l <> [] ->
  source PB mo eof_error cap mem p l a ->
  exists c p', parse_rest PB p = (Ok c, p') /\ cow_list c = l /\
    source PB mo eof_error cap mem p' [] (a + len l) /\
    fst (pb_chunk PB (p_buf p')) = Err eof_error.
Proof.
  intros S PB mo cap mem p l a Hl (rep & HC & Hr & Hw).
  assert (E : f_rest (mkEnv (p_cfg p) eof_error) l 0 = FOk l [] (len l) []).
  { unfold f_rest. destruct l; [congruence|reflexivity]. }
  destruct (run_ok mo eof_error cap rep _ _ _ _ _ _ _ _ _ _ _ _ (Ref_rest PB mo eof_error cap mem rep a HC)
              Hr Hw E ltac:(constructor)) as (c & p' & Ep & [Hc _] & Hst).
  pose proof (st_rep _ _ _ _ _ _ _ _ _ Hst) as Hr'.
  exists c, p'. split; [exact Ep|]. split; [exact Hc|]. split.
  - exists rep. split; [exact HC|]. split; [exact Hr'|]. split; [constructor|reflexivity].
  - destruct (ct_empty HC _ _ Hr') as (s' & E' & _). now rewrite E'.
Qed.

(** The end of a truncated source is its own error. *)
Theorem C38_truncated :
  forall S (PB : parsebuf S) mo fin cap mem p n l a,
  len l < n -> source PB mo fin cap mem p l a ->
  exists p', split_at PB n p = (Err fin, p').
Proof.
  intros S PB mo fin cap mem p n l a Hn (rep & HC & Hr & Hw).
  rewrite <- (N.add_0_r a) in Hr.
  pose proof (split_spec PB mo fin cap mem rep a HC n p l 0 Hr Hw) as H.
  destruct (f_split n _ l 0) as [st l' pos' ev|e l' pos' ev].
  - destruct H as (q & p2 & _ & _ & _ & _ & _ & Hn' & _). lia.
  - destruct H as (p2 & E2 & _ & -> & _). now exists p2.
Qed.

Example C38_example :
  let cs := [Temporary [1; 2]; External 100 [3; 4; 5]; Temporary [6]] in
  source chunklist_buf AnyExt eof_error 16384 (memory_of 100 [3; 4; 5]) (new_parser cs ex_cfg)
    [1; 2; 3; 4; 5; 6] 0 /\
  exists q p', split_at chunklist_buf 4 (new_parser cs ex_cfg) = (Ok q, p') /\
    fst (parse_rest cursor_buf q) = Ok (Owned [1; 2; 3; 4]) /\ p_buf p' = [External 102 [5]; Temporary [6]].
Proof.
  cbv zeta. split.
  - apply (chunks_source [Temporary [1; 2]; External 100 [3; 4; 5]; Temporary [6]]).
    + reflexivity.
    + repeat constructor.
    + reflexivity.
    + cbn. repeat split; try discriminate. apply memory_of_at.
  - eexists; eexists. split; [vm_compute; reflexivity|]. split; vm_compute; reflexivity.
Qed.

Print Assumptions C01_record_framing.
Print Assumptions C01_headers_are_complete.
Print Assumptions C12_metadata.
Print Assumptions C12_no_trailer.
Print Assumptions C12_body_parser.
Print Assumptions C13_header_too_small.
Print Assumptions C13_no_room_for_sample_id.
Print Assumptions C13_truncated.
Print Assumptions C13_truncated_header.
Print Assumptions C24_dispatch.
Print Assumptions C24_unknown_partial.
Print Assumptions C25_record_enum.
Print Assumptions C25_never_unimplemented.
Print Assumptions C26_switch_refuted.
Print Assumptions C26_switch_never_delivered_refuted.
Print Assumptions C26_switch_skipped_partial.
Print Assumptions C38_record_cursor.
Print Assumptions C38_cursor_bytes.
Print Assumptions C38_truncated.
