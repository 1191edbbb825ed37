(** Theorems: no panics, termination, bounded reservations, error kinds (C04, C32, C41). *)
From Coq Require Import NArith List Bool Lia.
From Verif Require Import Base BaseFacts Types Platform Config Buf Parser Contract Flat Refine.
From Verif Require Import Instances Prims Slices Records Sample Record Attr Views RefRecords.
From Verif Require Import RefFrame RefTop Safe NoHint Wire Spec FrameFacts ExData PropsFrame.
Import ListNotations.
Open Scope N_scope.

(** Every parser of a record body, of a part of one, and every method of [Parser]
    that reads; [n] stands for length arguments and register masks. *)
Inductive public (pl : platform) {S : Type} (PB : parsebuf S) : forall A : Type, M S A -> Prop :=
| pub_mmap : public pl PB _ (parse_mmap pl PB)
| pub_lost : public pl PB _ (parse_lost pl PB)
| pub_comm : public pl PB _ (parse_comm pl PB)
| pub_exit : public pl PB _ (parse_exit pl PB)
| pub_throttle : public pl PB _ (parse_throttle pl PB)
| pub_read : public pl PB _ (parse_read pl PB)
| pub_sample : public pl PB _ (parse_sample pl PB)
| pub_mmap2 : public pl PB _ (parse_mmap2 pl PB)
| pub_aux : public pl PB _ (parse_aux pl PB)
| pub_itrace_start : public pl PB _ (parse_itrace_start pl PB)
| pub_lost_samples : public pl PB _ (parse_lost_samples pl PB)
| pub_switch_cpu_wide : public pl PB _ (parse_switch_cpu_wide pl PB)
| pub_namespaces : public pl PB _ (parse_namespaces pl PB)
| pub_ksymbol : public pl PB _ (parse_ksymbol pl PB)
| pub_bpf_event : public pl PB _ (parse_bpf_event pl PB)
| pub_cgroup : public pl PB _ (parse_cgroup pl PB)
| pub_text_poke : public pl PB _ (parse_text_poke pl PB)
| pub_aux_output_hw_id : public pl PB _ (parse_aux_output_hw_id pl PB)
| pub_sample_id : public pl PB _ (parse_sample_id pl PB)
| pub_read_value : public pl PB _ (parse_read_value pl PB)
| pub_read_group : public pl PB _ (parse_read_group pl PB)
| pub_registers : forall n, public pl PB _ (parse_registers pl PB n)
| pub_regs_user : public pl PB _ (parse_regs_user pl PB)
| pub_regs_intr : public pl PB _ (parse_regs_intr pl PB)
| pub_header : public pl PB _ (parse_header pl PB)
| pub_u8 : public pl PB _ (parse_u8 PB)
| pub_u16 : public pl PB _ (parse_u16 pl PB)
| pub_u32 : public pl PB _ (parse_u32 pl PB)
| pub_u64 : public pl PB _ (parse_u64 pl PB)
| pub_array : forall n, public pl PB _ (parse_array PB n)
| pub_rest : public pl PB _ (parse_rest PB)
| pub_string : public pl PB _ (parse_rest_trim_nul PB)
| pub_skip : forall n, public pl PB _ (parse_bytes_ignored PB n)
| pub_bytes : forall n, public pl PB _ (parse_bytes pl PB n)
| pub_split : forall n, public pl PB _ (split_at PB n)
| pub_slice_u64 : forall n, public pl PB _ (parse_slice pl PB (elem_u64 pl) n)
| pub_slice_ns : forall n, public pl PB _ (parse_slice pl PB (elem_ns pl) n)
| pub_slice_branch : forall n, public pl PB _ (parse_slice pl PB (elem_branch pl) n).

Lemma public_safe : forall pl S (PB : parsebuf S) mo fin cap mem rep a0 A (m : M S A),
  contract PB mo fin cap mem rep -> cap <= isize_max pl -> public pl PB A m ->
  Safe.Safe fin cap rep a0 any m.
Proof.
  intros pl S PB mo fin cap mem rep a0 A m HC Hcap H.
  assert (D : forall A (Q : A -> Prop) m, Safe.Safe fin cap rep a0 Q m ->
    Safe.Safe fin cap rep a0 any m) by (intros; eapply Safe_any; eassumption).
  destruct H; eapply D.
  - eapply s_mmap; eassumption.
  - eapply s_lost; eassumption.
  - eapply s_comm; eassumption.
  - eapply s_exit; eassumption.
  - eapply s_throttle; eassumption.
  - eapply s_read; eassumption.
  - eapply s_sample; eassumption.
  - eapply s_mmap2; eassumption.
  - eapply s_aux; eassumption.
  - eapply s_itrace_start; eassumption.
  - eapply s_lost_samples; eassumption.
  - eapply s_switch_cpu_wide; eassumption.
  - eapply s_namespaces; eassumption.
  - eapply s_ksymbol; eassumption.
  - eapply s_bpf_event; eassumption.
  - eapply s_cgroup; eassumption.
  - eapply s_text_poke; eassumption.
  - eapply s_aux_output_hw_id; eassumption.
  - eapply s_sample_id; eassumption.
  - eapply s_read_value; eassumption.
  - eapply s_read_group; eassumption.
  - eapply s_registers; eassumption.
  - eapply safe_regs_user; eassumption.
  - eapply safe_regs_intr; eassumption.
  - eapply s_header; eassumption.
  - eapply s_u8; eassumption.
  - eapply s_u16; eassumption.
  - eapply s_u32; eassumption.
  - eapply s_u64; eassumption.
  - eapply s_array; eassumption.
  - eapply s_rest; eassumption.
  - eapply s_string; eassumption.
  - eapply s_skip; eassumption.
  - eapply s_bytes; eassumption.
  - eapply s_split; eassumption.
  - eapply s_slice_u64; eassumption.
  - eapply s_slice_ns; eassumption.
  - eapply s_slice_branch; eassumption.
Qed.

Lemma public_run : forall pl S (PB : parsebuf S) mo fin cap mem p l a A (m : M S A),
  cap <= isize_max pl -> source PB mo fin cap mem p l a -> public pl PB A m ->
  exists r p' l' k rep, m p = (r, p') /\ good fin any r /\ step cap rep a p l 0 p' l' k /\
    contract PB mo fin cap mem rep.
Proof.
  intros pl S PB mo fin cap mem p l a A m Hcap (rep & HC & Hr & Hw) Hin.
  pose proof (public_safe pl S PB mo fin cap mem rep a A m HC Hcap Hin) as H.
  rewrite <- (N.add_0_r a) in Hr.
  destruct (H p l 0 Hr Hw) as (r & p' & l' & k & E & Hg & Hs).
  exists r, p', l', k, rep. auto.
Qed.

(** ** C04: no panic, no endless loop. *)

Definition ends {A : Type} (r : out A) : Prop := (exists a, r = Ok a) \/ (exists e, r = Err e).

Lemma good_ends : forall A fin (Q : A -> Prop) r, good fin Q r -> ends r.
Proof. intros A fin Q [a|e| |] H; [left|right| |]; try contradiction; eauto. Qed.

Theorem C04_parsers : forall pl S (PB : parsebuf S) mo fin cap mem p l a A (m : M S A),
  cap <= isize_max pl -> source PB mo fin cap mem p l a ->
  public pl PB A m ->
  ends (fst (m p)) /\ exists k, moved PB mo fin cap mem l a p k (snd (m p)).
Proof.
  intros pl S PB mo fin cap mem p l a A m Hcap Hsrc Hin.
  destruct (public_run pl S PB mo fin cap mem p l a A m Hcap Hsrc Hin)
    as (r & p' & l' & k & rep & E & Hg & Hs & HC).
  rewrite E. cbn [fst snd]. split; [eapply good_ends; exact Hg|].
  exists k. eapply step_moved; try eassumption. eapply source_wf; exact Hsrc.
Qed.

Theorem C04_attr : forall pl S (PB : parsebuf S) mo fin cap mem p l a,
  pl_ok pl -> source PB mo fin cap mem p l a ->
  ends (fst (parse_attr pl PB p)) /\
  exists k, moved PB mo fin cap mem l a p k (snd (parse_attr pl PB p)).
Proof.
  intros pl S PB mo fin cap mem p l a Hpl (rep & HC & Hr & Hw).
  rewrite <- (N.add_0_r a) in Hr.
  destruct (attr_safe pl PB mo fin cap mem rep a HC Hpl p l 0 Hr Hw)
    as (r & p' & l' & k & E & Hg & Hs).
  rewrite E. cbn [fst snd]. split; [eapply good_ends; exact Hg|].
  exists k. eapply step_moved; eassumption.
Qed.

(** A whole record: an error, or what the visitor answered. *)
Theorem C04_record : forall pl S (PB : parsebuf S) mo fin cap mem O (V : visitor O) p l a,
  pl_ok pl -> source PB mo fin cap mem p l a ->
  ((exists e, fst (parse_record pl PB V p) = Err e) \/
   (exists b md, fst (parse_record pl PB V p) = answer V b md)) /\
  exists k, moved PB mo fin cap mem l a p k (snd (parse_record pl PB V p)).
Proof.
  intros pl S PB mo fin cap mem O V p l a Hpl (rep & HC & Hr & Hw).
  rewrite <- (N.add_0_r a) in Hr.
  destruct (record_safe pl PB mo fin cap mem rep a HC Hpl O V p l 0 Hr Hw)
    as (r & p' & l' & k & E & Hs & H).
  rewrite E. cbn [fst snd]. split.
  - destruct H as [(b & md & -> & _)|(e & -> & _)]; [right|left; eauto].
    exists b, md. apply deliver_answer.
  - exists k. eapply step_moved; eassumption.
Qed.

Theorem C04_record_enum : forall pl S (PB : parsebuf S) mo fin cap mem p l a,
  pl_ok pl -> source PB mo fin cap mem p l a -> ends (fst (parse_record_enum pl PB p)).
Proof.
  intros pl S PB mo fin cap mem p l a Hpl Hs. unfold parse_record_enum.
  destruct (C04_record pl S PB mo fin cap mem _ record_visitor p l a Hpl Hs) as [[[e H]|(b & md & H)] _].
  - right. eauto.
  - left. rewrite H. destruct b; unfold answer; cbn; eauto.
Qed.

(** A record that is delivered takes at least a header from the source. *)
Theorem C04_progress : forall pl S (PB : parsebuf S) mo fin cap mem O (V : visitor O) p l a,
  source PB mo fin cap mem p l a ->
  (forall e, fst (parse_record pl PB V p) <> Err e) ->
  exists k, 8 <= k /\ moved PB mo fin cap mem l a p k (snd (parse_record pl PB V p)).
Proof.
  intros pl S PB mo fin cap mem O V p l a Hsrc Hok.
  pose proof (source_wf _ _ _ _ _ _ _ _ _ Hsrc) as Hw.
  destruct (N.ltb_spec (len l) 8) as [H8|H8].
  { elim (Hok fin). eapply C13_truncated_header; eassumption. }
  destruct (C01_headers_are_complete (order_of pl (c_endian (p_cfg p))) l (proj1 Hw) H8)
    as (t & m & size & rest & Ht & Hm & Hs & ->).
  destruct (N.ltb_spec size 8) as [Hlt|Hge].
  { elim (Hok (mkError KInvalidRecord (Some (SrcMsg MsgHeaderTooSmall)))).
    exact (C13_header_too_small pl S PB mo fin cap mem O V p t m size rest a Ht Hm Hlt Hsrc). }
  destruct (N.ltb_spec (8 + len rest) size) as [Hlt2|Hge2].
  { elim (Hok fin). exact (C13_truncated pl S PB mo fin cap mem O V p t m size rest a Ht Hm Hs Hlt2 Hsrc). }
  exists size. split; [exact Hge|].
  assert (El : len (take (size - 8) rest) = size - 8) by (rewrite len_take; lia).
  pose proof (C01_record_framing pl S PB mo fin cap mem O V p t m (take (size - 8) rest)
    (drop (size - 8) rest) a Ht Hm) as H.
  cbv zeta in H. rewrite El in H. replace (8 + (size - 8)) with size in H by lia.
  rewrite take_drop in H. destruct (H Hs Hsrc) as (H1 & H2 & H3).
  unfold moved. rewrite len_app.
  assert (Hh : forall o, len (w_header o t m size) = 8).
  { intros o. unfold w_header. rewrite !len_app. unfold w32, w16. now rewrite !Codec.enc_len. }
  rewrite Hh. split; [lia|]. split; [|auto].
  rewrite drop_app, Hh, drop_all by (rewrite Hh; exact Hge). exact H1.
Qed.

(** The results of [n] calls of [parse::<Record>()] one after the other. *)
Fixpoint results (pl : platform) {S : Type} (PB : parsebuf S) (n : nat) (p : parser S)
  : list (out (record cow)) :=
  match n with
  | O => []
  | Datatypes.S k =>
      let '(r, p') := parse_record_enum pl PB p in r :: results pl PB k p'
  end.

(** So parsing record after record until the first error comes to an end. *)
Theorem C04_stream_ends : forall pl S (PB : parsebuf S) mo fin cap mem n p l a,
  pl_ok pl -> source PB mo fin cap mem p l a -> len l < 8 * N.of_nat n ->
  exists e, In (Err e) (results pl PB n p).
Proof.
  intros pl S PB mo fin cap mem n. induction n as [|n IH]; intros p l a Hpl Hsrc Hn; [lia|].
  cbn [results]. destruct (parse_record_enum pl PB p) as [r p'] eqn:E.
  destruct (C04_record_enum pl S PB mo fin cap mem p l a Hpl Hsrc) as [[x Hx]|[e He]].
  - destruct (C04_progress pl S PB mo fin cap mem _ record_visitor p l a Hsrc) as (k & Hk & Hm).
    { intros e. unfold parse_record_enum in Hx. rewrite Hx. discriminate. }
    change (parse_record pl PB record_visitor p) with (parse_record_enum pl PB p) in Hm.
    rewrite E in Hm. cbn [snd] in Hm. destruct Hm as (Hkl & Hsrc' & _).
    destruct (IH p' (drop k l) (a + k) Hpl Hsrc') as (e & He); [rewrite len_drop; lia|].
    exists e. right. exact He.
  - rewrite E in He. cbn [fst] in He. subst r. exists e. left. reflexivity.
Qed.

Example C04_example :
  source slice_buf Whole eof_error (isize_max pl64) (memory_of 0 (repeat 255 40))
    (on_slice 0 (repeat 255 40) ex_cfg) (repeat 255 40) 0 /\
  ends (fst (parse_sample pl64 slice_buf (on_slice 0 (repeat 255 40) ex_cfg))) /\
  results pl64 slice_buf 2 (on_slice 4096 ex_lost ex_cfg) =
    [Ok (RBody (BLost (mkLost 7 9))); Err eof_error].
Proof.
  split; [|split].
  - apply slice_source; [| | |apply memory_of_at]; try (vm_compute; congruence).
    repeat constructor.
  - left. eexists. vm_compute. reflexivity.
  - vm_compute. reflexivity.
Qed.

(** ** C32: memory reserved up front.  [p_log] lists the capacities reserved. *)

(** For a record from any source, none is above 65527 bytes. *)
Theorem C32_record : forall pl S (PB : parsebuf S) mo fin cap mem O (V : visitor O) p l a,
  pl_ok pl -> source PB mo fin cap mem p l a ->
  exists new, p_log (snd (parse_record pl PB V p)) = new ++ p_log p /\
    Forall (fun n => n <= 65527) new.
Proof.
  intros pl S PB mo fin cap mem O V p l a Hpl (rep & HC & Hr & Hw).
  rewrite <- (N.add_0_r a) in Hr.
  destruct (record_safe pl PB mo fin cap mem rep a HC Hpl O V p l 0 Hr Hw)
    as (r & p' & l' & k & E & Hs & H).
  rewrite E. exact (st_log _ _ _ _ _ _ _ _ _ Hs).
Qed.

(** Outside records: never more than the bytes a slice holds. *)
Theorem C32_slice : forall pl a d c A (m : M slice A),
  bytes d -> len d < 2 ^ 64 -> len d <= isize_max pl ->
  public pl slice_buf A m ->
  exists new, p_log (snd (m (on_slice a d c))) = new /\ Forall (fun n => n <= len d) new.
Proof.
  intros pl a d c A m Hb Hl Hc Hin.
  assert (Hsrc : source slice_buf Whole eof_error (len d) (memory_of a d) (on_slice a d c) d a).
  { apply slice_source; try assumption; [lia|apply memory_of_at]. }
  destruct (public_run pl _ slice_buf _ _ _ _ _ d a A m Hc Hsrc Hin)
    as (r & p' & l' & k & rep & E & Hg & Hs & HC).
  rewrite E. destruct (st_log _ _ _ _ _ _ _ _ _ Hs) as (new & En & Hn).
  exists new. split; [|exact Hn]. cbn [snd]. rewrite En. apply app_nil_r.
Qed.

(** Any source: never more than [cap], if each hint is at most [cap] and, where
    there may be none, [cap] is at least 16 KiB. *)
Theorem C32_any_source : forall pl S (PB : parsebuf S) mo fin cap mem p l a A (m : M S A),
  cap <= isize_max pl -> source PB mo fin cap mem p l a ->
  public pl PB A m ->
  exists new, p_log (snd (m p)) = new ++ p_log p /\ Forall (fun n => n <= cap) new.
Proof.
  intros pl S PB mo fin cap mem p l a A m Hcap Hsrc Hin.
  destruct (public_run pl S PB mo fin cap mem p l a A m Hcap Hsrc Hin)
    as (r & p' & l' & k & rep & E & Hg & Hs & HC).
  rewrite E. exact (st_log _ _ _ _ _ _ _ _ _ Hs).
Qed.

(** A reader never says how much it holds: at most 16 KiB. *)
Theorem C32_reader : forall pl rs e c A (m : M bufreader A),
  bytes (concat rs) -> len (concat rs) < 2 ^ 64 -> Forall (fun r => r <> []) rs ->
  16384 <= isize_max pl ->
  public pl bufreader_buf A m ->
  Forall (fun n => n <= 16384) (p_log (snd (m (new_parser (mkReader [] rs e) c)))).
Proof.
  intros pl rs e c A m Hb Hl Hr Hpl Hin.
  pose proof (reader_source [] rs e c 16384 (fun _ => 0) ltac:(lia) Hb Hl Hr) as Hsrc.
  destruct (C32_any_source pl _ bufreader_buf _ _ _ _ _ _ _ A m Hpl Hsrc Hin) as (new & En & Hn).
  rewrite En. cbn [p_log new_parser]. now rewrite app_nil_r.
Qed.

(** An attr reserves nothing. *)
Theorem C32_attr : forall pl S (PB : parsebuf S) mo fin cap mem p l a,
  pl_ok pl -> source PB mo fin cap mem p l a ->
  exists new, p_log (snd (parse_attr pl PB p)) = new ++ p_log p /\ Forall (fun n => n = 0) new.
Proof.
  intros pl S PB mo fin cap mem p l a Hpl (rep & HC & Hr & Hw).
  rewrite <- (N.add_0_r a) in Hr.
  destruct (attr_safe pl PB mo fin cap mem rep a HC Hpl p l 0 Hr Hw)
    as (r & p' & l' & k & E & Hg & Hs).
  rewrite E. destruct (st_log _ _ _ _ _ _ _ _ _ Hs) as (new & En & Hn).
  exists new. split; [exact En|]. eapply Forall_impl; [|exact Hn]. cbn. intros x Hx. lia.
Qed.

(** A NAMESPACES body claiming 2^60 entries, from a reader: 16 KiB are reserved. *)
Example C32_example :
  p_log (snd (parse_namespaces pl64 bufreader_buf
    (reader_of [w32 BE 1 ++ w32 BE 1 ++ w64 BE (2 ^ 60); [1; 2; 3]]
       (mkConfig (c_flags ex_cfg) 0 0 Big)))) = [16384].
Proof. vm_compute. reflexivity. Qed.

(** ** C41: kinds of errors. *)

Definition kind_fine (fin e : perror) : Prop :=
  (e_kind e = KExternal -> e = fin) /\
  (e_kind e = KEof -> e = fin \/ e = eof_error) /\
  (e <> fin -> e <> eof_error -> exists m, e_source e = Some (SrcMsg m) /\ proper m (e_kind e)).

Lemma err_ok_fine : forall fin e, err_ok fin e -> kind_fine fin e.
Proof.
  intros fin e [->|[->|(k & m & -> & H)]].
  - split; [auto|]. split; [auto|]. intros H; congruence.
  - split; [discriminate|]. split; [auto|]. intros _ H; congruence.
  - split; [|split]; [| |intros _ _; exists m; auto];
      intros E; change (k = KExternal) in E || change (k = KEof) in E; subst k;
      destruct m; cbn in H; (discriminate || destruct H; discriminate).
Qed.

(** External errors are those of the source, unchanged, and so are Eof errors but
    for the plain one. *)
Theorem C41_parsers : forall pl S (PB : parsebuf S) mo fin cap mem p l a A (m : M S A) e,
  cap <= isize_max pl -> source PB mo fin cap mem p l a ->
  public pl PB A m ->
  fst (m p) = Err e -> kind_fine fin e.
Proof.
  intros pl S PB mo fin cap mem p l a A m e Hcap Hsrc Hin He.
  destruct (public_run pl S PB mo fin cap mem p l a A m Hcap Hsrc Hin)
    as (r & p' & l' & k & rep & E & Hg & Hs & HC).
  rewrite E in He. cbn [fst] in He. subst r. apply err_ok_fine. exact Hg.
Qed.

Theorem C41_attr : forall pl S (PB : parsebuf S) mo fin cap mem p l a e,
  pl_ok pl -> source PB mo fin cap mem p l a ->
  fst (parse_attr pl PB p) = Err e -> kind_fine fin e.
Proof.
  intros pl S PB mo fin cap mem p l a e Hpl (rep & HC & Hr & Hw) He.
  rewrite <- (N.add_0_r a) in Hr.
  destruct (attr_safe pl PB mo fin cap mem rep a HC Hpl p l 0 Hr Hw)
    as (r & p' & l' & k & E & Hg & Hs).
  rewrite E in He. cbn [fst] in He. subst r. apply err_ok_fine. exact Hg.
Qed.

Theorem C41_record : forall pl S (PB : parsebuf S) mo fin cap mem p l a e,
  pl_ok pl -> source PB mo fin cap mem p l a ->
  fst (parse_record_enum pl PB p) = Err e -> kind_fine fin e.
Proof.
  intros pl S PB mo fin cap mem p l a e Hpl (rep & HC & Hr & Hw) He.
  rewrite <- (N.add_0_r a) in Hr. unfold parse_record_enum in He.
  destruct (record_safe pl PB mo fin cap mem rep a HC Hpl _ record_visitor p l 0 Hr Hw)
    as (r & p' & l' & k & E & Hs & H).
  rewrite E in He. cbn [fst] in He. subst r. destruct H as [(b & md & H & _)|(e' & H & Hok)].
  - destruct b; discriminate.
  - injection H as <-. now apply err_ok_fine.
Qed.

(** In particular a source which ends with Eof never gives an External error. *)
Theorem C41_no_external : forall pl S (PB : parsebuf S) mo fin cap mem p l a e,
  pl_ok pl -> is_eof fin = true -> source PB mo fin cap mem p l a ->
  fst (parse_record_enum pl PB p) = Err e -> e_kind e <> KExternal.
Proof.
  intros pl S PB mo fin cap mem p l a e Hpl Hf Hsrc He Hk.
  destruct (C41_record pl S PB mo fin cap mem p l a e Hpl Hsrc He) as [H _].
  specialize (H Hk). subst e. unfold is_eof in Hf. rewrite Hk in Hf. discriminate.
Qed.

(** A reader whose I/O fails in the middle of a record. *)
Example C41_example :
  let p := new_parser (mkReader [] [take 20 ex_lost] (Some (5, false))) ex_cfg in
  fst (parse_record_enum pl64 bufreader_buf p) = Err (io_error 5 false) /\
  e_kind (io_error 5 false) = KExternal.
Proof. split; vm_compute; reflexivity. Qed.

Print Assumptions C04_parsers.
Print Assumptions C04_attr.
Print Assumptions C04_record.
Print Assumptions C04_record_enum.
Print Assumptions C04_progress.
Print Assumptions C04_stream_ends.
Print Assumptions C32_record.
Print Assumptions C32_slice.
Print Assumptions C32_any_source.
Print Assumptions C32_reader.
Print Assumptions C32_attr.
Print Assumptions C41_parsers.
Print Assumptions C41_attr.
Print Assumptions C41_record.
Print Assumptions C41_no_external.
