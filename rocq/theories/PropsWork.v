(** Theorems: the work of a parser goes with the bytes it takes (C72). *)
From Coq Require Import NArith List Bool Lia.
From Verif Require Import Base BaseFacts Types Platform Config Buf Parser Contract Refine.
From Verif Require Import Flat Instances Prims Records Sample Record Attr RefFrame RefTop Safe NoHint Spec Work WorkTop.
From Verif Require Import FrameFacts Wire Codec Roundtrip RoundFacts ExData PropsFrame PropsSafe PropsHead.
Import ListNotations.
Open Scope N_scope.

(** A source together with the number of calls of its [chunk] and [advance] so far. *)
Definition counted {S : Type} (PB : parsebuf S) : parsebuf (S * N) := mkBuf
  (fun s => let (r, s') := pb_chunk PB (fst s) in (r, (s', snd s + 1)))
  (fun s n => let (r, s') := pb_advance PB (fst s) n in (r, (s', snd s + 1)))
  (fun s => pb_hint PB (fst s)).

(** [p], with its calls counted from here. *)
Definition watched {S : Type} (p : parser S) : parser (S * N) :=
  mkParser (p_cfg p) (p_buf p, 0) (p_off p) (p_log p).

Definition calls_made {S : Type} (p' : parser (S * N)) : N := snd (p_buf p').

(** The reservations between [p] and [p'], newest first. *)
Definition reserved {S T : Type} (p : parser S) (p' : parser T) (new : list N) : Prop := p_log p' = new ++ p_log p.

Lemma counted_contract : forall S (PB : parsebuf S) mo fin cap mem rep,
  contract PB mo fin cap mem rep -> contract (counted PB) mo fin cap mem (fun s => rep (fst s)).
Proof.
  intros S PB mo fin cap mem rep [He Hc Hh Hn]. constructor; cbn [counted pb_chunk pb_advance pb_hint].
  - intros [s n] a Hr. cbn [fst] in *. destruct (He s a Hr) as (s' & E & Hr'). rewrite E. eexists. split; [reflexivity|exact Hr'].
  - intros [s n] l a Hr Hl. cbn [fst snd] in *. destruct (Hc s l a Hr Hl) as (c & s' & E & Hr' & H1 & H2 & H3 & H4).
    rewrite E. exists c, (s', n + 1). split; [reflexivity|]. do 4 (split; [assumption|]).
    intros k Hk. cbn [fst snd]. destruct (H4 k Hk) as (s'' & E2 & Hr2). rewrite E2. eexists. split; [reflexivity|exact Hr2].
  - intros [s n] l a h. apply Hh.
  - intros [s n] l a. apply Hn.
Qed.

Lemma counted_counts : forall S (PB : parsebuf S), counts (counted PB) snd.
Proof.
  intros S PB. split.
  - intros [s n]. cbn. destruct (pb_chunk PB s). cbn. lia.
  - intros [s n] k. cbn. destruct (pb_advance PB s k). cbn. lia.
Qed.

Lemma public_work : forall pl S (PB : parsebuf S) mo fin cap mem rep calls A (m : M S A),
  contract PB mo fin cap mem rep -> counts PB calls -> public pl PB A m -> W rep calls 4 16 18 8 m.
Proof.
  intros pl S PB mo fin cap mem rep calls A m HC Hc H. destruct H.
  - eapply W_mono; [eapply W_mmap; eassumption|lia..].
  - eapply W_mono; [eapply W_lost; eassumption|lia..].
  - eapply W_mono; [eapply W_comm; eassumption|lia..].
  - eapply W_mono; [eapply W_exit; eassumption|lia..].
  - eapply W_mono; [eapply W_throttle; eassumption|lia..].
  - eapply W_mono; [eapply W_read; eassumption|lia..].
  - eapply W_mono; [eapply W_sample; eassumption|lia..].
  - eapply W_mono; [eapply W_mmap2; eassumption|lia..].
  - eapply W_mono; [eapply W_aux; eassumption|lia..].
  - eapply W_mono; [eapply W_itrace_start; eassumption|lia..].
  - eapply W_mono; [eapply W_lost_samples; eassumption|lia..].
  - eapply W_mono; [eapply W_switch_cpu_wide; eassumption|lia..].
  - eapply W_mono; [eapply W_namespaces; eassumption|lia..].
  - eapply W_mono; [eapply W_ksymbol; eassumption|lia..].
  - eapply W_mono; [eapply W_bpf_event; eassumption|lia..].
  - eapply W_mono; [eapply W_cgroup; eassumption|lia..].
  - eapply W_mono; [eapply W_text_poke; eassumption|lia..].
  - eapply W_mono; [eapply W_aux_output_hw_id; eassumption|lia..].
  - eapply W_mono; [eapply W_sample_id; eassumption|lia..].
  - eapply W_mono; [eapply W_read_value; eassumption|lia..].
  - eapply W_mono; [eapply W_read_group; eassumption|lia..].
  - eapply W_mono; [eapply W_registers; eassumption|lia..].
  - eapply W_mono; [eapply W_regs_user; eassumption|lia..].
  - eapply W_mono; [eapply W_regs_intr; eassumption|lia..].
  - eapply W_mono; [eapply W_header; eassumption|lia..].
  - eapply W_mono; [eapply W_u8; eassumption|lia..].
  - eapply W_mono; [eapply W_u16; eassumption|lia..].
  - eapply W_mono; [eapply W_u32; eassumption|lia..].
  - eapply W_mono; [eapply W_u64; eassumption|lia..].
  - eapply W_mono; [eapply W_array; eassumption|lia..].
  - eapply W_mono; [eapply W_rest; eassumption|lia..].
  - eapply W_mono; [eapply W_string; eassumption|lia..].
  - eapply W_mono; [eapply W_ignored; eassumption|lia..].
  - eapply W_mono; [eapply W_bytes; eassumption|lia..].
  - eapply W_mono; [eapply W_split; eassumption|lia..].
  - eapply W_mono; [eapply W_slice_u64; eassumption|lia..].
  - eapply W_mono; [eapply W_slice_ns; eassumption|lia..].
  - eapply W_mono; [eapply W_slice_branch; eassumption|lia..].
Qed.

(** What a judgement says of a counted source. *)
Lemma watched_run : forall S (PB : parsebuf S) mo fin cap mem rep A rate b e k (m : M (S * N) A) p l a,
  contract PB mo fin cap mem rep -> rep (p_buf p) l a -> wf l ->
  W (fun s => rep (fst s)) snd rate b e k m ->
  exists r p' n, m (watched p) = (r, p') /\ n <= len l /\ p_off p' = p_off p + n /\
    calls_made p' <= rate * n + (match r with Ok _ => b | _ => e end) /\ len (p_log p') <= len (p_log p) + k.
Proof.
  intros S PB mo fin cap mem rep A rate b e k m p l a HC Hr Hw H.
  destruct (H (watched p) l a Hr Hw) as (r & p' & n & c & E & Hn & Ho & Hc & Hl & Hres).
  exists r, p', n. cbn [watched p_buf p_off p_log snd] in *. split; [exact E|]. split; [exact Hn|]. split; [exact Ho|].
  split; [|exact Hl]. unfold calls_made. destruct r; lia.
Qed.

Section Whole.
Context (pl : platform) (Hpl : pl_ok pl) {S : Type} (PB : parsebuf S) (mo : mode) (fin : perror) (cap : N)
  (mem : memory) (rep : S -> list N -> N -> Prop) (calls : S -> N).
Context (HC : contract PB mo fin cap mem rep) (Hcalls : counts PB calls).

Lemma record_work : forall O (V : visitor O), W rep calls 2 3 4 8 (parse_record pl PB V).
Proof.
  intros O V. rewrite record_no_hint. pose proof (record_cap pl Hpl).
  apply (W_record pl (no_hint PB) mo fin 65527 mem rep calls); try assumption; try lia.
  now apply no_hint_contract with (cap := cap).
Qed.

Lemma with_header_work : forall O (V : visitor O) h, h_size h < 65536 ->
  W rep calls 2 0 1 8 (parse_record_with_header pl PB V h).
Proof.
  intros O V h Hh. pose proof (record_cap pl Hpl).
  replace (parse_record_with_header pl PB V h) with (parse_record_with_header pl (no_hint PB) V h)
    by (unfold parse_record_with_header, parse_metadata_with_header; now rewrite split_no_hint).
  apply (W_record_with_header pl (no_hint PB) mo fin 65527 mem rep calls); try assumption; try lia.
  now apply no_hint_contract with (cap := cap).
Qed.

Lemma metadata_work : W rep calls 2 3 4 0 (parse_metadata pl PB).
Proof.
  pose proof (record_cap pl Hpl).
  replace (parse_metadata pl PB) with (parse_metadata pl (no_hint PB))
    by (unfold parse_metadata, parse_metadata_with_header; now rewrite header_no_hint, split_no_hint).
  apply (W_metadata pl (no_hint PB) mo fin 65527 mem rep calls); try assumption; try lia.
  now apply no_hint_contract with (cap := cap).
Qed.

Lemma attr_work : W rep calls 2 2 3 0 (parse_attr pl PB).
Proof.
  rewrite attr_no_hint. pose proof (record_cap pl Hpl).
  apply (W_attr pl (no_hint PB) mo fin 65527 mem rep calls); try assumption; try lia.
  now apply no_hint_contract with (cap := cap).
Qed.

(** A record has a header. *)
Lemma record_takes : forall O (V : visitor O) p l a x p', rep (p_buf p) l a -> wf l ->
  parse_record pl PB V p = (Ok x, p') -> p_off p + 8 <= p_off p'.
Proof.
  intros O V p l a x p' Hr Hw E. destruct (N.ltb_spec (len l) 8) as [Hl|Hl].
  - pose proof (C13_truncated_header pl S PB mo fin cap mem _ V p l a Hl) as H.
    rewrite E in H. cbn [fst] in H. discriminate H. exists rep. auto.
  - destruct (C01_headers_are_complete (order_of pl (c_endian (p_cfg p))) l) as (t & m & s & rest & Ht & Hm & Hs & ->);
      [apply Hw|exact Hl|].
    destruct (header_exact pl PB mo fin cap mem rep HC p t m s rest a Ht Hm Hs Hr Hw) as (p1 & E1 & Hr1 & _ & Ho1).
    unfold parse_record, bind in E. rewrite E1 in E.
    assert (Hw1 : wf rest).
    { apply (wf_drop 8) in Hw. now rewrite drop_app_exact in Hw by now rewrite w_header_len. }
    destruct (with_header_work O V (mkHeader t m s) Hs p1 rest _ Hr1 Hw1) as (r & p2 & n & c & E2 & _ & Ho2 & _).
    rewrite E in E2. injection E2 as _ <-. lia.
Qed.
End Whole.

(** Reading records until one fails, [k] of them at most. *)
Fixpoint drain (pl : platform) {S : Type} (PB : parsebuf S) {O : Type} (V : visitor O) (k : nat) (p : parser S)
  : parser S :=
  match k with
  | O => p
  | Datatypes.S k =>
      match parse_record pl PB V p with
      | (Ok _, p') => drain pl PB V k p'
      | (_, p') => p'
      end
  end.

Lemma drain_work : forall pl S (PB : parsebuf S) mo fin cap mem rep calls O (V : visitor O) k p l a,
  pl_ok pl -> contract PB mo fin cap mem rep -> counts PB calls -> rep (p_buf p) l a -> wf l ->
  let p' := drain pl PB V k p in
  exists n j new, n <= len l /\ p_off p' = p_off p + n /\ 8 * j <= n /\ j <= N.of_nat k /\
    calls (p_buf p') <= calls (p_buf p) + 2 * n + 3 * j + 4 /\
    p_log p' = new ++ p_log p /\ len new <= 8 * j + 8 /\ len new <= 8 * N.of_nat k /\
    Forall (fun x => x <= 65527) new.
Proof.
  intros pl S PB mo fin cap mem rep calls O V k p l a Hpl HC Hcalls. revert p l a.
  induction k as [|k IH]; intros p l a Hr Hw; cbn [drain].
  - exists 0, 0, []. cbn [app]. change (len (@nil N)) with 0. repeat split; try lia. constructor.
  - destruct (record_work pl Hpl PB mo fin cap mem rep calls HC Hcalls O V p l a Hr Hw)
      as (r & p1 & n & c & E & Hn & Ho & Hc & Hl & Hres).
    pose proof (record_takes pl Hpl PB mo fin cap mem rep calls HC Hcalls O V p l a) as Ht.
    destruct (C32_record pl S PB mo fin cap mem O V p l a Hpl) as (new & En & Hnew); [exists rep; auto|].
    rewrite E in *. cbn [snd] in En. rewrite En, len_app in Hl.
    destruct r as [x|e| |]; try (exists n, 0, new; repeat split; try assumption; lia).
    specialize (Ht x p1 Hr Hw eq_refl). destruct Hres as [Hr1 Hc1].
    destruct (IH p1 _ _ Hr1 (wf_drop _ _ Hw)) as (n2 & j & new2 & Hn2 & Ho2 & Hj & Hj2 & Hc2 & Hl2 & Hk2 & Hk3 & Hf2).
    rewrite len_drop in Hn2.
    exists (n + n2), (j + 1), (new2 ++ new). rewrite len_app, Hl2, En, app_assoc.
    repeat split; try lia. apply Forall_app. auto.
Qed.

(** C72.  Any parser, on any source: at most four calls for each byte taken, and 18 more. *)
Theorem C72_calls : forall pl S (PB : parsebuf S) mo fin cap mem p l a A (m : M (S * N) A),
  source PB mo fin cap mem p l a -> public pl (counted PB) A m ->
  exists r p' n, m (watched p) = (r, p') /\ n <= len l /\ p_off p' = p_off p + n /\
    calls_made p' <= 4 * n + 18.
Proof.
  intros pl S PB mo fin cap mem p l a A m (rep & HC & Hr & Hw) Hm.
  pose proof (public_work pl _ _ _ _ _ _ _ _ _ m (counted_contract _ _ _ _ _ _ _ HC) (counted_counts _ PB) Hm) as H.
  destruct (watched_run _ PB _ _ _ _ _ _ _ _ _ _ m p l a HC Hr Hw H) as (r & p' & n & E & Hn & Ho & Hc & _).
  exists r, p', n. repeat (split; [assumption|]). destruct r; lia.
Qed.

(** Records, their headers and sample ids, and attributes: two for each byte, and one more for
    each number of the header; one more again to notice the end. *)
Theorem C72_record : forall pl S (PB : parsebuf S) mo fin cap mem p l a O (V : visitor O),
  pl_ok pl -> source PB mo fin cap mem p l a ->
  exists r p' n, parse_record pl (counted PB) V (watched p) = (r, p') /\ n <= len l /\ p_off p' = p_off p + n /\
    calls_made p' <= 2 * n + match r with Ok _ => 3 | _ => 4 end.
Proof.
  intros pl S PB mo fin cap mem p l a O V Hpl (rep & HC & Hr & Hw).
  pose proof (record_work pl Hpl _ _ _ _ _ _ _ (counted_contract _ _ _ _ _ _ _ HC) (counted_counts _ PB) O V) as H.
  destruct (watched_run _ PB _ _ _ _ _ _ _ _ _ _ _ p l a HC Hr Hw H) as (r & p' & n & E & Hn & Ho & Hc & _).
  exists r, p', n. repeat (split; [assumption|]). exact Hc.
Qed.

Theorem C72_with_header : forall pl S (PB : parsebuf S) mo fin cap mem p l a O (V : visitor O) h,
  pl_ok pl -> h_size h < 2 ^ 16 -> source PB mo fin cap mem p l a ->
  exists r p' n, parse_record_with_header pl (counted PB) V h (watched p) = (r, p') /\ n <= len l /\
    p_off p' = p_off p + n /\ calls_made p' <= 2 * n + match r with Ok _ => 0 | _ => 1 end.
Proof.
  intros pl S PB mo fin cap mem p l a O V h Hpl Hh (rep & HC & Hr & Hw).
  pose proof (with_header_work pl Hpl _ _ _ _ _ _ _ (counted_contract _ _ _ _ _ _ _ HC) (counted_counts _ PB) O V h Hh) as H.
  destruct (watched_run _ PB _ _ _ _ _ _ _ _ _ _ _ p l a HC Hr Hw H) as (r & p' & n & E & Hn & Ho & Hc & _).
  exists r, p', n. repeat (split; [assumption|]). exact Hc.
Qed.

Theorem C72_metadata : forall pl S (PB : parsebuf S) mo fin cap mem p l a,
  pl_ok pl -> source PB mo fin cap mem p l a ->
  exists r p' n, parse_metadata pl (counted PB) (watched p) = (r, p') /\ n <= len l /\ p_off p' = p_off p + n /\
    calls_made p' <= 2 * n + match r with Ok _ => 3 | _ => 4 end.
Proof.
  intros pl S PB mo fin cap mem p l a Hpl (rep & HC & Hr & Hw).
  pose proof (metadata_work pl Hpl _ _ _ _ _ _ _ (counted_contract _ _ _ _ _ _ _ HC) (counted_counts _ PB)) as H.
  destruct (watched_run _ PB _ _ _ _ _ _ _ _ _ _ _ p l a HC Hr Hw H) as (r & p' & n & E & Hn & Ho & Hc & _).
  exists r, p', n. repeat (split; [assumption|]). exact Hc.
Qed.

Theorem C72_attr : forall pl S (PB : parsebuf S) mo fin cap mem p l a,
  pl_ok pl -> source PB mo fin cap mem p l a ->
  exists r p' n, parse_attr pl (counted PB) (watched p) = (r, p') /\ n <= len l /\ p_off p' = p_off p + n /\
    calls_made p' <= 2 * n + match r with Ok _ => 2 | _ => 3 end.
Proof.
  intros pl S PB mo fin cap mem p l a Hpl (rep & HC & Hr & Hw).
  pose proof (attr_work pl Hpl _ _ _ _ _ _ _ (counted_contract _ _ _ _ _ _ _ HC) (counted_counts _ PB)) as H.
  destruct (watched_run _ PB _ _ _ _ _ _ _ _ _ _ _ p l a HC Hr Hw H) as (r & p' & n & E & Hn & Ho & Hc & _).
  exists r, p', n. repeat (split; [assumption|]). exact Hc.
Qed.

(** A whole recording of [j] records: no more than that for all of them together.  [j] is at most
    an eighth of the bytes, and there are at most eight reservations for each. *)
Theorem C72_recording : forall pl S (PB : parsebuf S) mo fin cap mem p l a O (V : visitor O) k,
  pl_ok pl -> source PB mo fin cap mem p l a ->
  let p' := drain pl (counted PB) V k (watched p) in
  exists n j new, n <= len l /\ p_off p' = p_off p + n /\ 8 * j <= n /\ j <= N.of_nat k /\
    calls_made p' <= 2 * n + 3 * j + 4 /\
    reserved p p' new /\ len new <= 8 * j + 8 /\ len new <= 8 * N.of_nat k /\ Forall (fun x => x <= 65527) new.
Proof.
  intros pl S PB mo fin cap mem p l a O V k Hpl (rep & HC & Hr & Hw) p'.
  exact (drain_work pl _ (counted PB) mo fin cap mem _ snd O V k (watched p) l a Hpl
    (counted_contract _ _ _ _ _ _ _ HC) (counted_counts _ PB) Hr Hw).
Qed.

Lemma header_log : forall pl S (PB : parsebuf S) mo fin cap mem rep p l a,
  contract PB mo fin cap mem rep -> rep (p_buf p) l a -> wf l ->
  p_log (snd (parse_header pl PB p)) = p_log p.
Proof.
  intros pl S PB mo fin cap mem rep p l a HC Hr Hw.
  destruct (W_header pl PB mo fin cap mem rep (fun _ => 0) HC (zero_counts _ _) p l a Hr Hw)
    as (r & p1 & n & c & E & _ & _ & _ & Hl & _).
  assert (Hr' : rep (p_buf p) l (a + 0)) by now rewrite N.add_0_r.
  destruct (s_header pl PB mo fin cap mem rep a HC p l 0 Hr' Hw) as (r' & p1' & l' & pos' & E' & _ & Hs).
  rewrite E in *. injection E' as <- <-. cbn [snd].
  destruct (st_log _ _ _ _ _ _ _ _ _ Hs) as (new & En & _). rewrite En, len_app in Hl.
  destruct new as [|x new]; [exact En|]. rewrite len_cons in Hl. lia.
Qed.

(** One record: eight reservations at most, each within what the header gives for the body. *)
Theorem C72_reservations : forall pl S (PB : parsebuf S) mo fin cap mem p t m size rest a O (V : visitor O),
  let o := order_of pl (c_endian (p_cfg p)) in
  pl_ok pl -> t < 2 ^ 32 -> m < 2 ^ 16 -> size < 2 ^ 16 ->
  source PB mo fin cap mem p (w_header o t m size ++ rest) a ->
  exists new, reserved p (snd (parse_record pl PB V p)) new /\ len new <= 8 /\ Forall (fun n => n <= size - 8) new.
Proof.
  intros pl S PB mo fin cap mem p t m size rest a O V o Hpl Ht Hm Hs Hsrc.
  destruct Hsrc as (rep & HC & Hr & Hw).
  destruct (header_exact pl PB mo fin cap mem rep HC p t m size rest a Ht Hm Hs Hr Hw) as (p1 & E1 & Hr1 & Hc1 & Ho1).
  pose proof (header_log pl S PB mo fin cap mem rep p _ a HC Hr Hw) as Elog. rewrite E1 in Elog. cbn [snd] in Elog.
  assert (Hw1 : wf rest).
  { apply (wf_drop 8) in Hw. now rewrite drop_app_exact in Hw by now rewrite w_header_len. }
  assert (Hr1' : rep (p_buf p1) rest (a + 8 + 0)) by now rewrite N.add_0_r.
  pose proof (record_cap pl Hpl) as Hcap.
  pose proof (s_collect_with_header pl (no_hint PB) mo fin (size - 8) mem rep (a + 8)
    (no_hint_contract _ PB mo fin cap (size - 8) mem rep HC) ltac:(lia) (mkHeader t m size)
    ltac:(cbn [h_size]; lia) p1 rest 0 Hr1' Hw1) as (r & p2 & l' & pos' & E2 & _ & Hst).
  rewrite <- collect_header_no_hint in E2.
  destruct (st_log _ _ _ _ _ _ _ _ _ Hst) as (new & En & Hf).
  assert (E : snd (parse_record pl PB V p) = p2).
  { unfold parse_record, bind. rewrite E1. rewrite record_with_header_eq. unfold bind, lift. rewrite E2.
    destruct r; reflexivity. }
  exists new. unfold reserved. rewrite E, En, Elog. split; [reflexivity|]. split; [|exact Hf].
  destruct (record_work pl Hpl PB mo fin cap mem rep (fun _ => 0) HC (zero_counts _ _) O V p _ a Hr Hw)
    as (r' & p1' & n & c & E3 & _ & _ & _ & Hl & _).
  rewrite E3 in E. cbn [snd] in E. subst p1'. rewrite En, Elog, len_app in Hl. lia.
Qed.

(** With less than a header there is nothing to reserve for. *)
Theorem C72_no_header : forall pl S (PB : parsebuf S) mo fin cap mem p l a O (V : visitor O),
  source PB mo fin cap mem p l a -> len l < 8 ->
  p_log (snd (parse_record pl PB V p)) = p_log p.
Proof.
  intros pl S PB mo fin cap mem p l a O V Hs Hl.
  destruct (short_header pl S PB mo fin cap mem p l a Hl Hs) as (p' & E).
  destruct Hs as (rep & HC & Hr & Hw). pose proof (header_log pl S PB mo fin cap mem rep p l a HC Hr Hw) as Elog.
  unfold parse_record, bind. now rewrite E in *.
Qed.

(** A LOST record of 40 bytes: eight calls from memory, 2 * 40 + 3 one byte at a time; and two of
    them in a recording. *)
Definition one_by_one (l : list N) : parser bufreader := reader_of (map (fun b => [b]) l) ex_cfg.

Lemma one_by_one_source : forall l, bytes l -> len l < 2 ^ 64 ->
  source bufreader_buf NoExt eof_error 16384 (fun _ => 0) (one_by_one l) l 0.
Proof.
  intros l Hb Hl. assert (E : concat (map (fun b => [b]) l) = l).
  { clear. induction l as [|b l IH]; [reflexivity|]. cbn. now rewrite IH. }
  pose proof (reader_source [] (map (fun b => [b]) l) None ex_cfg 16384 (fun _ => 0)) as H.
  cbn [app] in H. rewrite E in H. apply H; try assumption; [lia|].
  apply Forall_forall. intros x Hx. apply in_map_iff in Hx as (b & <- & _). discriminate.
Qed.

Example C72_example :
  source bufreader_buf NoExt eof_error 16384 (fun _ => 0) (one_by_one ex_lost) ex_lost 0 /\
  source bufreader_buf NoExt eof_error 16384 (fun _ => 0) (one_by_one (ex_lost ++ ex_lost)) (ex_lost ++ ex_lost) 0 /\
  let one := parse_record pl64 (counted bufreader_buf) record_visitor (watched (one_by_one ex_lost)) in
  let all := parse_record pl64 (counted slice_buf) record_visitor (watched (on_slice 4096 ex_lost ex_cfg)) in
  let two := drain pl64 (counted bufreader_buf) record_visitor 5 (watched (one_by_one (ex_lost ++ ex_lost))) in
  len ex_lost = 40 /\ p_off (snd one) = 40 /\
  calls_made (snd one) = 83 /\ calls_made (snd all) = 8 /\ p_off two = 80 /\ calls_made two = 167.
Proof.
  split; [apply one_by_one_source; [repeat constructor|reflexivity]|].
  split; [apply one_by_one_source; [repeat constructor|reflexivity]|].
  vm_compute. repeat split.
Qed.

(** A sample with each of the parts that take memory: eight reservations. *)
Definition heavy_cfg : config :=
  mkConfig (cf_new 8 (2 ^ 4 + 2 ^ 5 + 2 ^ 10 + 2 ^ 11 + 2 ^ 12 + 2 ^ 13 + 2 ^ 18 + 2 ^ 20) false false 0) 1 1 Little.
Definition heavy : list N :=
  let w x := w64 LE x in
  let body := w 1 ++ w 17 ++                          (* READ, a group of one *)
              w 1 ++ w 18 ++                          (* CALLCHAIN *)
              w32 LE 4 ++ w32 LE 19 ++                (* RAW *)
              w 1 ++ w 20 ++ w 21 ++ w 22 ++          (* BRANCH_STACK *)
              w 2 ++ w 23 ++                          (* REGS_USER *)
              w 8 ++ w 24 ++ w 8 ++                   (* STACK_USER *)
              w 2 ++ w 25 ++                          (* REGS_INTR *)
              w 8 ++ w 26 in                          (* AUX *)
  w_header LE 9 0 (8 + len body) ++ body.

Example C72_example_reservations :
  source bufreader_buf NoExt eof_error 16384 (fun _ => 0) (one_by_one heavy) heavy 0 /\
  let run := parse_record pl64 bufreader_buf record_visitor
               (new_parser (mkReader [] (map (fun b => [b]) heavy) None) heavy_cfg) in
  (exists r, fst run = Ok r) /\ len heavy = 152 /\ p_off (snd run) = 152 /\ p_log (snd run) = [8; 8; 8; 8; 24; 4; 8; 8].
Proof.
  split; [apply one_by_one_source; [repeat constructor|reflexivity]|]. split; [eexists; vm_compute; reflexivity|].
  vm_compute. repeat split.
Qed.

Print Assumptions C72_calls.
Print Assumptions C72_record.
Print Assumptions C72_with_header.
Print Assumptions C72_metadata.
Print Assumptions C72_attr.
Print Assumptions C72_recording.
Print Assumptions C72_reservations.
Print Assumptions C72_no_header.
