(** Whole records do not look at the hint of the buffer they come from: it is the
    record's own cursor that bounds what is reserved. *)
From Coq Require Import NArith List Bool Lia.
From Verif Require Import Base BaseFacts Types Platform Config Buf Parser Contract Flat Refine.
From Verif Require Import Instances Prims Slices Records Sample Record Attr Views RefRecords.
From Verif Require Import RefFrame RefTop Safe.
Import ListNotations.
Open Scope N_scope.

Definition no_hint {S : Type} (PB : parsebuf S) : parsebuf S :=
  mkBuf (pb_chunk PB) (pb_advance PB) (fun _ => Some 0).

Lemma no_hint_contract : forall S (PB : parsebuf S) mo fin cap cap' mem rep,
  contract PB mo fin cap mem rep -> contract (no_hint PB) mo fin cap' mem rep.
Proof.
  intros S PB mo fin cap cap' mem rep H. constructor.
  - exact (ct_empty H).
  - exact (ct_chunk H).
  - intros s l a h _ E. injection E as <-. lia.
  - discriminate.
Qed.

Lemma chunk_no_hint : forall S (PB : parsebuf S), m_chunk (no_hint PB) = m_chunk PB.
Proof. reflexivity. Qed.
Lemma advance_no_hint : forall S (PB : parsebuf S), m_advance (no_hint PB) = m_advance PB.
Proof. reflexivity. Qed.
Lemma array_no_hint : forall S (PB : parsebuf S), parse_array (no_hint PB) = parse_array PB.
Proof.
  intros. unfold parse_array, parse_to_slice. now rewrite chunk_no_hint, advance_no_hint.
Qed.
Lemma split_no_hint : forall S (PB : parsebuf S), split_at (no_hint PB) = split_at PB.
Proof. intros. unfold split_at, cursor_new. now rewrite chunk_no_hint, advance_no_hint. Qed.

Lemma header_no_hint : forall pl S (PB : parsebuf S),
  parse_header pl (no_hint PB) = parse_header pl PB.
Proof. intros. unfold parse_header, parse_u16, parse_u32. now rewrite array_no_hint. Qed.

Lemma collect_no_hint : forall pl S (PB : parsebuf S), collect pl PB = collect pl (no_hint PB).
Proof.
  intros. unfold collect, collect_with_header, parse_metadata_with_header.
  now rewrite header_no_hint, split_no_hint.
Qed.

Lemma record_no_hint : forall pl S (PB : parsebuf S) O (V : visitor O),
  parse_record pl PB V = parse_record pl (no_hint PB) V.
Proof.
  intros. unfold parse_record, parse_record_with_header, parse_metadata_with_header.
  now rewrite header_no_hint, split_no_hint.
Qed.

Lemma attr_no_hint : forall pl S (PB : parsebuf S), parse_attr pl PB = parse_attr pl (no_hint PB).
Proof.
  intros. unfold parse_attr, parse_u32. now rewrite array_no_hint, split_no_hint.
Qed.

Lemma record_cap : forall pl, pl_ok pl -> 65536 <= isize_max pl.
Proof. intros pl [E|E]; unfold isize_max; rewrite E; vm_compute; discriminate. Qed.

Section Top.
Context (pl : platform) {S : Type} (PB : parsebuf S) (mo : mode) (fin : perror) (cap : N)
  (mem : memory) (rep : S -> list N -> N -> Prop) (a0 : N).
Context (HC : contract PB mo fin cap mem rep) (Hpl : pl_ok pl).

Lemma collect_safe : Safe.Safe fin 65527 rep a0 (fun r => body_wf (fst r)) (collect pl PB).
Proof.
  rewrite collect_no_hint. pose proof (record_cap pl Hpl).
  apply (s_collect pl (no_hint PB) mo fin 65527 mem rep a0); try assumption; try lia.
  now apply no_hint_contract with (cap := cap).
Qed.

Lemma record_safe : forall O (V : visitor O) p l pos, rep (p_buf p) l (a0 + pos) -> wf l ->
  exists r p' l' pos', parse_record pl PB V p = (r, p') /\
    step 65527 rep a0 p l pos p' l' pos' /\
    ((exists b md, r = deliver V b md /\ body_wf b) \/ (exists e, r = Err e /\ err_ok fin e)).
Proof.
  intros O V p l pos. rewrite record_no_hint. pose proof (record_cap pl Hpl).
  apply (s_record pl (no_hint PB) mo fin 65527 mem rep a0); try assumption; try lia.
  now apply no_hint_contract with (cap := cap).
Qed.

Lemma attr_safe : Safe.Safe fin 0 rep a0 any (parse_attr pl PB).
Proof.
  rewrite attr_no_hint.
  apply (s_attr pl (no_hint PB) mo fin 0 mem rep a0); try assumption.
  now apply no_hint_contract with (cap := cap).
Qed.

Lemma collect_ref : Ref mo fin 65536 rep a0 (rel_record mo mem pl) (collect pl PB) (f_record pl).
Proof.
  rewrite collect_no_hint. pose proof (record_cap pl Hpl).
  apply (Ref_collect pl (no_hint PB) mo fin 65536 mem rep a0); try assumption; try lia.
  now apply no_hint_contract with (cap := cap).
Qed.

Lemma record_flat : forall O (V : visitor O) p l pos, rep (p_buf p) l (a0 + pos) -> wf l ->
  match f_record pl (mkEnv (p_cfg p) fin) l pos with
  | FOk (b, md) l' pos' ev =>
      Forall (ev_ok mo a0) ev ->
      exists bc p', parse_record pl PB V p = (deliver V bc md, p') /\
        view_body bc = b /\ ok_body mo mem pl bc /\ step 65536 rep a0 p l pos p' l' pos'
  | FErr e l' pos' ev =>
      Forall (ev_ok mo a0) ev ->
      exists p', parse_record pl PB V p = (Err e, p') /\ step 65536 rep a0 p l pos p' l' pos'
  end.
Proof.
  intros O V. rewrite record_no_hint. pose proof (record_cap pl Hpl).
  apply (record_spec pl (no_hint PB) mo fin 65536 mem rep a0); try assumption; try lia.
  now apply no_hint_contract with (cap := cap).
Qed.

Lemma attr_ref : Ref mo fin 0 rep a0 eq (parse_attr pl PB) (f_attr pl).
Proof.
  rewrite attr_no_hint.
  apply (Ref_attr pl (no_hint PB) mo fin 0 mem rep a0); try assumption.
  now apply no_hint_contract with (cap := cap).
Qed.
End Top.
