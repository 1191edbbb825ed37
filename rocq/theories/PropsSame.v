(** Theorems: the result depends on the bytes of the record only (C03, C40, C42). *)
From Coq Require Import NArith List Bool Wf_nat Lia.
From Verif Require Import Base BaseFacts Types Platform Config Buf Parser Contract Flat Refine.
From Verif Require Import Instances Prims Slices Records Sample Record Attr Views RefRecords.
From Verif Require Import RefFrame RefTop Wire Codec ConfFacts Spec NoHint FrameFacts SliceExact.
From Verif Require Import SliceRecord SameFacts Copied Placed.
From Verif Require Import ExData PropsFrame.
Import ListNotations.
Open Scope N_scope.

(** What a call of [parse_record] amounts to, whatever the visitor: an error, or
    a body and metadata to be given to the visitor. *)
Definition result : Type := (perror + body cow * metadata)%type.

Definition gives (pl : platform) {S : Type} (PB : parsebuf S) (p : parser S) (r : result)
  (p' : parser S) : Prop :=
  forall O (V : visitor O), parse_record pl PB V p =
    (match r with inl e => Err e | inr (b, md) => answer V b md end, p').

(** Equal up to where the bytes of the fields are held. *)
Definition same_result (x y : result) : Prop :=
  match x, y with
  | inl e, inl e' => e = e'
  | inr (b, md), inr (b', md') => view_body b = view_body b' /\ md = md'
  | _, _ => False
  end.

Lemma gives_flat : forall pl S (PB : parsebuf S) mo fin cap mem p l a,
  pl_ok pl -> source PB mo fin cap mem p l a -> tame pl (p_cfg p) mo a l ->
  match f_record pl (mkEnv (p_cfg p) fin) l 0 with
  | FOk (b, md) _ n _ => exists bc p', gives pl PB p (inr (bc, md)) p' /\ view_body bc = b /\
      moved PB mo fin cap mem l a p n p'
  | FErr e _ n _ => exists p', gives pl PB p (inl e) p' /\ moved PB mo fin cap mem l a p n p'
  end.
Proof.
  intros pl S PB mo fin cap mem p l a Hpl (rep & HC & Hr & Hw) Ht.
  pose proof (record_events pl mo a (mkEnv (p_cfg p) fin) l Ht) as Hev.
  pose proof (collect_ref pl PB mo fin cap mem rep a HC Hpl) as HR.
  destruct (f_record pl (mkEnv (p_cfg p) fin) l 0) as [[b md] l' n ev|e l' n ev] eqn:E.
  - destruct (run_ok mo fin 65536 rep _ _ _ _ _ _ _ _ _ _ _ _ HR Hr Hw E Hev)
      as ([bc md'] & p' & Ep & [[H1 H2] H3] & Hs). cbn [fst snd] in *. subst md'.
    exists bc, p'. split; [|split; [exact H1|eapply step_moved; eassumption]].
    intros O V. rewrite record_eq. unfold bind. rewrite Ep. cbn [fst snd]. now rewrite deliver_answer.
  - destruct (run_err mo fin 65536 rep _ _ _ _ _ _ _ _ _ _ _ _ HR Hr Hw E Hev) as (p' & Ep & Hs).
    exists p'. split; [|eapply step_moved; eassumption].
    intros O V. rewrite record_eq. unfold bind. now rewrite Ep.
Qed.

(** ** C03: the same bytes give the same result and the same progress.

    Full statement: without [tame], for all pairs of sources with the same bytes.
    [tame] (SameFacts.v) leaves out, for each of the sources:
    - TEXT_POKE records with an empty part when the bytes come in pieces;
    - arrays of the host's byte order in a chunk lent at a misaligned address,
      which it rules out by asking for an aligned record and no registers after
      a user stack.
    Both exclusions are needed, see the theorems below. *)
Theorem C03_same_bytes_partial :
  forall pl c l fin S1 (PB1 : parsebuf S1) mo1 cap1 mem1 p1 a1 S2 (PB2 : parsebuf S2) mo2 cap2 mem2 p2 a2,
  pl_ok pl -> p_cfg p1 = c -> p_cfg p2 = c ->
  source PB1 mo1 fin cap1 mem1 p1 l a1 -> source PB2 mo2 fin cap2 mem2 p2 l a2 ->
  tame pl c mo1 a1 l -> tame pl c mo2 a2 l ->
  exists n r1 r2 p1' p2',
    gives pl PB1 p1 r1 p1' /\ gives pl PB2 p2 r2 p2' /\ same_result r1 r2 /\
    moved PB1 mo1 fin cap1 mem1 l a1 p1 n p1' /\ moved PB2 mo2 fin cap2 mem2 l a2 p2 n p2'.
Proof.
  intros pl c l fin S1 PB1 mo1 cap1 mem1 p1 a1 S2 PB2 mo2 cap2 mem2 p2 a2 Hpl E1 E2 H1 H2 T1 T2.
  rewrite <- E1 in T1. rewrite <- E2 in T2.
  pose proof (gives_flat pl S1 PB1 mo1 fin cap1 mem1 p1 l a1 Hpl H1 T1) as G1.
  pose proof (gives_flat pl S2 PB2 mo2 fin cap2 mem2 p2 l a2 Hpl H2 T2) as G2.
  rewrite E1 in G1. rewrite E2 in G2.
  destruct (f_record pl (mkEnv c fin) l 0) as [[b md] l' n ev|e l' n ev].
  - destruct G1 as (b1 & p1' & A1 & B1 & C1). destruct G2 as (b2 & p2' & A2 & B2 & C2).
    exists n, (inr (b1, md)), (inr (b2, md)), p1', p2'. split; [exact A1|]. split; [exact A2|].
    split; [split; congruence|]. split; [exact C1|exact C2].
  - destruct G1 as (p1' & A1 & C1). destruct G2 as (p2' & A2 & C2).
    exists n, (inl e), (inl e), p1', p2'. split; [exact A1|]. split; [exact A2|].
    split; [reflexivity|]. split; [exact C1|exact C2].
Qed.

(** When arrays are copied, because the data is of the other byte order, nothing
    is left out but TEXT_POKE. *)
Theorem C03_foreign_order :
  forall pl c l fin S1 (PB1 : parsebuf S1) mo1 cap1 mem1 p1 a1 S2 (PB2 : parsebuf S2) mo2 cap2 mem2 p2 a2,
  let o := order_of pl (c_endian c) in
  pl_ok pl -> p_cfg p1 = c -> p_cfg p2 = c -> o <> pl_host pl ->
  from_order o (take 4 l) <> 20 \/ two_parts o l ->
  source PB1 mo1 fin cap1 mem1 p1 l a1 -> source PB2 mo2 fin cap2 mem2 p2 l a2 ->
  exists n r1 r2 p1' p2',
    gives pl PB1 p1 r1 p1' /\ gives pl PB2 p2 r2 p2' /\ same_result r1 r2 /\
    moved PB1 mo1 fin cap1 mem1 l a1 p1 n p1' /\ moved PB2 mo2 fin cap2 mem2 l a2 p2 n p2'.
Proof.
  intros pl c l fin S1 PB1 mo1 cap1 mem1 p1 a1 S2 PB2 mo2 cap2 mem2 p2 a2 o Hpl E1 E2 Ho Ht H1 H2.
  eapply C03_same_bytes_partial; try eassumption.
  all: split; [cbv zeta; fold o; intros E; destruct Ht; [contradiction|auto]|right; left; exact Ho].
Qed.

(** Sources that never lend memory, like readers: nothing at all is left out. *)

Lemma gives_copied : forall pl S (PB : parsebuf S) fin cap mem p l a,
  pl_ok pl -> source PB NoExt fin cap mem p l a ->
  match f_record_copied pl (mkEnv (p_cfg p) fin) l 0 with
  | FOk (b, md) _ n _ => exists bc p', gives pl PB p (inr (bc, md)) p' /\ view_body bc = b /\
      moved PB NoExt fin cap mem l a p n p'
  | FErr e _ n _ => exists p', gives pl PB p (inl e) p' /\ moved PB NoExt fin cap mem l a p n p'
  end.
Proof.
  intros pl S PB fin cap mem p l a Hpl (rep & HC & Hr & Hw).
  pose proof (copied_events pl a (mkEnv (p_cfg p) fin) l) as Hev.
  pose proof (collect_copied pl S PB fin cap mem rep a Hpl HC) as HR.
  destruct (f_record_copied pl (mkEnv (p_cfg p) fin) l 0) as [[b md] l' n ev|e l' n ev] eqn:E.
  - destruct (run_ok NoExt fin 65536 rep _ _ _ _ _ _ _ _ _ _ _ _ HR Hr Hw E Hev)
      as ([bc md'] & p' & Ep & [H1 H3] & Hs). cbn [fst snd] in *. subst md'.
    exists bc, p'. split; [|split; [exact H1|eapply step_moved; eassumption]].
    intros O V. rewrite record_eq. unfold bind. rewrite Ep. cbn [fst snd]. now rewrite deliver_answer.
  - destruct (run_err NoExt fin 65536 rep _ _ _ _ _ _ _ _ _ _ _ _ HR Hr Hw E Hev) as (p' & Ep & Hs).
    exists p'. split; [|eapply step_moved; eassumption].
    intros O V. rewrite record_eq. unfold bind. now rewrite Ep.
Qed.

Theorem C03_copied :
  forall pl c l fin S1 (PB1 : parsebuf S1) cap1 mem1 p1 a1 S2 (PB2 : parsebuf S2) cap2 mem2 p2 a2,
  pl_ok pl -> p_cfg p1 = c -> p_cfg p2 = c ->
  source PB1 NoExt fin cap1 mem1 p1 l a1 -> source PB2 NoExt fin cap2 mem2 p2 l a2 ->
  exists n r1 r2 p1' p2',
    gives pl PB1 p1 r1 p1' /\ gives pl PB2 p2 r2 p2' /\ same_result r1 r2 /\
    moved PB1 NoExt fin cap1 mem1 l a1 p1 n p1' /\ moved PB2 NoExt fin cap2 mem2 l a2 p2 n p2'.
Proof.
  intros pl c l fin S1 PB1 cap1 mem1 p1 a1 S2 PB2 cap2 mem2 p2 a2 Hpl E1 E2 H1 H2.
  pose proof (gives_copied pl S1 PB1 fin cap1 mem1 p1 l a1 Hpl H1) as G1.
  pose proof (gives_copied pl S2 PB2 fin cap2 mem2 p2 l a2 Hpl H2) as G2.
  rewrite E1 in G1. rewrite E2 in G2.
  destruct (f_record_copied pl (mkEnv c fin) l 0) as [[b md] l' n ev|e l' n ev].
  - destruct G1 as (b1 & p1' & A1 & B1 & C1). destruct G2 as (b2 & p2' & A2 & B2 & C2).
    exists n, (inr (b1, md)), (inr (b2, md)), p1', p2'. split; [exact A1|]. split; [exact A2|].
    split; [split; congruence|]. split; [exact C1|exact C2].
  - destruct G1 as (p1' & A1 & C1). destruct G2 as (p2' & A2 & C2).
    exists n, (inl e), (inl e), p1', p2'. split; [exact A1|]. split; [exact A2|].
    split; [reflexivity|]. split; [exact C1|exact C2].
Qed.

(** One call after the other, failed ones included. *)
Fixpoint run_gives (pl : platform) {S : Type} (PB : parsebuf S) (p : parser S) (rs : list result)
  (p' : parser S) : Prop :=
  match rs with
  | [] => p' = p
  | r :: t => exists p1, gives pl PB p r p1 /\ run_gives pl PB p1 t p'
  end.

Theorem C03_copied_stream :
  forall pl c k l fin S1 (PB1 : parsebuf S1) cap1 mem1 p1 a1 S2 (PB2 : parsebuf S2) cap2 mem2 p2 a2,
  pl_ok pl -> p_cfg p1 = c -> p_cfg p2 = c ->
  source PB1 NoExt fin cap1 mem1 p1 l a1 -> source PB2 NoExt fin cap2 mem2 p2 l a2 ->
  exists n rs1 rs2 p1' p2', length rs1 = k /\
    run_gives pl PB1 p1 rs1 p1' /\ run_gives pl PB2 p2 rs2 p2' /\ Forall2 same_result rs1 rs2 /\
    moved PB1 NoExt fin cap1 mem1 l a1 p1 n p1' /\ moved PB2 NoExt fin cap2 mem2 l a2 p2 n p2'.
Proof.
  intros pl c k. induction k as [|k IH];
    intros l fin S1 PB1 cap1 mem1 p1 a1 S2 PB2 cap2 mem2 p2 a2 Hpl E1 E2 H1 H2.
  - exists 0, [], [], p1, p2. split; [reflexivity|]. split; [reflexivity|]. split; [reflexivity|].
    split; [constructor|]. unfold moved. rewrite drop_0, !N.add_0_r.
    split; (split; [lia|]; split; [assumption|]; split; reflexivity).
  - destruct (C03_copied pl c l fin S1 PB1 cap1 mem1 p1 a1 S2 PB2 cap2 mem2 p2 a2 Hpl E1 E2 H1 H2)
      as (n & r1 & r2 & q1 & q2 & G1 & G2 & Hr & (L1 & M1 & C1 & O1) & (L2 & M2 & C2 & O2)).
    destruct (IH (drop n l) fin S1 PB1 cap1 mem1 q1 (a1 + n) S2 PB2 cap2 mem2 q2 (a2 + n) Hpl
      ltac:(congruence) ltac:(congruence) M1 M2)
      as (n' & rs1 & rs2 & p1' & p2' & Hk & R1 & R2 & Hs & (L1' & M1' & C1' & O1') & (L2' & M2' & C2' & O2')).
    rewrite len_drop in L1', L2'. rewrite drop_drop in M1', M2'.
    exists (n + n'), (r1 :: rs1), (r2 :: rs2), p1', p2'. split; [cbn; congruence|].
    split; [exists q1; auto|]. split; [exists q2; auto|]. split; [now constructor|].
    split; (split; [lia|]; split; [rewrite N.add_assoc; assumption|]; split; [congruence|lia]).
Qed.

(** The same bytes in two lists of pieces, cut anywhere. *)
Lemma pieces_source : forall ls c, bytes (concat ls) -> len (concat ls) < 2 ^ 64 ->
  Forall (fun d => d <> []) ls ->
  source chunklist_buf NoExt eof_error 16384 (fun _ => 0) (new_parser (map Temporary ls) c) (concat ls) 0.
Proof.
  intros ls c Hb Hl Hne.
  assert (Ed : concat (map chunk_data (map Temporary ls)) = concat ls)
    by (rewrite map_map; cbn; now rewrite map_id).
  pose proof (chunks_source (map Temporary ls) c NoExt 16384 (fun _ => 0) 0 (N.le_refl _)) as G.
  rewrite Ed in G. apply G; try assumption.
  clear - Hne. generalize 0 at 2. induction Hne as [|d t Hd Ht IH]; intros a; [exact I|].
  cbn. split; [exact Hd|]. split; [discriminate|apply IH].
Qed.

(** What is still to come is what the list holds. *)
Lemma pieces_left : forall mo fin cap mem p l a,
  source chunklist_buf mo fin cap mem p l a -> concat (map chunk_data (p_buf p)) = l.
Proof.
  intros mo fin cap mem p l a (rep & HC & Hr & _).
  assert (D0 : forall t, concat (map chunk_data (chunklist_drop 0 t)) = concat (map chunk_data t)).
  { induction t as [|c t IH]; [reflexivity|]. cbn [chunklist_drop].
    destruct (N.ltb_spec 0 (len (chunk_data c))) as [H|H].
    - cbn [map concat]. now rewrite chunk_drop_data, drop_0.
    - cbn [map concat]. rewrite N.sub_0_l, IH. apply N.le_0_r, len_0 in H. now rewrite H. }
  revert a Hr. generalize (p_buf p). induction l as [l IH] using (induction_ltof1 _ (@length N)).
  unfold ltof in IH. intros s a Hr. destruct l as [|y l].
  - destruct (ct_empty HC _ _ Hr) as (s' & E & _). destruct s; [reflexivity|discriminate].
  - destruct (ct_chunk HC _ _ _ Hr) as (c & s' & E & Hr' & Hne & (r & El) & _ & Hadv); [discriminate|].
    destruct s as [|c0 t]; [discriminate|]. injection E as -> <-.
    destruct (Hadv _ (N.le_refl _)) as (s2 & E2 & Hr2). injection E2 as <-.
    cbn [chunklist_drop] in Hr2. rewrite N.ltb_irrefl, N.sub_diag in Hr2.
    rewrite El, drop_app_exact in Hr2 by reflexivity.
    cbn [map concat]. rewrite El, <- D0. f_equal. apply (IH r) in Hr2; [exact Hr2|].
    rewrite El, app_length. destruct (chunk_data c); [now elim Hne|cbn; lia].
Qed.

Theorem C03_pieces : forall pl c k ls1 ls2, pl_ok pl ->
  concat ls1 = concat ls2 -> bytes (concat ls1) -> len (concat ls1) < 2 ^ 64 ->
  Forall (fun d => d <> []) ls1 -> Forall (fun d => d <> []) ls2 ->
  exists rs1 rs2 p1' p2', length rs1 = k /\
    run_gives pl chunklist_buf (new_parser (map Temporary ls1) c) rs1 p1' /\
    run_gives pl chunklist_buf (new_parser (map Temporary ls2) c) rs2 p2' /\
    Forall2 same_result rs1 rs2 /\ p_off p1' = p_off p2' /\
    concat (map chunk_data (p_buf p1')) = drop (p_off p1') (concat ls1) /\
    concat (map chunk_data (p_buf p2')) = drop (p_off p2') (concat ls2).
Proof.
  intros pl c k ls1 ls2 Hpl E Hb Hl F1 F2.
  pose proof (pieces_source ls1 c Hb Hl F1) as S1.
  assert (S2 := pieces_source ls2 c). rewrite <- E in S2. specialize (S2 Hb Hl F2).
  destruct (C03_copied_stream pl c k (concat ls1) eof_error _ chunklist_buf 16384 (fun _ => 0)
    (new_parser (map Temporary ls1) c) 0 _ chunklist_buf 16384 (fun _ => 0) (new_parser (map Temporary ls2) c) 0
    Hpl eq_refl eq_refl S1 S2)
    as (n & rs1 & rs2 & p1' & p2' & Hk & R1 & R2 & Hs & (L1 & M1 & C1 & O1) & (L2 & M2 & C2 & O2)).
  exists rs1, rs2, p1', p2'. split; [exact Hk|]. split; [exact R1|]. split; [exact R2|].
  split; [exact Hs|]. cbn [p_off new_parser] in *. rewrite O1, O2. split; [reflexivity|].
  rewrite <- E. split; eapply pieces_left; eassumption.
Qed.

(** Full statement: without [tame].  Pieces lent from anywhere in memory, like those of the
    buffer in the crate's own tests, against one contiguous piece. *)
Theorem C03_lent_pieces_partial : forall pl c cs mem d a, pl_ok pl ->
  d = concat (map chunk_data cs) -> bytes d -> len d < 2 ^ 64 ->
  Forall (fun k => chunk_data k <> []) cs ->
  (forall x e, In (External x e) cs -> mem_at mem x e) ->
  tame pl c AnyExt 0 d -> tame pl c Whole a d ->
  exists r1 r2 p1' p2',
    gives pl chunklist_buf (new_parser cs c) r1 p1' /\ gives pl slice_buf (on_slice a d c) r2 p2' /\
    same_result r1 r2 /\ p_off p1' = p_off p2' /\
    concat (map chunk_data (p_buf p1')) = drop (p_off p1') d.
Proof.
  intros pl c cs mem d a Hpl Ed Hb Hl Hne Hm T1 T2.
  assert (S1 : source chunklist_buf AnyExt eof_error 16384 mem (new_parser cs c) d 0).
  { subst d. apply chunks_source; try assumption; [lia|]. clear - Hne Hm. generalize 0.
    induction Hne as [|k t Hk Ht IH]; intros b; [exact I|]. cbn [list_ok]. split; [exact Hk|].
    split; [|apply IH; intros x e Hx; apply Hm; right; exact Hx].
    destruct k as [e|x e]; [discriminate|]. split; [apply Hm; left; reflexivity|exact I]. }
  assert (S2 : source slice_buf Whole eof_error (len d) (memory_of a d) (on_slice a d c) d a)
    by (apply slice_source; [exact Hb|exact Hl|lia|apply memory_of_at]).
  destruct (C03_same_bytes_partial pl c d eof_error _ chunklist_buf AnyExt _ _ (new_parser cs c) 0
      _ slice_buf Whole _ _ (on_slice a d c) a Hpl eq_refl eq_refl S1 S2 T1 T2)
    as (n & r1 & r2 & p1' & p2' & G1 & G2 & Hs & (_ & M1 & _ & O1) & (_ & M2 & _ & O2)).
  exists r1, r2, p1', p2'. split; [exact G1|]. split; [exact G2|]. split; [exact Hs|].
  cbn [p_off new_parser on_slice] in *. rewrite O1, O2. split; [reflexivity|].
  eapply pieces_left; eassumption.
Qed.

(** Sources that lend all they have as one piece, like byte slices: nothing is left out
    either, only the address may matter, and only up to the alignment of a word. *)

Lemma gives_whole : forall pl S (PB : parsebuf S) fin cap mem p l a a',
  pl_ok pl -> source PB Whole fin cap mem p l a -> a' mod word_align pl = a mod word_align pl ->
  match g_record pl (bad_at pl a') (mkEnv (p_cfg p) fin) l 0 with
  | FOk (b, md) _ n _ => exists bc p', gives pl PB p (inr (bc, md)) p' /\ view_body bc = b /\
      moved PB Whole fin cap mem l a p n p'
  | FErr e _ n _ => exists p', gives pl PB p (inl e) p' /\ moved PB Whole fin cap mem l a p n p'
  end.
Proof.
  intros pl S PB fin cap mem p l a a' Hpl (rep & HC & Hr & Hw) Ha.
  pose proof (placed_events pl (bad_at pl a') a (mkEnv (p_cfg p) fin) l) as Hev.
  pose proof (collect_placed pl S PB fin cap mem rep a Hpl HC a' Ha) as HR.
  destruct (g_record pl (bad_at pl a') (mkEnv (p_cfg p) fin) l 0) as [[b md] l' n ev|e l' n ev] eqn:E.
  - destruct (run_ok Whole fin 65536 rep _ _ _ _ _ _ _ _ _ _ _ _ HR Hr Hw E Hev)
      as ([bc md'] & p' & Ep & [H1 H3] & Hs). cbn [fst snd] in *. subst md'.
    exists bc, p'. split; [|split; [exact H1|eapply step_moved; eassumption]].
    intros O V. rewrite record_eq. unfold bind. rewrite Ep. cbn [fst snd]. now rewrite deliver_answer.
  - destruct (run_err Whole fin 65536 rep _ _ _ _ _ _ _ _ _ _ _ _ HR Hr Hw E Hev) as (p' & Ep & Hs).
    exists p'. split; [|eapply step_moved; eassumption].
    intros O V. rewrite record_eq. unfold bind. now rewrite Ep.
Qed.

Theorem C03_whole :
  forall pl c l fin S1 (PB1 : parsebuf S1) cap1 mem1 p1 a1 S2 (PB2 : parsebuf S2) cap2 mem2 p2 a2,
  pl_ok pl -> p_cfg p1 = c -> p_cfg p2 = c -> a1 mod word_align pl = a2 mod word_align pl ->
  source PB1 Whole fin cap1 mem1 p1 l a1 -> source PB2 Whole fin cap2 mem2 p2 l a2 ->
  exists n r1 r2 p1' p2',
    gives pl PB1 p1 r1 p1' /\ gives pl PB2 p2 r2 p2' /\ same_result r1 r2 /\
    moved PB1 Whole fin cap1 mem1 l a1 p1 n p1' /\ moved PB2 Whole fin cap2 mem2 l a2 p2 n p2'.
Proof.
  intros pl c l fin S1 PB1 cap1 mem1 p1 a1 S2 PB2 cap2 mem2 p2 a2 Hpl E1 E2 Ha H1 H2.
  pose proof (gives_whole pl S1 PB1 fin cap1 mem1 p1 l a1 a1 Hpl H1 eq_refl) as G1.
  pose proof (gives_whole pl S2 PB2 fin cap2 mem2 p2 l a2 a1 Hpl H2 Ha) as G2.
  rewrite E1 in G1. rewrite E2 in G2.
  destruct (g_record pl (bad_at pl a1) (mkEnv c fin) l 0) as [[b md] l' n ev|e l' n ev].
  - destruct G1 as (b1 & p1' & A1 & B1 & C1). destruct G2 as (b2 & p2' & A2 & B2 & C2).
    exists n, (inr (b1, md)), (inr (b2, md)), p1', p2'. split; [exact A1|]. split; [exact A2|].
    split; [split; congruence|]. split; [exact C1|exact C2].
  - destruct G1 as (p1' & A1 & C1). destruct G2 as (p2' & A2 & C2).
    exists n, (inl e), (inl e), p1', p2'. split; [exact A1|]. split; [exact A2|].
    split; [reflexivity|]. split; [exact C1|exact C2].
Qed.

Theorem C03_whole_stream :
  forall pl c k l fin S1 (PB1 : parsebuf S1) cap1 mem1 p1 a1 S2 (PB2 : parsebuf S2) cap2 mem2 p2 a2,
  pl_ok pl -> p_cfg p1 = c -> p_cfg p2 = c -> a1 mod word_align pl = a2 mod word_align pl ->
  source PB1 Whole fin cap1 mem1 p1 l a1 -> source PB2 Whole fin cap2 mem2 p2 l a2 ->
  exists n rs1 rs2 p1' p2', length rs1 = k /\
    run_gives pl PB1 p1 rs1 p1' /\ run_gives pl PB2 p2 rs2 p2' /\ Forall2 same_result rs1 rs2 /\
    moved PB1 Whole fin cap1 mem1 l a1 p1 n p1' /\ moved PB2 Whole fin cap2 mem2 l a2 p2 n p2'.
Proof.
  intros pl c k. induction k as [|k IH];
    intros l fin S1 PB1 cap1 mem1 p1 a1 S2 PB2 cap2 mem2 p2 a2 Hpl E1 E2 Ha H1 H2.
  - exists 0, [], [], p1, p2. split; [reflexivity|]. split; [reflexivity|]. split; [reflexivity|].
    split; [constructor|]. unfold moved. rewrite drop_0, !N.add_0_r. clear Ha.
    split; (split; [lia|]; split; [assumption|]; split; reflexivity).
  - destruct (C03_whole pl c l fin S1 PB1 cap1 mem1 p1 a1 S2 PB2 cap2 mem2 p2 a2 Hpl E1 E2 Ha H1 H2)
      as (n & r1 & r2 & q1 & q2 & G1 & G2 & Hr & (L1 & M1 & C1 & O1) & (L2 & M2 & C2 & O2)).
    assert (Ha' : (a1 + n) mod word_align pl = (a2 + n) mod word_align pl).
    { assert (W : word_align pl <> 0) by (unfold word_align; destruct (pl_align pl); discriminate).
      rewrite (N.add_mod a1), (N.add_mod a2), Ha by exact W. reflexivity. }
    destruct (IH (drop n l) fin S1 PB1 cap1 mem1 q1 (a1 + n) S2 PB2 cap2 mem2 q2 (a2 + n) Hpl
      ltac:(congruence) ltac:(congruence) Ha' M1 M2)
      as (n' & rs1 & rs2 & p1' & p2' & Hk & R1 & R2 & Hs & (L1' & M1' & C1' & O1') & (L2' & M2' & C2' & O2')).
    clear Ha Ha' IH. rewrite len_drop in L1', L2'. rewrite drop_drop in M1', M2'.
    exists (n + n'), (r1 :: rs1), (r2 :: rs2), p1', p2'. split; [cbn; congruence|].
    split; [exists q1; auto|]. split; [exists q2; auto|]. split; [now constructor|].
    split; (split; [lia|]; split; [rewrite N.add_assoc; assumption|]; split; [congruence|lia]).
Qed.

(** A NAMESPACES record in memory at an odd address, and the same bytes from a
    reader. *)
Definition ns_bytes : list N :=
  w_header LE 16 0 (8 + 32) ++ w32 LE 5 ++ w32 LE 6 ++ w64 LE 1 ++ w64 LE 77 ++ w64 LE 88.

Theorem C03_misaligned_refuted : exists pl c l a mem,
  source slice_buf Whole eof_error 100 mem (on_slice a l c) l a /\
  source bufreader_buf NoExt eof_error 16384 mem (reader_of [l] c) l 0 /\
  fst (parse_record_enum pl slice_buf (on_slice a l c)) = Err eof_error /\
  fst (parse_record_enum pl bufreader_buf (reader_of [l] c))
    = Ok (RBody (BNamespaces (mkNamespaces 5 6 (Owned [mkNs 77 88])))).
Proof.
  exists pl64, (mkConfig 0 0 0 Native), ns_bytes, 4097, (memory_of 4097 ns_bytes).
  split. { apply slice_source; [| | |apply memory_of_at]; try (vm_compute; congruence). repeat constructor. }
  split. { apply (reader_source [] [ns_bytes] None); try (vm_compute; congruence); repeat constructor; discriminate. }
  split; vm_compute; reflexivity.
Qed.

(** A TEXT_POKE record that replaces nothing by four bytes. *)
Definition poke_bytes : list N :=
  w_header LE 20 0 (8 + 16) ++ w64 LE 0xABC ++ w16 LE 0 ++ w16 LE 4 ++ [1; 2; 3; 4].

Theorem C03_text_poke_refuted : exists pl c l a mem,
  source slice_buf Whole eof_error 100 mem (on_slice a l c) l a /\
  source bufreader_buf NoExt eof_error 16384 mem (reader_of [l] c) l 0 /\
  (exists x, fst (parse_record_enum pl slice_buf (on_slice a l c)) = Ok (RBody (BTextPoke x)) /\
     cow_list (tp_old x) = [] /\ cow_list (tp_new x) = [1; 2; 3; 4]) /\
  (exists x, fst (parse_record_enum pl bufreader_buf (reader_of [l] c)) = Ok (RBody (BTextPoke x)) /\
     cow_list (tp_old x) = [1; 2; 3; 4] /\ cow_list (tp_new x) = []).
Proof.
  exists pl64, (mkConfig 0 0 0 Little), poke_bytes, 4096, (memory_of 4096 poke_bytes).
  split. { apply slice_source; [| | |apply memory_of_at]; try (vm_compute; congruence). repeat constructor. }
  split. { apply (reader_source [] [poke_bytes] None); try (vm_compute; congruence); repeat constructor; discriminate. }
  split; eexists; split; [vm_compute; reflexivity| |vm_compute; reflexivity|]; split; vm_compute; reflexivity.
Qed.

(** Two readers that give the same bytes in different pieces. *)
Example C03_copied_example :
  let cut k := reader_of [take k (poke_bytes ++ ns_bytes); drop k (poke_bytes ++ ns_bytes)]
                 (mkConfig 0 0 0 Native) in
  (forall k, 0 < k -> k < 60 ->
     source bufreader_buf NoExt eof_error 16384 (fun _ => 0) (cut k) (poke_bytes ++ ns_bytes) 0) /\
  fst (parse_record_enum pl64 bufreader_buf (cut 3)) =
  fst (parse_record_enum pl64 bufreader_buf (cut 21)).
Proof.
  intros cut. split; [|vm_compute; reflexivity]. intros k H0 Hk.
  pose proof (reader_source [] [take k (poke_bytes ++ ns_bytes); drop k (poke_bytes ++ ns_bytes)] None
    (mkConfig 0 0 0 Native) 16384 (fun _ => 0) (N.le_refl _)) as G.
  replace ([] ++ concat [take k (poke_bytes ++ ns_bytes); drop k (poke_bytes ++ ns_bytes)])
    with (poke_bytes ++ ns_bytes) in G by (cbn [concat app]; rewrite app_nil_r; symmetry; apply take_drop).
  apply G; [repeat constructor|reflexivity|].
  assert (L : len (poke_bytes ++ ns_bytes) = 64) by reflexivity.
  constructor; [|constructor; [|constructor]]; intros E; apply (f_equal len) in E;
    rewrite ?len_take, ?len_drop, L in E; change (len (@nil N)) with 0 in E; lia.
Qed.

(** Two records in single bytes and in one piece. *)
Example C03_pieces_example :
  let d := ns_bytes ++ poke_bytes in
  concat (map (fun b => [b]) d) = concat [d] /\ bytes d /\ len d < 2 ^ 64 /\
  fst (parse_record_enum pl64 chunklist_buf
         (new_parser (map Temporary (map (fun b => [b]) d)) (mkConfig 0 0 0 Native))) =
    Ok (RBody (BNamespaces (mkNamespaces 5 6 (Owned [mkNs 77 88])))).
Proof.
  split; [reflexivity|]. split; [repeat constructor|]. split; [reflexivity|]. vm_compute. reflexivity.
Qed.

Example C03_lent_pieces_example :
  let d := ns_bytes in let c := mkConfig 0 0 0 Big in
  let cs := [External 77 (take 13 d); Temporary (take 5 (drop 13 d)); External 1000 (drop 18 d)] in
  d = concat (map chunk_data cs) /\ Forall (fun k => chunk_data k <> []) cs /\
  (exists mem, forall x e, In (External x e) cs -> mem_at mem x e) /\
  tame pl64 c AnyExt 0 d /\ tame pl64 c Whole 3 d.
Proof.
  cbv zeta. split; [reflexivity|]. split; [repeat constructor; discriminate|]. split.
  - exists (fun x => if x <? 500 then memory_of 77 (take 13 ns_bytes) x
                     else memory_of 1000 (drop 18 ns_bytes) x).
    intros x e [H|[H|[H|[]]]]; try discriminate; injection H as <- <-; intros i b Hi;
      assert (Hlt : i < 100)
        by (pose proof Hi as Hj; rewrite get_nth in Hj;
            assert (Hk : nth_error _ _ <> None) by (rewrite Hj; discriminate);
            apply nth_error_Some in Hk; cbn in Hk; lia).
    + replace (77 + i <? 500) with true by (symmetry; apply N.ltb_lt; lia). now apply memory_of_at.
    + replace (1000 + i <? 500) with false by (symmetry; apply N.ltb_ge; lia). now apply memory_of_at.
  - split; (split; [vm_compute; discriminate|right; left; vm_compute; discriminate]).
Qed.

(** Slices at two odd addresses: the second half of the record is taken for the array. *)
Definition ns_long : list N :=
  w_header LE 16 0 (8 + 48) ++ w32 LE 5 ++ w32 LE 6 ++ w64 LE 1 ++ w64 LE 77 ++ w64 LE 88 ++ w64 LE 99 ++ w64 LE 100.

Example C03_whole_example :
  let c := mkConfig 0 0 0 Native in
  source slice_buf Whole eof_error 100 (memory_of 4097 ns_long) (on_slice 4097 ns_long c) ns_long 4097 /\
  source slice_buf Whole eof_error 100 (memory_of 9 ns_long) (on_slice 9 ns_long c) ns_long 9 /\
  4097 mod word_align pl64 = 9 mod word_align pl64 /\
  fst (parse_record_enum pl64 slice_buf (on_slice 4097 ns_long c)) =
    Ok (RBody (BNamespaces (mkNamespaces 5 6 (Owned [mkNs 99 100])))) /\
  fst (parse_record_enum pl64 slice_buf (on_slice 9 ns_long c)) =
    fst (parse_record_enum pl64 slice_buf (on_slice 4097 ns_long c)).
Proof.
  cbv zeta.
  split. { apply slice_source; [| | |apply memory_of_at]; try (vm_compute; congruence). repeat constructor. }
  split. { apply slice_source; [| | |apply memory_of_at]; try (vm_compute; congruence). repeat constructor. }
  split; [reflexivity|]. split; vm_compute; reflexivity.
Qed.

(** The hypotheses are met by a SAMPLE of the host's byte order with an array. *)
Definition chain_cfg : config := mkConfig (cf_new 0 (2 ^ 5) false false 0) 0 0 Native.
Definition chain_bytes : list N := w_header LE 9 0 (8 + 24) ++ w64 LE 2 ++ w64 LE 5 ++ w64 LE 6.

Example C03_example :
  source slice_buf Whole eof_error 100 (memory_of 4096 chain_bytes) (on_slice 4096 chain_bytes chain_cfg)
    chain_bytes 4096 /\
  source bufreader_buf NoExt eof_error 16384 (fun _ => 0)
    (reader_of [take 11 chain_bytes; drop 11 chain_bytes] chain_cfg) chain_bytes 0 /\
  tame pl64 chain_cfg Whole 4096 chain_bytes /\ tame pl64 chain_cfg NoExt 0 chain_bytes /\
  fst (parse_record_enum pl64 slice_buf (on_slice 4096 chain_bytes chain_cfg)) <>
  fst (parse_record_enum pl64 bufreader_buf
         (reader_of [take 11 chain_bytes; drop 11 chain_bytes] chain_cfg)).
Proof.
  split. { apply slice_source; [| | |apply memory_of_at]; try (vm_compute; congruence). repeat constructor. }
  split. { apply (reader_source [] [take 11 chain_bytes; drop 11 chain_bytes] None);
           try (vm_compute; congruence); repeat constructor; discriminate. }
  split. { split; [vm_compute; discriminate|]. right; right; right. split; [now left|].
           split; [reflexivity|]. intros _. vm_compute. reflexivity. }
  split. { split; [vm_compute; discriminate|]. right; right; now left. }
  vm_compute. discriminate.
Qed.

(** ** C42: what follows the record does not matter *)

(** Contiguous memory: a record that parses, parses to the very same value (down
    to the addresses of its fields) when more data follows, and that data is
    left. *)
Theorem C42_more_data_follows :
  forall pl O (V : visitor O) c a l x y, bytes l -> len l < 2 ^ 64 ->
  fst (parse_record pl slice_buf V (on_slice a l c)) = Ok y ->
  fst (parse_record pl slice_buf V (on_slice a (l ++ x) c)) = Ok y /\
  exists n, n <= len l /\
    p_buf (snd (parse_record pl slice_buf V (on_slice a l c))) = mkSlice (a + n) (drop n l) /\
    p_buf (snd (parse_record pl slice_buf V (on_slice a (l ++ x) c))) = mkSlice (a + n) (drop n l ++ x).
Proof.
  intros pl O V c a l x y Hb Hl H.
  assert (Hs : source slice_buf Whole eof_error (len l) (memory_of a l) (on_slice a l c) l a)
    by (apply slice_source; [exact Hb|exact Hl|lia|apply memory_of_at]).
  destruct (N.ltb_spec (len l) 8) as [H8|H8].
  { rewrite (C13_truncated_header pl slice slice_buf _ _ _ _ O V _ l a H8 Hs) in H. discriminate. }
  set (o := order_of pl (c_endian c)).
  destruct (C01_headers_are_complete o l Hb H8) as (t & m & size & r & Ht & Hm & Hz & El).
  destruct (N.ltb_spec (8 + len r) size) as [Hr|Hr].
  { rewrite El in Hs. rewrite El in H.
    rewrite (C13_truncated pl slice slice_buf _ _ _ _ O V (on_slice a _ c) t m size r a Ht Hm Hz Hr Hs) in H.
    discriminate. }
  destruct (N.ltb_spec size 8) as [Hq|Hq].
  { rewrite El in Hs. rewrite El in H.
    rewrite (C13_header_too_small pl slice slice_buf _ _ _ _ O V (on_slice a _ c) t m size r a Ht Hm Hq Hs) in H.
    discriminate. }
  assert (Hlen : len l = 8 + len r) by (rewrite El, len_app, w_header_len; reflexivity).
  assert (Eh : head_of pl c l = mkHeader t m size) by (rewrite El; now apply head_of_header).
  assert (Eh2 : head_of pl c (l ++ x) = mkHeader t m size) by (rewrite El, <- app_assoc; now apply head_of_header).
  assert (E1 : forall z, head_of pl c (l ++ z) = mkHeader t m size ->
    parse_record pl slice_buf V (on_slice a (l ++ z) c) =
    (q <- finish pl (mkHeader t m size) (new_parser (borrowed_cursor (a + 8) (take (size - 8) r)) c) ;;
     lift (deliver V (fst q) (snd q))) (mkParser c (mkSlice (a + size) (drop size l ++ z)) size [])).
  { intros z Ez. rewrite record_eq. unfold on_slice.
    unfold bind at 1. rewrite collect_slice by (rewrite Ez; cbn [h_size]; rewrite len_app; lia).
    rewrite Ez. cbn [h_size].
    replace (drop size (l ++ z)) with (drop size l ++ z) by (rewrite drop_app_le; [reflexivity|lia]).
    replace (take (size - 8) (drop 8 (l ++ z))) with (take (size - 8) r); [reflexivity|].
    rewrite drop_app_le by lia. rewrite El at 1.
    rewrite drop_app_exact by now rewrite w_header_len. rewrite take_app_le by lia. reflexivity. }
  pose proof (E1 [] ltac:(rewrite app_nil_r; exact Eh)) as R1. rewrite !app_nil_r in R1.
  pose proof (E1 x Eh2) as R2.
  destruct (finish_frame pl (mkHeader t m size) (new_parser (borrowed_cursor (a + 8) (take (size - 8) r)) c))
    as (q & log & F).
  unfold bind in R1, R2. rewrite F in R1, R2. cbn [p_cfg p_buf p_off] in R1, R2.
  rewrite R1 in *. rewrite R2. split.
  - destruct q; exact H.
  - exists size. split; [lia|]. destruct q; split; reflexivity.
Qed.

(** All sources: the result and the progress depend on the bytes of the record
    only.  The sources may even end in different ways.

    Full statement: without [tame]. *)
Theorem C42_only_the_record_partial :
  forall pl c payload x1 x2 S1 (PB1 : parsebuf S1) mo1 fin1 cap1 mem1 p1 a1
    S2 (PB2 : parsebuf S2) mo2 fin2 cap2 mem2 p2 a2 t m,
  let o := order_of pl (c_endian c) in
  let size := 8 + len payload in
  pl_ok pl -> p_cfg p1 = c -> p_cfg p2 = c ->
  t < 2 ^ 32 -> m < 2 ^ 16 -> size < 2 ^ 16 ->
  let h := w_header o t m size in
  source PB1 mo1 fin1 cap1 mem1 p1 (h ++ payload ++ x1) a1 ->
  source PB2 mo2 fin2 cap2 mem2 p2 (h ++ payload ++ x2) a2 ->
  tame pl c mo1 a1 (h ++ payload ++ x1) -> tame pl c mo2 a2 (h ++ payload ++ x2) ->
  exists r1 r2 p1' p2',
    gives pl PB1 p1 r1 p1' /\ gives pl PB2 p2 r2 p2' /\ same_result r1 r2 /\
    after PB1 mo1 fin1 cap1 mem1 p1 size x1 a1 p1' /\
    after PB2 mo2 fin2 cap2 mem2 p2 size x2 a2 p2'.
Proof.
  intros pl c payload x1 x2 S1 PB1 mo1 fin1 cap1 mem1 p1 a1 S2 PB2 mo2 fin2 cap2 mem2 p2 a2 t m o size
    Hpl E1 E2 Ht Hm Hz h H1 H2 T1 T2.
  assert (A1 : forall r p', gives pl PB1 p1 r p' -> after PB1 mo1 fin1 cap1 mem1 p1 size x1 a1 p').
  { intros r p' G. specialize (G _ record_visitor).
    pose proof (C01_record_framing pl S1 PB1 mo1 fin1 cap1 mem1 _ record_visitor p1 t m payload x1 a1) as F.
    cbv zeta in F. rewrite E1 in F. specialize (F Ht Hm Hz H1). rewrite G in F. cbn [snd] in F.
    unfold after. rewrite E1. exact F. }
  assert (A2 : forall r p', gives pl PB2 p2 r p' -> after PB2 mo2 fin2 cap2 mem2 p2 size x2 a2 p').
  { intros r p' G. specialize (G _ record_visitor).
    pose proof (C01_record_framing pl S2 PB2 mo2 fin2 cap2 mem2 _ record_visitor p2 t m payload x2 a2) as F.
    cbv zeta in F. rewrite E2 in F. specialize (F Ht Hm Hz H2). rewrite G in F. cbn [snd] in F.
    unfold after. rewrite E2. exact F. }
  assert (Hh : head_of pl c (h ++ payload) = mkHeader t m size) by (now apply head_of_header).
  pose proof (record_local pl c fin1 fin2 (h ++ payload) x1 x2
    ltac:(rewrite len_app; unfold h; rewrite w_header_len; lia)) as L.
  change (from_order (order_of pl (c_endian c)) (take 2 (drop 6 (h ++ payload))))
    with (h_size (head_of pl c (h ++ payload))) in L. rewrite Hh in L. cbn [h_size] in L.
  rewrite len_app in L. unfold h in L at 1. rewrite w_header_len in L. specialize (L (N.le_refl _)).
  rewrite <- !app_assoc in L.
  rewrite <- E1 in T1. rewrite <- E2 in T2.
  pose proof (gives_flat pl S1 PB1 mo1 fin1 cap1 mem1 p1 _ a1 Hpl H1 T1) as G1.
  pose proof (gives_flat pl S2 PB2 mo2 fin2 cap2 mem2 p2 _ a2 Hpl H2 T2) as G2.
  rewrite E1 in G1. rewrite E2 in G2. unfold same_out in L.
  destruct (f_record pl (mkEnv c fin1) (h ++ payload ++ x1) 0) as [[b md] l' n ev|e l' n ev];
  destruct (f_record pl (mkEnv c fin2) (h ++ payload ++ x2) 0) as [[b' md'] l2 n2 ev2|e2 l2 n2 ev2];
    try contradiction; destruct L as (L1 & L2 & L3).
  - injection L1 as <- <-.
    destruct G1 as (b1 & p1' & B1 & C1 & _). destruct G2 as (b2 & p2' & B2 & C2 & _).
    exists (inr (b1, md)), (inr (b2, md)), p1', p2'. split; [exact B1|]. split; [exact B2|].
    split; [split; congruence|]. split; [exact (A1 _ _ B1)|exact (A2 _ _ B2)].
  - subst e2. destruct G1 as (p1' & B1 & _). destruct G2 as (p2' & B2 & _).
    exists (inl e), (inl e), p1', p2'. split; [exact B1|]. split; [exact B2|].
    split; [reflexivity|]. split; [exact (A1 _ _ B1)|exact (A2 _ _ B2)].
Qed.

(** Sources that never lend memory: all records. *)
Theorem C42_copied :
  forall pl c payload x1 x2 S1 (PB1 : parsebuf S1) fin1 cap1 mem1 p1 a1
    S2 (PB2 : parsebuf S2) fin2 cap2 mem2 p2 a2 t m,
  let o := order_of pl (c_endian c) in
  let size := 8 + len payload in
  pl_ok pl -> p_cfg p1 = c -> p_cfg p2 = c ->
  t < 2 ^ 32 -> m < 2 ^ 16 -> size < 2 ^ 16 ->
  let h := w_header o t m size in
  source PB1 NoExt fin1 cap1 mem1 p1 (h ++ payload ++ x1) a1 ->
  source PB2 NoExt fin2 cap2 mem2 p2 (h ++ payload ++ x2) a2 ->
  exists r1 r2 p1' p2',
    gives pl PB1 p1 r1 p1' /\ gives pl PB2 p2 r2 p2' /\ same_result r1 r2 /\
    after PB1 NoExt fin1 cap1 mem1 p1 size x1 a1 p1' /\
    after PB2 NoExt fin2 cap2 mem2 p2 size x2 a2 p2'.
Proof.
  intros pl c payload x1 x2 S1 PB1 fin1 cap1 mem1 p1 a1 S2 PB2 fin2 cap2 mem2 p2 a2 t m o size
    Hpl E1 E2 Ht Hm Hz h H1 H2.
  assert (A1 : forall r p', gives pl PB1 p1 r p' -> after PB1 NoExt fin1 cap1 mem1 p1 size x1 a1 p').
  { intros r p' G. specialize (G _ record_visitor).
    pose proof (C01_record_framing pl S1 PB1 NoExt fin1 cap1 mem1 _ record_visitor p1 t m payload x1 a1) as F.
    cbv zeta in F. rewrite E1 in F. specialize (F Ht Hm Hz H1). rewrite G in F. cbn [snd] in F.
    unfold after. rewrite E1. exact F. }
  assert (A2 : forall r p', gives pl PB2 p2 r p' -> after PB2 NoExt fin2 cap2 mem2 p2 size x2 a2 p').
  { intros r p' G. specialize (G _ record_visitor).
    pose proof (C01_record_framing pl S2 PB2 NoExt fin2 cap2 mem2 _ record_visitor p2 t m payload x2 a2) as F.
    cbv zeta in F. rewrite E2 in F. specialize (F Ht Hm Hz H2). rewrite G in F. cbn [snd] in F.
    unfold after. rewrite E2. exact F. }
  assert (Hh : head_of pl c (h ++ payload) = mkHeader t m size) by (now apply head_of_header).
  pose proof (copied_local pl c fin1 fin2 (h ++ payload) x1 x2
    ltac:(rewrite len_app; unfold h; rewrite w_header_len; lia)) as L.
  change (from_order (order_of pl (c_endian c)) (take 2 (drop 6 (h ++ payload))))
    with (h_size (head_of pl c (h ++ payload))) in L. rewrite Hh in L. cbn [h_size] in L.
  rewrite len_app in L. unfold h in L at 1. rewrite w_header_len in L. specialize (L (N.le_refl _)).
  rewrite <- !app_assoc in L.
  pose proof (gives_copied pl S1 PB1 fin1 cap1 mem1 p1 _ a1 Hpl H1) as G1.
  pose proof (gives_copied pl S2 PB2 fin2 cap2 mem2 p2 _ a2 Hpl H2) as G2.
  rewrite E1 in G1. rewrite E2 in G2. unfold same_out in L.
  destruct (f_record_copied pl (mkEnv c fin1) (h ++ payload ++ x1) 0) as [[b md] l' n ev|e l' n ev];
  destruct (f_record_copied pl (mkEnv c fin2) (h ++ payload ++ x2) 0) as [[b' md'] l2 n2 ev2|e2 l2 n2 ev2];
    try contradiction; destruct L as (L1 & L2 & L3).
  - injection L1 as <- <-.
    destruct G1 as (b1 & p1' & B1 & C1 & _). destruct G2 as (b2 & p2' & B2 & C2 & _).
    exists (inr (b1, md)), (inr (b2, md)), p1', p2'. split; [exact B1|]. split; [exact B2|].
    split; [split; congruence|]. split; [exact (A1 _ _ B1)|exact (A2 _ _ B2)].
  - subst e2. destruct G1 as (p1' & B1 & _). destruct G2 as (p2' & B2 & _).
    exists (inl e), (inl e), p1', p2'. split; [exact B1|]. split; [exact B2|].
    split; [reflexivity|]. split; [exact (A1 _ _ B1)|exact (A2 _ _ B2)].
Qed.

Example C42_example :
  bytes ex_lost /\ len ex_lost < 2 ^ 64 /\
  exists y, fst (parse_record_enum pl64 slice_buf (on_slice 4096 ex_lost ex_cfg)) = Ok y.
Proof. split; [repeat constructor|]. split; [reflexivity|]. eexists. vm_compute. reflexivity. Qed.

(** The visitor of [Record] is one to which the theorem applies. *)
Example C42_example_enum : forall pl (p : parser slice),
  parse_record_enum pl slice_buf p = parse_record pl slice_buf record_visitor p.
Proof. reflexivity. Qed.

(** ** C40: readers *)

(** Full statement: without [tame].

    The reads are split in any way, [b] has been read already. *)
Theorem C40_reader_like_memory_partial :
  forall pl c b rs a d, pl_ok pl -> d = b ++ concat rs -> bytes d -> len d < 2 ^ 64 ->
  Forall (fun r => r <> []) rs ->
  tame pl c Whole a d -> tame pl c NoExt 0 d ->
  exists n r1 r2 p1' p2',
    gives pl bufreader_buf (new_parser (mkReader b rs None) c) r1 p1' /\
    gives pl slice_buf (on_slice a d c) r2 p2' /\ same_result r1 r2 /\
    p_off p1' = n /\ p_off p2' = n /\
    (exists cap mem, source bufreader_buf NoExt eof_error cap mem p1' (drop n d) n) /\
    exists cap mem, source slice_buf Whole eof_error cap mem p2' (drop n d) (a + n).
Proof.
  intros pl c b rs a d Hpl Ed Hb Hl Hrs T1 T2.
  assert (S1 : source bufreader_buf NoExt eof_error 16384 (memory_of a d) (new_parser (mkReader b rs None) c) d 0).
  { subst d. exact (reader_source b rs None c 16384 _ (N.le_refl _) Hb Hl Hrs). }
  assert (S2 : source slice_buf Whole eof_error (len d) (memory_of a d) (on_slice a d c) d a)
    by (apply slice_source; [exact Hb|exact Hl|lia|apply memory_of_at]).
  destruct (C03_same_bytes_partial pl c d eof_error _ bufreader_buf NoExt _ _ (new_parser (mkReader b rs None) c) 0
      _ slice_buf Whole _ _ (on_slice a d c) a Hpl eq_refl eq_refl S1 S2 T2 T1)
    as (n & r1 & r2 & p1' & p2' & G1 & G2 & Hs & (_ & M1 & _ & O1) & (_ & M2 & _ & O2)).
  exists n, r1, r2, p1', p2'. split; [exact G1|]. split; [exact G2|]. split; [exact Hs|].
  split; [exact O1|]. split; [exact O2|]. split; eexists _, _; eassumption.
Qed.

(** However the reads are cut, any number of records is read alike: data, errors
    and position. *)
Theorem C40_cuts :
  forall pl c k d e b1 rs1 b2 rs2, pl_ok pl -> bytes d -> len d < 2 ^ 64 ->
  b1 ++ concat rs1 = d -> b2 ++ concat rs2 = d ->
  Forall (fun r => r <> []) rs1 -> Forall (fun r => r <> []) rs2 ->
  exists n x1 x2 p1' p2', length x1 = k /\
    run_gives pl bufreader_buf (new_parser (mkReader b1 rs1 e) c) x1 p1' /\
    run_gives pl bufreader_buf (new_parser (mkReader b2 rs2 e) c) x2 p2' /\ Forall2 same_result x1 x2 /\
    p_off p1' = n /\ p_off p2' = n.
Proof.
  intros pl c k d e b1 rs1 b2 rs2 Hpl Hb Hl E1 E2 F1 F2.
  pose proof (reader_source b1 rs1 e c 16384 (fun _ => 0) (N.le_refl _)) as S1. rewrite E1 in S1.
  pose proof (reader_source b2 rs2 e c 16384 (fun _ => 0) (N.le_refl _)) as S2. rewrite E2 in S2.
  destruct (C03_copied_stream pl c k d (reader_fin e) _ bufreader_buf 16384 (fun _ => 0)
    (new_parser (mkReader b1 rs1 e) c) 0 _ bufreader_buf 16384 (fun _ => 0)
    (new_parser (mkReader b2 rs2 e) c) 0 Hpl eq_refl eq_refl (S1 Hb Hl F1) (S2 Hb Hl F2))
    as (n & x1 & x2 & p1' & p2' & Hk & R1 & R2 & Hs & (_ & _ & _ & O1) & (_ & _ & _ & O2)).
  exists n, x1, x2, p1', p2'. auto 10.
Qed.

(** A reader that fails inside a record: the error is the I/O error (Eof for
    UnexpectedEof), whatever was read before and in whatever pieces. *)
Theorem C40_io_error :
  forall pl O (V : visitor O) c b rs code ue t m size payload,
  let o := order_of pl (c_endian c) in
  b ++ concat rs = w_header o t m size ++ payload ->
  t < 2 ^ 32 -> m < 2 ^ 16 -> size < 2 ^ 16 -> 8 + len payload < size ->
  bytes payload -> Forall (fun r => r <> []) rs ->
  fst (parse_record pl bufreader_buf V (new_parser (mkReader b rs (Some (code, ue))) c)) =
  Err (mkError (if ue then KEof else KExternal) (Some (SrcIo code ue))).
Proof.
  intros pl O V c b rs code ue t m size payload o El Ht Hm Hz Hlt Hb Hrs.
  assert (Hl : len (b ++ concat rs) = 8 + len payload) by (rewrite El, len_app, w_header_len; reflexivity).
  pose proof (reader_source b rs (Some (code, ue)) c 16384 (fun _ => 0) (N.le_refl _)) as Hs.
  rewrite El in Hs at 1.
  specialize (Hs ltac:(apply Forall_app; split; [apply w_header_bytes|exact Hb])
    ltac:(rewrite Hl; change (2 ^ 64) with (2 ^ 16 * 2 ^ 48); nia) Hrs).
  rewrite El in Hs.
  rewrite (C13_truncated pl _ _ _ _ _ _ O V _ t m size payload 0 Ht Hm Hz Hlt Hs). now destruct ue.
Qed.

(** The same inside a header. *)
Theorem C40_io_error_in_header :
  forall pl O (V : visitor O) c b rs code ue,
  len (b ++ concat rs) < 8 -> bytes (b ++ concat rs) -> Forall (fun r => r <> []) rs ->
  fst (parse_record pl bufreader_buf V (new_parser (mkReader b rs (Some (code, ue))) c)) =
  Err (mkError (if ue then KEof else KExternal) (Some (SrcIo code ue))).
Proof.
  intros pl O V c b rs code ue Hl Hb Hrs.
  pose proof (reader_source b rs (Some (code, ue)) c 16384 (fun _ => 0) (N.le_refl _) Hb ltac:(lia) Hrs) as Hs.
  rewrite (C13_truncated_header pl _ _ _ _ _ _ O V _ _ 0 Hl Hs). now destruct ue.
Qed.

(** A complete record before the failure is not affected by it. *)
Theorem C40_error_after_the_record :
  forall pl c t m payload rest b rs e b2 rs2,
  let o := order_of pl (c_endian c) in
  let size := 8 + len payload in
  let l := w_header o t m size ++ payload in
  pl_ok pl -> t < 2 ^ 32 -> m < 2 ^ 16 -> size < 2 ^ 16 -> bytes payload -> bytes rest -> len rest < 2 ^ 62 ->
  b ++ concat rs = l ++ rest -> b2 ++ concat rs2 = l ->
  Forall (fun r => r <> []) rs -> Forall (fun r => r <> []) rs2 ->
  exists r1 r2 p1' p2',
    gives pl bufreader_buf (new_parser (mkReader b rs e) c) r1 p1' /\
    gives pl bufreader_buf (new_parser (mkReader b2 rs2 None) c) r2 p2' /\ same_result r1 r2.
Proof.
  intros pl c t m payload rest b rs e b2 rs2 o size l Hpl Ht Hm Hz Hb Hb2 Hr E1 E2 F1 F2.
  assert (Hl : len l = size) by (unfold l; rewrite len_app, w_header_len; reflexivity).
  assert (Hlb : bytes l) by (apply Forall_app; split; [apply w_header_bytes|exact Hb]).
  assert (W : 2 ^ 62 + 2 ^ 16 < 2 ^ 64) by (vm_compute; reflexivity).
  pose proof (reader_source b rs e c 16384 (fun _ => 0) (N.le_refl _)) as S1. rewrite E1 in S1.
  specialize (S1 ltac:(apply Forall_app; split; assumption) ltac:(rewrite len_app; lia) F1).
  pose proof (reader_source b2 rs2 None c 16384 (fun _ => 0) (N.le_refl _)) as S2. rewrite E2 in S2.
  specialize (S2 Hlb ltac:(lia) F2).
  destruct (C42_copied pl c payload rest [] _ bufreader_buf (reader_fin e) 16384 (fun _ => 0)
    (new_parser (mkReader b rs e) c) 0 _ bufreader_buf (reader_fin None) 16384 (fun _ => 0)
    (new_parser (mkReader b2 rs2 None) c) 0 t m Hpl eq_refl eq_refl Ht Hm Hz) as (r1 & r2 & p1' & p2' & G1 & G2 & Hs & _).
  - fold o size. rewrite app_assoc. exact S1.
  - fold o size. rewrite app_nil_r. exact S2.
  - exists r1, r2, p1', p2'. auto.
Qed.

Example C40_example : exists b rs code,
  b ++ concat rs = w_header LE 2 0 24 ++ [1; 2; 3; 4; 5; 6; 7; 8; 9] /\
  Forall (fun r => r <> []) rs /\ Forall (fun r => r <> []) [b] /\
  fst (parse_record_enum pl64 bufreader_buf (new_parser (mkReader b rs (Some (code, false))) ex_cfg0)) =
  Err (mkError KExternal (Some (SrcIo 5 false))).
Proof.
  exists (take 3 (w_header LE 2 0 24)),
    [drop 3 (w_header LE 2 0 24) ++ [1; 2]; [3; 4; 5; 6; 7; 8]; [9]], 5.
  split; [vm_compute; reflexivity|]. split; [repeat constructor; discriminate|].
  split; [repeat constructor; discriminate|]. vm_compute. reflexivity.
Qed.

Print Assumptions C03_same_bytes_partial.
Print Assumptions C03_foreign_order.
Print Assumptions C03_copied.
Print Assumptions C03_copied_stream.
Print Assumptions C03_pieces.
Print Assumptions C03_lent_pieces_partial.
Print Assumptions C03_whole.
Print Assumptions C03_whole_stream.
Print Assumptions C03_misaligned_refuted.
Print Assumptions C03_text_poke_refuted.
Print Assumptions C42_more_data_follows.
Print Assumptions C42_only_the_record_partial.
Print Assumptions C42_copied.
Print Assumptions C40_reader_like_memory_partial.
Print Assumptions C40_cuts.
Print Assumptions C40_io_error.
Print Assumptions C40_io_error_in_header.
Print Assumptions C40_error_after_the_record.
