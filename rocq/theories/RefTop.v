(** Refinement for whole records, metadata and perf_event_attr. *)
From Coq Require Import NArith List Bool Lia.
From Verif Require Import Base BaseFacts Types Platform Config Buf Parser Contract Flat Refine.
From Verif Require Import Instances Prims Slices Records Sample Record Attr Views RefRecords RefFrame.
Import ListNotations.
Open Scope N_scope.

Lemma from_order_bound : forall o l, bytes l -> from_order o l < 256 ^ len l.
Proof. intros [] l H; [now apply from_le_bound|now apply from_be_bound]. Qed.

Lemma f_uint_bound : forall pl n env l pos, wf l ->
  match f_uint pl n env l pos with FOk v l' _ _ => v < 256 ^ n /\ wf l' | FErr _ _ _ _ => True end.
Proof.
  intros pl n env l pos Hw. unfold f_uint, fbind, fcfg, fret, f_take.
  destruct l as [|b t]; [exact I|]. destruct (N.ltb_spec (len (b :: t)) n) as [H|H]; [exact I|].
  split; [|now apply wf_drop].
  rewrite <- (len_take n (b :: t)) at 2 || idtac.
  assert (E : n = len (take n (b :: t))) by (rewrite len_take; lia).
  rewrite E at 2. apply from_order_bound, bytes_take, Hw.
Qed.

Lemma f_header_bound : forall pl env l pos, wf l ->
  match f_header pl env l pos with
  | FOk h _ _ _ => h_type h < 2 ^ 32 /\ h_misc h < 65536 /\ h_size h < 65536
  | FErr _ _ _ _ => True
  end.
Proof.
  intros pl env l pos Hw. unfold f_header.
  unfold fbind at 1. pose proof (f_uint_bound pl 4 env l pos Hw) as H1.
  destruct (f_uint pl 4 env l pos) as [t l1 pos1 e1|]; [|exact I]. destruct H1 as [H1 Hw1].
  unfold fbind at 1. pose proof (f_uint_bound pl 2 env l1 pos1 Hw1) as H2.
  destruct (f_uint pl 2 env l1 pos1) as [m l2 pos2 e2|]; [|exact I]. destruct H2 as [H2 Hw2].
  unfold fbind at 1. pose proof (f_uint_bound pl 2 env l2 pos2 Hw2) as H3.
  destruct (f_uint pl 2 env l2 pos2) as [s l3 pos3 e3|]; [|exact I]. destruct H3 as [H3 Hw3].
  cbn [h_type h_misc h_size fret]. auto.
Qed.

(** A cursor seen as a buffer that claims to hold nothing: parsers that never
    reserve memory cannot tell. *)
Definition cursor_nohint : parsebuf cursor := mkBuf cursor_chunk cursor_advance (fun _ => Some 0).

Lemma nohint_contract : forall mo cap m,
  contract cursor_nohint mo eof_error cap m (fun s l a => exists n, cursor_rep mo n m s l a).
Proof.
  intros mo cap m; constructor.
  - intros s a (n & H). destruct (ct_empty (cursor_contract mo n m) _ _ H) as (s' & E & H').
    exists s'; split; [exact E|]; now exists n.
  - intros s l a (n & H) Hl.
    destruct (ct_chunk (cursor_contract mo n m) _ _ _ H Hl) as (c & s' & E & H' & H1 & H2 & H3 & Ha).
    exists c, s'. split; [exact E|]. split; [now exists n|]. split; [exact H1|]. split; [exact H2|].
    split; [exact H3|]. intros k Hk. destruct (Ha k Hk) as (s'' & E2 & H4).
    exists s''; split; [exact E2|]; now exists n.
  - intros s l a h _ H; injection H as <-; lia.
  - discriminate.
Qed.

Lemma chunk_nohint : m_chunk cursor_buf = m_chunk cursor_nohint.
Proof. reflexivity. Qed.
Lemma advance_nohint : m_advance cursor_buf = m_advance cursor_nohint.
Proof. reflexivity. Qed.
Lemma array_nohint : parse_array cursor_buf = parse_array cursor_nohint.
Proof. unfold parse_array, parse_to_slice. now rewrite chunk_nohint, advance_nohint. Qed.
Lemma rest_nohint : parse_rest cursor_buf = parse_rest cursor_nohint.
Proof. unfold parse_rest. now rewrite chunk_nohint, advance_nohint. Qed.

Lemma attr_fields_nohint : forall pl t s q,
  parse_attr_fields pl cursor_buf t s q = parse_attr_fields pl cursor_nohint t s q.
Proof.
  intros. unfold parse_attr_fields, parse_u16, parse_u32, parse_u64.
  now rewrite array_nohint, rest_nohint.
Qed.

Section Top.
Context (pl : platform) {S : Type} (PB : parsebuf S) (mo : mode) (fin : perror) (cap : N)
  (mem : memory) (rep : S -> list N -> N -> Prop) (a0 : N).
Context (HC : contract PB mo fin cap mem rep).

Notation Ref := (Ref mo fin cap rep a0).

Lemma Ref_uint_b : forall n m, Ref eq m (f_uint pl n) ->
  Ref (fun a b => a = b /\ b < 256 ^ n) m (f_uint pl n).
Proof.
  intros n m H. apply Ref_post; [|exact H].
  intros env l pos Hw. pose proof (f_uint_bound pl n env l pos Hw) as G.
  destruct (f_uint pl n env l pos); tauto.
Qed.

Lemma Ref_attr : pl_ok pl -> Ref eq (parse_attr pl PB) (f_attr pl).
Proof.
  intros Hpl. unfold parse_attr, f_attr.
  eapply Ref_bind; [apply (Ref_u32 pl PB mo fin cap mem rep a0 HC)|]. intros t ? <-.
  eapply Ref_bind; [apply Ref_uint_b, (Ref_u32 pl PB mo fin cap mem rep a0 HC)|].
  intros s ? [<- Hs].
  destruct (attr_size_ok s) eqn:Eok; cbn [negb]; [|apply Ref_fail].
  assert (H4 : 4 <= s).
  { unfold attr_size_ok in Eok. apply orb_true_iff in Eok as [Eok|Eok].
    - apply existsb_exists in Eok as (x & Hin & Ex). apply N.eqb_eq in Ex; subst x.
      cbn in Hin. repeat (destruct Hin as [<-|Hin]; [vm_compute; discriminate|]). contradiction.
    - apply N.ltb_lt in Eok. unfold PERF_ATTR_SIZE_MAX, PERF_ATTR_SIZE_VER8 in Eok. lia. }
  assert (Eu : as_usize pl s = s).
  { unfold as_usize. apply N.mod_small. change (256 ^ 4) with (2 ^ 32) in Hs.
    eapply N.lt_le_trans; [exact Hs|]. apply N.pow_le_mono_r; [lia|].
    destruct Hpl as [E|E]; rewrite E; lia. }
  rewrite Eu. unfold checked_sub. apply N.leb_le in H4. rewrite H4.
  apply RefC_Ref. intros c.
  eapply RefC_bind; [apply RefC_split; exact HC|]. intros q st [Hq Hlen].
  apply RefC_fcfg. destruct Hq as (Ec & Eo & El & Eof & Elen & Hwq & Hrep).
  apply (RefC_sub mo fin cap rep a0 c _ _ _ _
           (fun s l a => exists n, cursor_rep mo n mem s l a) mo a0); try assumption; auto.
  - apply Ref_RefC. intros p l pos Hr Hw. rewrite attr_fields_nohint.
    revert p l pos Hr Hw.
    exact (Ref_attr_fields pl cursor_nohint mo eof_error cap mem _ a0 (nohint_contract mo cap mem) t s).
  - now exists (s - 4).
Qed.

Context (H16 : 65536 <= cap).

Lemma Ref_header_b :
  Ref (fun a b => a = b /\ h_type b < 2 ^ 32 /\ h_misc b < 65536 /\ h_size b < 65536)
    (parse_header pl PB) (f_header pl).
Proof.
  apply Ref_post; [|eapply Ref_header; exact HC].
  intros env l pos Hw. pose proof (f_header_bound pl env l pos Hw) as G.
  destruct (f_header pl env l pos); tauto.
Qed.

Lemma RefC_metadata : forall c,
  RefC mo fin cap rep a0 c (rel_meta mo mem a0 c) (parse_metadata pl PB) (f_metadata pl).
Proof.
  intros c. unfold parse_metadata, f_metadata.
  eapply RefC_bind; [apply Ref_RefC, Ref_header_b|]. intros h ? [<- Hh].
  apply RefC_metadata_with_header; try assumption. apply Hh.
Qed.

Context (Hcap : cap <= isize_max pl).

Lemma Ref_collect : Ref (rel_record mo mem pl) (collect pl PB) (f_record pl).
Proof.
  unfold collect, f_record.
  eapply Ref_bind; [apply Ref_header_b|]. intros h ? [<- Hh].
  apply Ref_collect_with_header; try assumption. apply Hh.
Qed.

(** What [parse_record] does with a visitor. *)
Lemma record_spec : forall O (V : visitor O) p l pos, rep (p_buf p) l (a0 + pos) -> wf l ->
  match f_record pl (mkEnv (p_cfg p) fin) l pos with
  | FOk (b, md) l' pos' ev =>
      Forall (ev_ok mo a0) ev ->
      exists bc p', parse_record pl PB V p = (deliver V bc md, p') /\
        view_body bc = b /\ ok_body mo mem pl bc /\ step cap rep a0 p l pos p' l' pos'
  | FErr e l' pos' ev =>
      Forall (ev_ok mo a0) ev ->
      exists p', parse_record pl PB V p = (Err e, p') /\ step cap rep a0 p l pos p' l' pos'
  end.
Proof.
  intros O V p l pos Hr Hw. pose proof (Ref_collect p l pos Hr Hw) as H.
  rewrite record_eq. unfold bind at 1 2.
  destruct (f_record pl _ l pos) as [[b md] l' pos' ev|e l' pos' ev]; intros He.
  - destruct (H He) as ([bc md'] & p' & E & [[H1 H2] H3] & Hs). cbn [fst snd] in *. subst md'.
    exists bc, p'. rewrite E. cbn [lift fst snd]. auto.
  - destruct (H He) as (p' & E & Hs). exists p'. rewrite E; auto.
Qed.

End Top.
