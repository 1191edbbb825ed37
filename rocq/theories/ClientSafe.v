(** Every program of Client.v ends on every source, and keeps to the bytes of the record it is
    given. *)
From Coq Require Import NArith List Bool Lia.
From Verif Require Import Base BaseFacts Types Platform Config Buf Parser Contract Flat Refine.
From Verif Require Import Instances Prims Slices Records Record Attr Views RefRecords RefFrame RefTop Safe.
From Verif Require Import ConfFacts Spec FrameFacts Client ClientFacts.
Import ListNotations.
Open Scope N_scope.

Definition done {A : Type} (r : out A) : Prop :=
  match r with Ok _ | Err _ => True | Panic | Fuel => False end.

Section Judgement.
Context {S : Type} (cap : N) (rep : S -> list N -> N -> Prop) (a0 : N).

Definition Halts {A : Type} (Q : A -> Prop) (m : M S A) : Prop :=
  forall p l pos, rep (p_buf p) l (a0 + pos) -> wf l ->
  exists r p' l' pos', m p = (r, p') /\ done r /\ match r with Ok a => Q a | _ => True end /\
    step cap rep a0 p l pos p' l' pos'.

Lemma Halts_safe : forall A fin (Q : A -> Prop) m, Safe fin cap rep a0 Q m -> Halts Q m.
Proof.
  intros A fin Q m H p l pos Hr Hw. destruct (H p l pos Hr Hw) as (r & p' & l' & pos' & E & Hg & Hs).
  exists r, p', l', pos'. split; [exact E|]. destruct r; cbn in *; tauto.
Qed.

Lemma Halts_any : forall A (Q : A -> Prop) m, Halts Q m -> Halts any m.
Proof.
  intros A Q m H p l pos Hr Hw. destruct (H p l pos Hr Hw) as (r & p' & l' & pos' & E & Hd & Hq & Hs).
  exists r, p', l', pos'. split; [exact E|]. split; [exact Hd|]. split; [|exact Hs]. destruct r; exact I.
Qed.

Lemma Halts_ret : forall A (Q : A -> Prop) a, Q a -> Halts Q (ret a).
Proof.
  intros A Q a HQ p l pos Hr Hw. exists (Ok a), p, l, pos.
  split; [reflexivity|]. split; [exact I|]. split; [exact HQ|now apply step_refl].
Qed.

Lemma Halts_fail : forall A (Q : A -> Prop) e, Halts Q (fail e).
Proof.
  intros A Q e p l pos Hr Hw. exists (Err e), p, l, pos.
  split; [reflexivity|]. split; [exact I|]. split; [exact I|now apply step_refl].
Qed.

Lemma Halts_bind : forall A B (Q : A -> Prop) (Q' : B -> Prop) m k,
  Halts Q m -> (forall a, Q a -> Halts Q' (k a)) -> Halts Q' (bind m k).
Proof.
  intros A B Q Q' m k Hm Hk p l pos Hr Hw.
  destruct (Hm p l pos Hr Hw) as (r & p1 & l1 & pos1 & E & Hd & Hq & Hs).
  unfold bind. rewrite E. destruct r as [a|e| |]; cbn [done] in Hd; try contradiction.
  - destruct (Hk a Hq p1 l1 pos1 (st_rep _ _ _ _ _ _ _ _ _ Hs) (step_wf _ _ _ _ _ _ _ _ _ Hs Hw))
      as (r & p2 & l2 & pos2 & E2 & Hd2 & Hq2 & Hs2).
    exists r, p2, l2, pos2. split; [exact E2|]. split; [exact Hd2|]. split; [exact Hq2|].
    eapply step_trans; eassumption.
  - exists (Err e), p1, l1, pos1. auto.
Qed.

Lemma Halts_try : forall A (m : M S A), Halts any m ->
  Halts any (fun p => match m p with
                  | (Ok a, p') => (Ok (inr a), p')
                  | (Err e, p') => (Ok (inl e), p')
                  | (Panic, p') => (Panic, p')
                  | (Fuel, p') => (Fuel, p')
                  end).
Proof.
  intros A m H p l pos Hr Hw. destruct (H p l pos Hr Hw) as (r & p1 & l1 & pos1 & E & Hd & _ & Hs).
  rewrite E. destruct r as [a|e| |]; cbn [done] in Hd; try contradiction.
  - exists (Ok (inr a)), p1, l1, pos1. split; [reflexivity|]. split; [exact I|]. split; [exact I|exact Hs].
  - exists (Ok (inl e)), p1, l1, pos1. split; [reflexivity|]. split; [exact I|]. split; [exact I|exact Hs].
Qed.

Lemma Halts_sub : forall A S2 (rep2 : S2 -> list N -> N -> Prop) a2 (m : M S2 A) q d a,
  (forall l pos, rep2 (p_buf q) l (a2 + pos) -> wf l ->
     exists r p' l' pos', m q = (r, p') /\ done r /\ step cap rep2 a2 q l pos p' l' pos') ->
  p_log q = [] -> rep2 (p_buf q) d (a2 + a) -> wf d ->
  forall p l pos, rep (p_buf p) l (a0 + pos) ->
  exists r p', sub m q p = (r, p') /\ done r /\ step cap rep a0 p l pos p' l pos.
Proof.
  intros A S2 rep2 a2 m q d a Hm Hlog Hrep Hwd p l pos Hr.
  destruct (Hm d a Hrep Hwd) as (r & q' & d' & a' & E & Hd & [_ _ _ (new & El & Hn)]).
  rewrite Hlog, app_nil_r in El. unfold sub. rewrite E.
  eexists; eexists. split; [reflexivity|]. split; [exact Hd|].
  constructor; cbn; [assumption|reflexivity| |].
  - exists 0; rewrite drop_0; repeat split; lia.
  - exists new; split; [congruence|assumption].
Qed.

Lemma Halts_repeat : forall pl (PB : parsebuf S) mo fin mem A (m : M S A) size n,
  contract PB mo fin cap mem rep -> cap <= isize_max pl -> Halts any m -> n < 2 ^ 64 ->
  Halts any (parse_repeated_with pl PB size m n).
Proof.
  intros pl PB mo fin mem A m size n HC Hcap Hm Hn p l pos Hr Hw. unfold parse_repeated_with.
  assert (E1 : exists b, safe_capacity_bound pl PB size p = (Ok b, p) /\ N.min n b * size <= cap).
  { unfold safe_capacity_bound. destruct (N.eqb_spec size 0) as [->|Hs].
    - eexists. split; [reflexivity|]. lia.
    - set (h := unwrap_or (pb_hint PB (p_buf p)) 16384).
      assert (Hh : h <= cap).
      { unfold h. destruct (pb_hint PB (p_buf p)) as [x|] eqn:Eh; cbn.
        - exact (ct_hint HC _ _ _ _ Hr Eh).
        - exact (ct_nohint HC _ _ _ Hr Eh). }
      exists (h / size). split; [reflexivity|].
      pose proof (N.mul_div_le h size Hs). nia. }
  destruct E1 as (b & E1 & Hb). rewrite (bind_eq _ _ _ _ _ _ _ E1).
  destruct (alloc_ok pl cap rep a0 Hcap _ p l pos Hr Hb) as (p1 & E2 & Hs1).
  rewrite (bind_eq _ _ _ _ _ _ _ E2).
  set (body := fun '(n, vec) =>
    if n =? 0 then ret (inr vec) else x <- m ;; ret (inl (n - 1, vec ++ [x]))).
  set (Q := fun (x : N * list A) (q : parser S) (res : out (list A) * parser S) =>
    forall l pos, rep (p_buf q) l (a0 + pos) -> wf l ->
    exists r p' l' pos', res = (r, p') /\ done r /\ step cap rep a0 q l pos p' l' pos').
  assert (G : forall k (vec : list A) q, k < 2 ^ 64 -> Q (k, vec) q (loop body (k, vec) q)).
  { intros k vec q Hk.
    apply (loop_rule body (fun k x q => fst x = k)) with (k := k); [|reflexivity|assumption].
    clear - Hm. intros k [n vec] q E. cbn [fst] in E. subst k. unfold body at 1.
    destruct (N.eqb_spec n 0) as [->|Hn].
    { cbn [ret]. intros l pos Hr Hw. exists (Ok vec), q, l, pos.
      split; [reflexivity|]. split; [exact I|]. now apply step_refl. }
    unfold bind, ret. destruct (m q) as [[a|e| |] q1] eqn:Em.
    - exists (n - 1). split; [lia|]. split; [reflexivity|].
      intros res HQ l pos Hr Hw. destruct (Hm q l pos Hr Hw) as (r & p' & l' & pos' & E & _ & _ & Hs).
      rewrite Em in E. injection E as <- <-.
      destruct (HQ l' pos' (st_rep _ _ _ _ _ _ _ _ _ Hs) (step_wf _ _ _ _ _ _ _ _ _ Hs Hw))
        as (r & p2 & l2 & pos2 & -> & Hd & Hs2).
      exists r, p2, l2, pos2. split; [reflexivity|]. split; [exact Hd|]. eapply step_trans; eassumption.
    - intros l pos Hr Hw. destruct (Hm q l pos Hr Hw) as (r & p' & l' & pos' & E & _ & _ & Hs).
      rewrite Em in E. injection E as <- <-. exists (Err e), q1, l', pos'. split; [reflexivity|]. split; [exact I|exact Hs].
    - intros l pos Hr Hw. destruct (Hm q l pos Hr Hw) as (r & p' & l' & pos' & E & Hd & _).
      rewrite Em in E. injection E as <- <-. contradiction.
    - intros l pos Hr Hw. destruct (Hm q l pos Hr Hw) as (r & p' & l' & pos' & E & Hd & _).
      rewrite Em in E. injection E as <- <-. contradiction. }
  destruct (G n [] p1 Hn l pos (st_rep _ _ _ _ _ _ _ _ _ Hs1) Hw) as (r & p' & l' & pos' & E & Hd & Hs).
  exists r, p', l', pos'. split; [exact E|]. split; [exact Hd|]. split; [destruct r; exact I|].
  eapply step_trans; eassumption.
Qed.
End Judgement.

(** The sub-parser for a record, and where the outer one is left. *)
Lemma metadata_halts : forall pl, pl_ok pl -> forall A (k : metadata -> prog A) S (PB : parsebuf S) mo fin cap mem rep a0 h,
  contract PB mo fin cap mem rep -> 65536 <= cap -> cap <= isize_max pl ->
  (forall md, Halts cap (cursor_rep mo cap mem) a0 any (run pl (k md) cursor cursor_buf)) ->
  forall p l pos, rep (p_buf p) l (a0 + pos) -> wf l ->
  exists r p' l' pos', run pl (PMetadata h k) S PB p = (r, p') /\ done r /\ step cap rep a0 p l pos p' l' pos' /\
    (8 <= h_size h < 65536 -> h_size h - 8 <= len l -> pos' = pos + (h_size h - 8)).
Proof.
  intros pl Hpl A k S PB mo fin cap mem rep a0 h HC H16 Hcap Hk p l pos Hr Hw. cbn [run].
  assert (Hh : h_size (header_of h) < 65536) by (cbn; apply N.mod_lt; lia).
  pose proof (RefC_metadata_with_header pl PB mo fin cap mem rep a0 HC H16 (p_cfg p) (header_of h) Hh p l pos eq_refl Hr Hw) as G.
  pose proof (noev_metadata_with_header pl (header_of h) (mkEnv (p_cfg p) fin) l pos) as Hev.
  pose proof (fun H1 H2 => metadata_ends pl (fun _ => ffail eof_error) (fun _ => ffail eof_error) unit
                (fun _ => PRet tt) h (mkEnv (p_cfg p) fin) l pos H1 H2) as He.
  unfold ends in He. cbn [flat_by] in He. unfold fbind, fcfg, f_sub in He.
  destruct (f_metadata_with_header pl (header_of h) (mkEnv (p_cfg p) fin) l pos) as [y l1 pos1 ev1|e l1 pos1 ev1]; subst ev1.
  - destruct (G (Forall_nil _)) as (x & p1 & E & (Es & n & Hn & (Ec & Eo & El & Eof & Elen & Hwq & Hrep)) & Hs).
    rewrite (bind_eq _ _ _ _ _ _ _ E).
    destruct (Halts_sub cap rep a0 A cursor (cursor_rep mo cap mem) a0 (run pl (k (snd x)) cursor cursor_buf)
      (fst x) (fst (fst y)) (snd (fst y))) with (p := p1) (l := l1) (pos := pos1) as (r & p2 & E2 & Hd & Hs2).
    + intros l2 pos2 Hr2 Hw2. destruct (Hk (snd x) (fst x) l2 pos2 Hr2 Hw2) as (r & p' & l' & pos' & H1 & H2 & _ & H3). eauto 10.
    + exact El.
    + eapply cursor_rep_mono; [|exact Hrep]. lia.
    + exact Hwq.
    + exact (st_rep _ _ _ _ _ _ _ _ _ Hs).
    + exists r, p2, l1, pos1. split; [exact E2|]. split; [exact Hd|]. split; [eapply step_trans; eassumption|].
      intros H1 H2. specialize (He H1 H2). exact He.
  - destruct (G (Forall_nil _)) as (p1 & E & Hs). unfold bind. rewrite E.
    exists (Err e), p1, l1, pos1. split; [reflexivity|]. split; [exact I|]. split; [exact Hs|exact He].
Qed.

Lemma run_halts : forall pl, pl_ok pl -> forall A (m : prog A) S (PB : parsebuf S) mo fin cap mem rep a0,
  contract PB mo fin cap mem rep -> 65536 <= cap -> cap <= isize_max pl ->
  Halts cap rep a0 any (run pl m S PB).
Proof.
  intros pl Hpl A m. induction m; intros S PB mo fin cap mem rep a0 HC H16 Hcap; cbn [run].
  - now apply Halts_ret.
  - eapply Halts_bind; [eapply IHm; eassumption|]. intros a _. eapply H; eassumption.
  - apply Halts_fail.
  - apply Halts_try. eapply IHm; eassumption.
  - eapply Halts_safe with (fin := fin), Safe_cfg.
  - eapply Halts_any, Halts_safe, s_u8; eassumption.
  - eapply Halts_any, Halts_safe, s_u16; eassumption.
  - eapply Halts_any, Halts_safe, s_u32; eassumption.
  - eapply Halts_any, Halts_safe, s_u64; eassumption.
  - eapply Halts_any, Halts_safe, s_array; eassumption.
  - eapply Halts_bind; [eapply Halts_safe, s_bytes; eassumption|]. intros; now apply Halts_ret.
  - eapply Halts_bind; [eapply Halts_safe, s_rest; eassumption|]. intros; now apply Halts_ret.
  - eapply Halts_bind; [eapply Halts_safe, s_string; eassumption|]. intros; now apply Halts_ret.
  - destruct b; unfold parse_if; [|now apply Halts_ret].
    eapply Halts_bind; [eapply IHm; eassumption|]. intros; now apply Halts_ret.
  - eapply Halts_repeat; try eassumption; [eapply IHm; eassumption|].
    unfold as_usize. pose proof (N.mod_lt n (2 ^ pl_bits pl) ltac:(now apply N.pow_nonzero)).
    destruct Hpl as [E|E]; rewrite E in *; lia.
  - eapply Halts_any, Halts_safe, s_sample_id; eassumption.
  - eapply Halts_any, Halts_safe, s_attr; eassumption.
  - eapply Halts_bind; [eapply Halts_safe, s_slice_u64; eassumption|]. intros; now apply Halts_ret.
  - eapply Halts_bind; [eapply Halts_safe, s_body; eassumption|]. intros; now apply Halts_ret.
  - intros p l pos Hr Hw. rewrite run_record. revert p l pos Hr Hw.
    change (Halts cap rep a0 any (r <- collect_with_header pl PB (header_of h) ;; ret (view_body (fst r), snd r))).
    eapply Halts_bind; [|intros; now apply Halts_ret].
    eapply Halts_safe, s_collect_with_header; try eassumption. cbn [h_size header_of].
    pose proof (N.mod_lt (h_size h) 65536 ltac:(lia)). lia.
  - rename p into k. intros p l pos Hr Hw.
    destruct (metadata_halts pl Hpl A k S PB mo fin cap mem rep a0 h HC H16 Hcap) with (p := p) (l := l) (pos := pos)
      as (r & p' & l' & pos' & E & Hd & Hs & _); try assumption.
    + intros md. eapply H; [apply cursor_contract|assumption|assumption].
    + exists r, p', l', pos'. split; [exact E|]. split; [exact Hd|]. split; [destruct r; exact I|exact Hs].
Qed.
