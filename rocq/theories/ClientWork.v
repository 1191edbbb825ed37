(** How often a program of a client has its parser call the source, and how often memory is reserved for it. *)
From Coq Require Import NArith List Bool Lia.
From Verif Require Import Base BaseFacts Types Platform Config Buf Parser Contract Flat Refine.
From Verif Require Import Instances Prims Records Sample Record Attr Views RefFrame RefTop Safe NoHint Spec.
From Verif Require Import ConfFacts FrameFacts Work WorkTop Client ClientFacts ClientSafe ClientHosts PropsWork.
Import ListNotations.
Open Scope N_scope.

(** The program makes at most [k] calls of methods of [Parser] which read, and [j] more for each byte it takes.  What is
    repeated takes bytes.  The program for the bytes of a record makes its calls on another parser, which are counted as
    well. *)
Fixpoint asks {A : Type} (m : prog A) (j k : N) : Prop :=
  match m with
  | PRet _ | PError _ | PConfig => True
  | PThen m f => exists k1 k2, k1 + k2 <= k /\ asks m j k1 /\ forall x, asks (f x) j k2
  | PTry m | PIf _ m => asks m j k
  | PRepeat _ m _ => exists j0 k0, j0 + k0 <= j /\ 1 + k0 <= k /\ eats m /\ asks m j0 k0
  | PMetadata _ f => exists k0, 1 + k0 <= k /\ forall md, asks (f md) j k0
  | _ => 1 <= k
  end.

Section Judgement.
Context {S : Type} (cap : N) (rep : S -> list N -> N -> Prop) (a0 : N) (calls : S -> N).

Definition Costs {A : Type} (j k : N) (m : M S A) : Prop :=
  forall p l pos, rep (p_buf p) l (a0 + pos) -> wf l ->
  exists r p' l' pos' n, m p = (r, p') /\ done r /\ step cap rep a0 p l pos p' l' pos' /\
    p_off p' = p_off p + n /\ calls (p_buf p') <= calls (p_buf p) + (4 + 18 * j) * n + 18 * k /\
    len (p_log p') <= len (p_log p) + 8 * (j * n + k).

Lemma Costs_leaf : forall A j k (m : M S A) b e q, 1 <= k -> b <= 18 -> e <= 18 -> q <= 8 ->
  Halts cap rep a0 any m -> W rep calls 4 b e q m -> Costs j k m.
Proof.
  intros A j k m b e q Hk Hb He Hq Hh HW p l pos Hr Hw.
  destruct (Hh p l pos Hr Hw) as (r & p' & l' & pos' & E & Hd & _ & Hs).
  destruct (HW p l (a0 + pos) Hr Hw) as (r2 & p2 & n & c & E2 & Hn & Ho & Hc & Hl & Hres).
  rewrite E in E2. injection E2 as <- <-.
  exists r, p', l', pos', n. split; [exact E|]. split; [exact Hd|]. split; [exact Hs|]. split; [exact Ho|].
  assert (Hc2 : c <= 4 * n + 18) by (destruct r; [destruct Hres|..]; cbv beta in *; lia).
  clear - Hc Hc2 Hl Hk Hq. split; nia.
Qed.

Lemma Costs_free : forall A j k (r : out A), done r -> Costs j k (fun p => (r, p)).
Proof.
  intros A j k r Hd p l pos Hr Hw. exists r, p, l, pos, 0. split; [reflexivity|]. split; [exact Hd|].
  split; [now apply step_refl|]. split; [lia|]. split; lia.
Qed.

Lemma Costs_bind : forall A B j k1 k2 k (m : M S A) (f : A -> M S B), k1 + k2 <= k ->
  Costs j k1 m -> (forall x, Costs j k2 (f x)) -> Costs j k (bind m f).
Proof.
  intros A B j k1 k2 k m f Hk Hm Hf p l pos Hr Hw.
  destruct (Hm p l pos Hr Hw) as (r & p1 & l1 & pos1 & n1 & E & Hd & Hs & Ho & Hc & Hl).
  unfold bind. rewrite E. destruct r as [a|e| |]; cbn [done] in Hd; try contradiction.
  - destruct (Hf a p1 l1 pos1 (st_rep _ _ _ _ _ _ _ _ _ Hs) (step_wf _ _ _ _ _ _ _ _ _ Hs Hw))
      as (r & p2 & l2 & pos2 & n2 & E2 & Hd2 & Hs2 & Ho2 & Hc2 & Hl2).
    exists r, p2, l2, pos2, (n1 + n2). split; [exact E2|]. split; [exact Hd2|].
    split; [eapply step_trans; eassumption|]. split; [lia|]. clear - Hc Hc2 Hl Hl2 Hk. split; nia.
  - exists (Err e), p1, l1, pos1, n1. split; [reflexivity|]. split; [exact Hd|]. split; [exact Hs|]. split; [exact Ho|].
    clear - Hc Hl Hk. split; nia.
Qed.

Lemma Costs_try : forall A j k (m : M S A), Costs j k m ->
  Costs j k (fun p => match m p with
                  | (Ok a, p') => (Ok (inr a), p')
                  | (Err e, p') => (Ok (inl e), p')
                  | (Panic, p') => (Panic, p')
                  | (Fuel, p') => (Fuel, p')
                  end).
Proof.
  intros A j k m H p l pos Hr Hw. destruct (H p l pos Hr Hw) as (r & p1 & l1 & pos1 & n & E & Hd & Hrest).
  rewrite E. destruct r as [a|e| |]; cbn [done] in Hd; try contradiction;
    [exists (Ok (inr a))|exists (Ok (inl e))]; exists p1, l1, pos1, n; split; [reflexivity|split; [exact Logic.I|exact Hrest]|
    reflexivity|split; [exact Logic.I|exact Hrest]].
Qed.

Lemma Costs_repeat : forall pl (PB : parsebuf S) mo fin mem A (m : M S A) size n j0 k0 j k,
  contract PB mo fin cap mem rep -> cap <= isize_max pl -> n < 2 ^ 64 -> j0 + k0 <= j -> 1 + k0 <= k ->
  Costs j0 k0 m ->
  (forall p l a x p', rep (p_buf p) l a -> wf l -> m p = (Ok x, p') -> p_off p < p_off p') ->
  Costs j k (parse_repeated_with pl PB size m n).
Proof.
  intros pl PB mo fin mem A m size n j0 k0 j k HC Hcap Hn Hj Hk Hm Ht p l pos Hr Hw. unfold parse_repeated_with.
  assert (E1 : exists b, safe_capacity_bound pl PB size p = (Ok b, p) /\ N.min n b * size <= cap).
  { unfold safe_capacity_bound. destruct (N.eqb_spec size 0) as [->|Hs].
    - eexists. split; [reflexivity|]. lia.
    - set (h := unwrap_or (pb_hint PB (p_buf p)) 16384).
      assert (Hh : h <= cap).
      { unfold h. destruct (pb_hint PB (p_buf p)) as [x|] eqn:Eh; cbn.
        - exact (ct_hint HC _ _ _ _ Hr Eh).
        - exact (ct_nohint HC _ _ _ Hr Eh). }
      exists (h / size). split; [reflexivity|].
      pose proof (N.mul_div_le h size Hs). nia. }
  destruct E1 as (b & E1 & Hb). rewrite (bind_eq _ _ _ _ _ _ _ E1).
  destruct (alloc_ok pl cap rep a0 Hcap _ p l pos Hr Hb) as (p1 & E2 & Hs1).
  rewrite (bind_eq _ _ _ _ _ _ _ E2).
  assert (Hp1 : p_buf p1 = p_buf p /\ p_off p1 = p_off p /\ len (p_log p1) = len (p_log p) + 1).
  { unfold m_alloc in E2. destruct (isize_max pl <? _); [discriminate|]. injection E2 as <-. cbn [p_buf p_off p_log].
    rewrite len_cons. split; [reflexivity|]. split; [reflexivity|]. lia. }
  set (body := fun '(n, vec) =>
    if n =? 0 then ret (inr vec) else x <- m ;; ret (inl (n - 1, vec ++ [x]))).
  set (Q := fun (x : N * list A) (q : parser S) (res : out (list A) * parser S) =>
    forall l pos, rep (p_buf q) l (a0 + pos) -> wf l ->
    exists r p' l' pos' t, res = (r, p') /\ done r /\ step cap rep a0 q l pos p' l' pos' /\
      p_off p' = p_off q + t /\ calls (p_buf p') <= calls (p_buf q) + (4 + 18 * (j0 + k0)) * t + 18 * k0 /\
      len (p_log p') <= len (p_log q) + 8 * ((j0 + k0) * t + k0)).
  assert (G : forall i (vec : list A) q, i < 2 ^ 64 -> Q (i, vec) q (loop body (i, vec) q)).
  { intros i vec q Hi.
    apply (loop_rule body (fun i x q => fst x = i)) with (k := i); [|reflexivity|assumption].
    clear - Hm Ht. intros i [n vec] q E. cbn [fst] in E. subst i. unfold body at 1.
    destruct (N.eqb_spec n 0) as [->|Hn].
    { cbn [ret]. intros l pos Hr Hw. exists (Ok vec), q, l, pos, 0.
      split; [reflexivity|]. split; [exact Logic.I|]. split; [now apply step_refl|]. lia. }
    unfold bind, ret. destruct (m q) as [[a|e| |] q1] eqn:Em.
    - exists (n - 1). split; [lia|]. split; [reflexivity|].
      intros res HQ l pos Hr Hw. destruct (Hm q l pos Hr Hw) as (r & p' & l' & pos' & t1 & E & _ & Hs & Ho & Hc & Hl).
      pose proof (Ht _ _ _ _ _ Hr Hw Em) as Hpos.
      rewrite Em in E. injection E as <- <-.
      destruct (HQ l' pos' (st_rep _ _ _ _ _ _ _ _ _ Hs) (step_wf _ _ _ _ _ _ _ _ _ Hs Hw))
        as (r & p2 & l2 & pos2 & t2 & -> & Hd & Hs2 & Ho2 & Hc2 & Hl2).
      exists r, p2, l2, pos2, (t1 + t2). split; [reflexivity|]. split; [exact Hd|].
      split; [eapply step_trans; eassumption|]. split; [lia|].
      assert (H1 : 1 <= t1) by lia. clear - Hc Hc2 Hl Hl2 H1. split; nia.
    - intros l pos Hr Hw. destruct (Hm q l pos Hr Hw) as (r & p' & l' & pos' & t1 & E & _ & Hs & Ho & Hc & Hl).
      rewrite Em in E. injection E as <- <-. exists (Err e), q1, l', pos', t1. split; [reflexivity|].
      split; [exact Logic.I|]. split; [exact Hs|]. split; [exact Ho|]. clear - Hc Hl. split; nia.
    - intros l pos Hr Hw. destruct (Hm q l pos Hr Hw) as (r & p' & l' & pos' & t1 & E & Hd & _).
      rewrite Em in E. injection E as <- <-. contradiction.
    - intros l pos Hr Hw. destruct (Hm q l pos Hr Hw) as (r & p' & l' & pos' & t1 & E & Hd & _).
      rewrite Em in E. injection E as <- <-. contradiction. }
  destruct (G n [] p1 Hn l pos (st_rep _ _ _ _ _ _ _ _ _ Hs1) Hw)
    as (r & p' & l' & pos' & t & E & Hd & Hs & Ho & Hc & Hl).
  destruct Hp1 as (Eb & Eo & El). rewrite Eb in Hc. rewrite Eo in Ho. rewrite El in Hl.
  exists r, p', l', pos', t. split; [exact E|]. split; [exact Hd|]. split; [eapply step_trans; eassumption|].
  split; [exact Ho|]. clear - Hc Hl Hj Hk. split; nia.
Qed.
End Judgement.

(** What takes bytes takes one. *)
Lemma leaf_takes : forall pl A (m : prog A), pl_ok pl -> calm m -> takes (flat pl m) ->
  forall S (PB : parsebuf S) mo fin cap mem rep p l a x p', contract PB mo fin cap mem rep -> cap <= isize_max pl ->
  rep (p_buf p) l a -> wf l -> run pl m S PB p = (Ok x, p') -> p_off p < p_off p'.
Proof.
  intros pl A m Hpl Hc Ht S PB mo fin cap mem rep p l a x p' HC Hcap Hr Hw E.
  assert (Hs : source PB mo fin cap mem p l a) by (exists rep; auto).
  pose proof (run_flat pl A m S PB mo fin cap mem p l a Hpl Hcap Hc Hs) as G.
  specialize (Ht (mkEnv (p_cfg p) fin) l 0 Hw).
  destruct (flat pl m _ l 0) as [y l' n ev|e l' n ev]; destruct G as (El & q & Eq & Hm); rewrite E in Eq; [|discriminate].
  injection Eq as <- <-. destruct Hm as (Hn & _ & _ & Ho). subst l'. rewrite len_drop in Ht. lia.
Qed.

Lemma uint_takes : forall pl n, 1 <= n -> takes (f_uint pl n).
Proof.
  intros pl n Hn env l pos Hw. unfold f_uint, fbind, f_take. destruct l as [|b l]; [exact Logic.I|].
  destruct (N.ltb_spec (len (b :: l)) n); [exact Logic.I|]. cbn [fcfg fret]. rewrite len_drop. lia.
Qed.

Lemma take_takes : forall pl n, pl_ok pl -> 1 <= n < 2 ^ 32 -> takes (f_take (as_usize pl n)).
Proof.
  intros pl n Hpl Hn env l pos Hw. unfold f_take. destruct l as [|b l]; [exact Logic.I|].
  assert (E : as_usize pl n = n).
  { unfold as_usize. apply N.mod_small. destruct Hpl as [E|E]; rewrite E; lia. }
  rewrite E. destruct (N.ltb_spec (len (b :: l)) n); [exact Logic.I|]. rewrite len_drop. lia.
Qed.

Section Run.
Context (pl : platform) (Hpl : pl_ok pl).

Lemma run_off : forall A (m : prog A) S (PB : parsebuf S) mo fin cap mem rep p l a r p',
  contract PB mo fin cap mem rep -> 65536 <= cap -> cap <= isize_max pl -> rep (p_buf p) l a -> wf l ->
  run pl m S PB p = (r, p') -> p_off p <= p_off p' /\ exists l' a', rep (p_buf p') l' a' /\ wf l'.
Proof.
  intros A m S PB mo fin cap mem rep p l a r p' HC H16 Hcap Hr Hw E.
  rewrite <- (N.add_0_r a) in Hr.
  destruct (run_halts pl Hpl A m S PB mo fin cap mem rep a HC H16 Hcap p l 0 Hr Hw) as (r2 & p2 & l' & pos' & E2 & _ & _ & Hs).
  rewrite E in E2. injection E2 as <- <-. split.
  - destruct (st_len _ _ _ _ _ _ _ _ _ Hs) as (k & _ & _ & _ & ->). lia.
  - exists l', (a + pos'). split; [apply (st_rep _ _ _ _ _ _ _ _ _ Hs)|apply (step_wf _ _ _ _ _ _ _ _ _ Hs Hw)].
Qed.

Lemma eats_takes : forall A (m : prog A), eats m ->
  forall S (PB : parsebuf S) mo fin cap mem rep p l a x p', contract PB mo fin cap mem rep -> 65536 <= cap ->
  cap <= isize_max pl -> rep (p_buf p) l a -> wf l -> run pl m S PB p = (Ok x, p') -> p_off p < p_off p'.
Proof.
  assert (Leaf : forall A (m : prog A), calm m -> takes (flat pl m) ->
    forall S (PB : parsebuf S) mo fin cap mem rep p l a x p', contract PB mo fin cap mem rep -> 65536 <= cap ->
    cap <= isize_max pl -> rep (p_buf p) l a -> wf l -> run pl m S PB p = (Ok x, p') -> p_off p < p_off p').
  { intros. eapply (leaf_takes pl A m); eassumption. }
  intros A m. induction m; intros He; cbn [eats] in He; try contradiction.
  - intros S PB mo fin cap mem rep p0 l a x p' HC H16 Hcap Hr Hw E. cbn [run] in E. unfold bind in E.
    destruct (run pl m S PB p0) as [[y|e| |] q] eqn:E1; try discriminate.
    destruct (run_off _ m S PB mo fin cap mem rep p0 l a _ _ HC H16 Hcap Hr Hw E1) as (H1 & l' & a' & Hr' & Hw').
    destruct (run_off _ (p y) S PB mo fin cap mem rep q l' a' _ _ HC H16 Hcap Hr' Hw' E) as (H2 & _).
    destruct He as [He|He].
    + pose proof (IHm He _ _ _ _ _ _ _ _ _ _ _ _ HC H16 Hcap Hr Hw E1). lia.
    + pose proof (H y (He y) _ _ _ _ _ _ _ _ _ _ _ _ HC H16 Hcap Hr' Hw' E). lia.
  - intros S PB mo fin cap mem rep p0 l a x p' HC H16 Hcap Hr Hw E. discriminate E.
  - apply Leaf; [exact Logic.I|]. apply uint_takes. lia.
  - apply Leaf; [exact Logic.I|]. apply uint_takes. lia.
  - apply Leaf; [exact Logic.I|]. apply uint_takes. lia.
  - apply Leaf; [exact Logic.I|]. apply uint_takes. lia.
  - apply Leaf; [exact Logic.I|]. now apply take_takes.
  - apply Leaf; [exact Logic.I|]. now apply take_takes.
  - destruct He as [-> He]. intros S PB mo fin cap mem rep p0 l a x p' HC H16 Hcap Hr Hw E.
    cbn [run parse_if] in E. unfold parse_if, bind in E.
    destruct (run pl m S PB p0) as [[y|e| |] q] eqn:E1; try discriminate. injection E as _ <-.
    exact (IHm He _ _ _ _ _ _ _ _ _ _ _ _ HC H16 Hcap Hr Hw E1).
Qed.

(** The bytes of a record are no more than were taken. *)
Lemma metadata_len : forall h env l pos y l' pos' ev,
  f_metadata_with_header pl h env l pos = FOk y l' pos' ev -> len (fst (fst y)) <= pos' - pos.
Proof.
  intros h env l pos y l' pos' ev. unfold f_metadata_with_header.
  destruct (h_size h <? 8); [discriminate|]. unfold fbind, f_split at 1.
  assert (T : forall n e l pos d l1 pos1 ev1, f_take n e l pos = FOk d l1 pos1 ev1 -> len d = n /\ pos1 = pos + n).
  { clear. intros n e l pos d l1 pos1 ev1. unfold f_take. destruct l as [|b l]; [discriminate|].
    destruct (N.ltb_spec (len (b :: l)) n); [discriminate|]. intros E.
    assert (E1 : d = take n (b :: l)) by congruence. assert (E2 : pos1 = pos + n) by congruence.
    rewrite E1, E2, len_take. split; [lia|reflexivity]. }
  set (n := h_size h - 8). intros E.
  assert (G : exists st l1 pos1 ev1,
    (if n =? 0 then FOk ([], pos) l pos [] else match f_take n env l pos with
     | FOk d l' pos' ev => FOk (d, pos) l' pos' ev | FErr e l' pos' ev => FErr e l' pos' ev end) = FOk st l1 pos1 ev1 /\
    len (fst st) = n /\ pos1 = pos + n).
  { destruct (N.eqb_spec n 0) as [E0|_].
    - rewrite E0. exists ([], pos), l, pos, []. split; [reflexivity|]. cbn. lia.
    - destruct (f_take n env l pos) as [d l1 pos1 ev1|] eqn:Et; [|discriminate E]. exists (d, pos), l1, pos1, ev1.
      split; [reflexivity|]. exact (T _ _ _ _ _ _ _ _ Et). }
  destruct G as (st & l1 & pos1 & ev1 & Eg & Hlen & Hpos). rewrite Eg in E.
  destruct (_ || _).
  - cbn [fret] in E. injection E as <- _ <- _. cbn [fst]. lia.
  - cbn [fcfg] in E. destruct (n <? estimate_len (fe_cfg env)); [discriminate E|].
    unfold f_sub, f_split in E.
    destruct (N.eqb_spec (n - estimate_len (fe_cfg env)) 0) as [E0|_].
    + destruct (f_sample_id pl _ _ _); [|discriminate E]. cbn [fret] in E. injection E as <- _ <- _. cbn. lia.
    + destruct (f_take (n - estimate_len (fe_cfg env)) _ (fst st) (snd st)) as [d l2 pos2 ev2|] eqn:Et; [|discriminate E].
      destruct (T _ _ _ _ _ _ _ _ Et) as [Hd _].
      destruct (f_sample_id pl _ l2 pos2); [|discriminate E]. cbn [fret] in E. injection E as <- _ <- _. cbn [fst]. lia.
Qed.

Lemma Costs_metadata : forall A (f : metadata -> prog A) S (PB : parsebuf S) mo fin cap mem rep a0 calls h j k0 k,
  contract PB mo fin cap mem rep -> 65536 <= cap -> cap <= isize_max pl -> counts PB calls -> 1 + k0 <= k ->
  (forall md, Costs cap (cursor_rep mo cap mem) a0 (fun _ => 0) j k0 (run pl (f md) cursor cursor_buf)) ->
  Costs cap rep a0 calls j k (run pl (PMetadata h f) S PB).
Proof.
  intros A f S PB mo fin cap mem rep a0 calls h j k0 k HC H16 Hcap Hcalls Hk Hf p l pos Hr Hw. cbn [run].
  assert (Hh : h_size (header_of h) < 65536) by (cbn; apply N.mod_lt; lia).
  pose proof (RefC_metadata_with_header pl PB mo fin cap mem rep a0 HC H16 (p_cfg p) (header_of h) Hh p l pos eq_refl Hr Hw) as G.
  pose proof (noev_metadata_with_header pl (header_of h) (mkEnv (p_cfg p) fin) l pos) as Hev.
  pose proof (metadata_len (header_of h) (mkEnv (p_cfg p) fin) l pos) as Hlen.
  destruct (W_metadata_with_header pl PB mo fin cap mem rep calls HC Hcalls ltac:(lia) Hcap (header_of h) ltac:(lia)
    p l _ Hr Hw) as (rw & pw & n & c & Ew & Hn & Ho & Hc & Hl & Hres).
  destruct (f_metadata_with_header pl (header_of h) (mkEnv (p_cfg p) fin) l pos) as [y l1 pos1 ev1|e l1 pos1 ev1]; subst ev1.
  - specialize (Hlen _ _ _ _ eq_refl).
    destruct (G (Forall_nil _)) as (x & p1 & E & (Es & n' & Hn' & (Ec & Eo & El & Eof & Elen & Hwq & Hrep)) & Hs).
    rewrite E in Ew. injection Ew as <- <-. rewrite (bind_eq _ _ _ _ _ _ _ E).
    assert (Hrep2 : cursor_rep mo cap mem (p_buf (fst x)) (fst (fst y)) (a0 + snd (fst y)))
      by (eapply cursor_rep_mono; [|exact Hrep]; lia).
    destruct (Hf (snd x) (fst x) _ _ Hrep2 Hwq) as (r & q' & d' & a' & t & E2 & Hd & Hs2 & Ho2 & _ & Hl2).
    assert (Ht : t <= n).
    { destruct (st_len _ _ _ _ _ _ _ _ _ Hs2) as (k2 & Hk2 & _ & _ & Hk3).
      destruct (st_len _ _ _ _ _ _ _ _ _ Hs) as (k4 & _ & _ & Hk4 & Hk5). lia. }
    destruct (st_log _ _ _ _ _ _ _ _ _ Hs2) as (new & Enew & Hnew). rewrite El, app_nil_r in Enew.
    unfold sub. rewrite E2. eexists _, _, l1, pos1, n. split; [reflexivity|]. split; [exact Hd|].
    split.
    { eapply step_trans; [exact Hs|]. constructor; cbn [p_buf p_cfg p_off p_log].
      - exact (st_rep _ _ _ _ _ _ _ _ _ Hs).
      - reflexivity.
      - exists 0. rewrite drop_0. repeat split; lia.
      - exists new. split; [now rewrite Enew|exact Hnew]. }
    cbn [p_buf p_off p_log]. split; [exact Ho|]. destruct Hres as [_ Hc2]. cbv beta in Hc2.
    rewrite len_app. rewrite El in Hl2. change (len (@nil N)) with 0 in Hl2.
    clear - Hc Hc2 Hl Hl2 Hk Ht. split; [nia|]. assert (j * t <= j * n) by (apply N.mul_le_mono_l; exact Ht). lia.
  - destruct (G (Forall_nil _)) as (p1 & E & Hs). rewrite E in Ew. injection Ew as <- <-.
    unfold bind. rewrite E. exists (Err e), p1, l1, pos1, n. split; [reflexivity|]. split; [exact Logic.I|].
    split; [exact Hs|]. split; [exact Ho|]. clear - Hc Hl Hres Hk. split; nia.
Qed.

Lemma run_costs : forall A (m : prog A) j k, asks m j k ->
  forall S (PB : parsebuf S) mo fin cap mem rep a0 calls,
  contract PB mo fin cap mem rep -> 65536 <= cap -> cap <= isize_max pl -> counts PB calls ->
  Costs cap rep a0 calls j k (run pl m S PB).
Proof.
  assert (Leaf : forall A (m : prog A) k, 1 <= k ->
    (forall S (PB : parsebuf S) mo fin cap mem rep calls, contract PB mo fin cap mem rep -> counts PB calls ->
       W rep calls 4 16 18 8 (run pl m S PB)) ->
    forall j S (PB : parsebuf S) mo fin cap mem rep a0 calls,
    contract PB mo fin cap mem rep -> 65536 <= cap -> cap <= isize_max pl -> counts PB calls ->
    Costs cap rep a0 calls j k (run pl m S PB)).
  { intros A m k Hk HW j S PB mo fin cap mem rep a0 calls HC H16 Hcap Hcalls.
    eapply Costs_leaf with (b := 16) (e := 18) (q := 8); [exact Hk|lia|lia|lia|eapply run_halts; eassumption|].
    eapply HW; eassumption. }
  intros A m. induction m; intros j k Ha; cbn [asks] in Ha;
    try (apply Leaf; [exact Ha|]; intros S PB mo fin cap mem rep calls HC Hcalls; cbn [run]);
    try (intros S PB mo fin cap mem rep a0 calls HC H16 Hcap Hcalls).
  - now apply (Costs_free cap rep a0 calls A j k (Ok a)).
  - destruct Ha as (k1 & k2 & Hk & H1 & H2). cbn [run]. eapply Costs_bind; [exact Hk|eapply IHm; eassumption|].
    intros x. eapply H; eauto.
  - now apply (Costs_free cap rep a0 calls A j k (Err p)).
  - cbn [run]. apply Costs_try. eapply IHm; eassumption.
  - intros p. exact (Costs_free cap rep a0 calls _ j k (Ok (p_cfg p)) Logic.I p).
  - eapply W_mono; [eapply W_u8; eassumption|lia..].
  - eapply W_mono; [eapply W_u16; eassumption|lia..].
  - eapply W_mono; [eapply W_u32; eassumption|lia..].
  - eapply W_mono; [eapply W_u64; eassumption|lia..].
  - eapply W_mono; [eapply W_array; eassumption|lia..].
  - apply W_map. eapply W_mono; [eapply W_bytes; eassumption|lia..].
  - apply W_map. eapply W_mono; [eapply W_rest; eassumption|lia..].
  - apply W_map. eapply W_mono; [eapply W_string; eassumption|lia..].
  - cbn [run]. unfold parse_if. destruct b.
    + eapply Costs_bind with (k1 := k) (k2 := 0); [lia|eapply IHm; eassumption|].
      intros x. now apply (Costs_free cap rep a0 calls _ j 0 (Ok (Some x))).
    + now apply (Costs_free cap rep a0 calls _ j k (Ok None)).
  - destruct Ha as (j0 & k0 & Hj & Hk & He & Ha). cbn [run].
    eapply Costs_repeat; try eassumption; [|eapply IHm; eassumption|].
    + unfold as_usize. pose proof (N.mod_lt n0 (2 ^ pl_bits pl) ltac:(now apply N.pow_nonzero)).
      destruct Hpl as [E|E]; rewrite E in *; lia.
    + intros p l a x p' Hr Hw E. exact (eats_takes A m He _ _ _ _ _ _ _ _ _ _ _ _ HC H16 Hcap Hr Hw E).
  - eapply W_mono; [eapply W_sample_id; eassumption|lia..].
  - eapply W_mono; [eapply attr_work; eassumption|lia..].
  - apply W_map. eapply W_mono; [eapply W_slice_u64; eassumption|lia..].
  - apply W_map. eapply W_mono; [eapply W_body; eassumption|lia..].
  - eapply W_mono; [eapply with_header_work; try eassumption|lia..]. cbn. apply N.mod_lt. lia.
  - destruct Ha as (k0 & Hk & Ha). eapply Costs_metadata; try eassumption. intros md.
    eapply H; [apply Ha|apply cursor_contract|assumption|assumption|apply zero_counts].
Qed.
End Run.
