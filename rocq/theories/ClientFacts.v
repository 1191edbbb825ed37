(** Programs of Client.v on plain lists of bytes, and that every source runs them so. *)
From Coq Require Import NArith List Bool Lia.
From Verif Require Import Base BaseFacts Types Platform Config Buf Parser Contract Flat Refine.
From Verif Require Import Instances Prims Slices Records Record Attr Views RefRecords RefFrame RefTop.
From Verif Require Import ConfFacts Spec NoHint FrameFacts SameFacts RoundFacts RecFacts AcceptAttr Copied Placed Client.
Import ListNotations.
Open Scope N_scope.

Definition f_try {B : Type} (m : F B) : F (perror + B) :=
  fun env l pos =>
    match m env l pos with
    | FOk b l' pos' ev => FOk (inr b) l' pos' ev
    | FErr e l' pos' ev => FOk (inl e) l' pos' ev
    end.

Fixpoint f_repeat {B : Type} (n : nat) (m : F B) : F (list B) :=
  match n with
  | O => fret []
  | Datatypes.S n => x <~ m ;; r <~ f_repeat n m ;; fret (x :: r)
  end.

(** A record whose body [fb] reads. *)
Definition f_record_by (pl : platform) (fb : N -> F (body list)) (h : header) : F (body list * metadata) :=
  r <~ f_metadata_with_header pl h ;;
  c <~ fcfg ;;
  b <~ f_sub (fb (h_type h)) (with_misc c (h_misc h)) (fst r) ;;
  fret (b, snd r).

(** The program, with [fs] for arrays and [fb] for bodies of records. *)
Fixpoint flat_by (pl : platform) (fs : N -> F (list N)) (fb : N -> F (body list)) {A : Type} (m : prog A) : F A :=
  match m in prog A return F A with
  | PRet a => fret a
  | PThen m k => x <~ flat_by pl fs fb m ;; flat_by pl fs fb (k x)
  | PError e => ffail e
  | PTry m => f_try (flat_by pl fs fb m)
  | PConfig => fcfg
  | PU8 => f_uint pl 1
  | PU16 => f_uint pl 2
  | PU32 => f_uint pl 4
  | PU64 => f_uint pl 8
  | PArray n => f_take (as_usize pl n)
  | PBytes n => f_take (as_usize pl n)
  | PRest => f_rest
  | PTrimmed => f_string
  | PIf b m => f_if b (flat_by pl fs fb m)
  | PRepeat size m n => f_repeat (N.to_nat (as_usize pl n)) (flat_by pl fs fb m)
  | PSampleId => f_sample_id pl
  | PAttr => f_attr pl
  | PSlice n => fs (as_usize pl n)
  | PBody t => fb t
  | PRecord h => f_record_by pl fb (header_of h)
  | PMetadata h k =>
      r <~ f_metadata_with_header pl (header_of h) ;;
      c <~ fcfg ;;
      f_sub (flat_by pl fs fb (k (snd r))) c (fst r)
  end.

Notation flat pl := (flat_by pl (f_array pl fl_u64) (f_body pl)).

Section Ref.
Context (pl : platform) (Hpl : pl_ok pl) {S : Type} (PB : parsebuf S) (mo : mode) (fin : perror) (cap : N)
  (mem : memory) (rep : S -> list N -> N -> Prop) (a0 : N).
Context (HC : contract PB mo fin cap mem rep) (Hcap : cap <= isize_max pl).

Notation Ref := (Ref mo fin cap rep a0).
Notation step := (step cap rep a0).

Lemma Ref_try : forall A (m : M S A) f, Ref eq m f ->
  Ref eq (fun p => match m p with
                   | (Ok a, p') => (Ok (inr a), p')
                   | (Err e, p') => (Ok (inl e), p')
                   | (Panic, p') => (Panic, p')
                   | (Fuel, p') => (Fuel, p')
                   end) (f_try f).
Proof.
  intros A m f H p l pos Hr Hw. specialize (H p l pos Hr Hw). unfold f_try.
  destruct (f _ l pos) as [b l' pos' ev|e l' pos' ev]; intros He.
  - destruct (H He) as (a & p' & -> & -> & Hs). eauto.
  - destruct (H He) as (p' & -> & Hs). eauto.
Qed.

Lemma Ref_view : forall A (m : M S (cow A)) f (P : cow A -> Prop),
  Ref (fun c l => cow_list c = l /\ P c) m f -> Ref eq (c <- m ;; ret (cow_list c)) f.
Proof.
  intros A m f P H p l pos Hr Hw. specialize (H p l pos Hr Hw). unfold bind, ret.
  destruct (f _ l pos) as [b l' pos' ev|e l' pos' ev]; intros He.
  - destruct (H He) as (a & p' & -> & [<- _] & Hs). eauto.
  - destruct (H He) as (p' & -> & Hs). eauto.
Qed.

Lemma Ref_repeat : forall A (m : M S A) f size n, Ref eq m f -> n < 2 ^ 64 ->
  Ref eq (parse_repeated_with pl PB size m n) (f_repeat (N.to_nat n) f).
Proof.
  intros A m f size n Hm Hn p l pos Hr Hw. unfold parse_repeated_with.
  assert (E1 : exists b, safe_capacity_bound pl PB size p = (Ok b, p) /\ N.min n b * size <= cap).
  { unfold safe_capacity_bound. destruct (N.eqb_spec size 0) as [->|Hs].
    - eexists. split; [reflexivity|]. lia.
    - set (h := unwrap_or (pb_hint PB (p_buf p)) 16384).
      assert (Hh : h <= cap).
      { unfold h. destruct (pb_hint PB (p_buf p)) as [x|] eqn:Eh; cbn.
        - exact (ct_hint HC _ _ _ _ Hr Eh).
        - exact (ct_nohint HC _ _ _ Hr Eh). }
      exists (h / size). split; [reflexivity|].
      pose proof (N.mul_div_le h size Hs). nia. }
  destruct E1 as (b & E1 & Hb). rewrite (bind_eq _ _ _ _ _ _ _ E1).
  destruct (alloc_ok pl cap rep a0 Hcap _ p l pos Hr Hb) as (p1 & E2 & Hs1).
  rewrite (bind_eq _ _ _ _ _ _ _ E2).
  set (body := fun '(n, vec) =>
    if n =? 0 then ret (inr vec) else x <- m ;; ret (inl (n - 1, vec ++ [x]))).
  set (Q := fun (x : N * list A) (q : parser S) (res : out (list A) * parser S) =>
    forall l pos, rep (p_buf q) l (a0 + pos) -> wf l ->
    match f_repeat (N.to_nat (fst x)) f (mkEnv (p_cfg q) fin) l pos with
    | FOk bs l' pos' ev => Forall (ev_ok mo a0) ev ->
        exists p', res = (Ok (snd x ++ bs), p') /\ step q l pos p' l' pos'
    | FErr e l' pos' ev => Forall (ev_ok mo a0) ev ->
        exists p', res = (Err e, p') /\ step q l pos p' l' pos'
    end).
  assert (G : forall k (vec : list A) q, k < 2 ^ 64 -> Q (k, vec) q (loop body (k, vec) q)).
  { intros k vec q Hk.
    apply (loop_rule body (fun k x q => fst x = k)) with (k := k); [|reflexivity|assumption].
    clear - Hm HC. intros k [n vec] q E. cbn [fst] in E. subst k. unfold body at 1.
    destruct (N.eqb_spec n 0) as [->|Hn].
    { cbn [ret]. intros l pos Hr Hw. cbn. intros _. exists q. rewrite app_nil_r.
      split; [reflexivity|]. now apply step_refl. }
    assert (Ef : f_repeat (N.to_nat n) f = (x <~ f ;; r <~ f_repeat (N.to_nat (n - 1)) f ;; fret (x :: r))).
    { replace (N.to_nat n) with (Datatypes.S (N.to_nat (n - 1))) by lia. reflexivity. }
    unfold bind, ret. destruct (m q) as [[a|e| |] q1] eqn:Em.
    - exists (n - 1). split; [lia|]. split; [reflexivity|].
      intros res HQ l pos Hr Hw. cbn [fst snd]. rewrite Ef.
      pose proof (Hm q l pos Hr Hw) as H. rewrite Em in H. unfold fbind at 1.
      destruct (f _ l pos) as [b l1 pos1 ev1|e l1 pos1 ev1].
      + assert (H' : Forall (ev_ok mo a0) ev1 -> a = b /\ step q l pos q1 l1 pos1).
        { intros He. destruct (H He) as (a' & p' & E & -> & Hs). injection E as <- <-. auto. }
        unfold fbind, fret.
        specialize (HQ l1 pos1). cbn [fst snd] in HQ.
        destruct (f_repeat (N.to_nat (n - 1)) f (mkEnv (p_cfg q) fin) l1 pos1) as [bs l2 pos2 ev2|e l2 pos2 ev2] eqn:Er;
          rewrite ?app_nil_r; intros He; apply Forall_app in He as [He1 He2];
          destruct (H' He1) as [<- Hs];
          specialize (HQ (st_rep _ _ _ _ _ _ _ _ _ Hs) (step_wf _ _ _ _ _ _ _ _ _ Hs Hw));
          rewrite (st_cfg _ _ _ _ _ _ _ _ _ Hs), Er in HQ; destruct (HQ He2) as (p' & -> & Hs2);
          exists p'; (split; [rewrite <- ?app_assoc; reflexivity|]); eapply step_trans; eassumption.
      + intros He. destruct (H He) as (p' & E & _). discriminate E.
    - intros l pos Hr Hw. cbn [fst snd]. rewrite Ef.
      pose proof (Hm q l pos Hr Hw) as H. rewrite Em in H. unfold fbind at 1.
      destruct (f _ l pos) as [b l1 pos1 ev1|e' l1 pos1 ev1].
      + unfold fbind, fret. destruct (f_repeat _ f _ l1 pos1); intros He;
          apply Forall_app in He as [He1 _]; destruct (H He1) as (? & ? & E & _); discriminate E.
      + intros He. destruct (H He) as (p' & E & Hs). injection E as <- <-. eauto.
    - intros l pos Hr Hw. cbn [fst snd]. rewrite Ef.
      pose proof (Hm q l pos Hr Hw) as H. rewrite Em in H. unfold fbind at 1.
      destruct (f _ l pos) as [b l1 pos1 ev1|e' l1 pos1 ev1].
      + unfold fbind, fret. destruct (f_repeat _ f _ l1 pos1); intros He;
          apply Forall_app in He as [He1 _]; destruct (H He1) as (? & ? & E & _); discriminate E.
      + intros He; destruct (H He) as (? & E & _); discriminate E.
    - intros l pos Hr Hw. cbn [fst snd]. rewrite Ef.
      pose proof (Hm q l pos Hr Hw) as H. rewrite Em in H. unfold fbind at 1.
      destruct (f _ l pos) as [b l1 pos1 ev1|e' l1 pos1 ev1].
      + unfold fbind, fret. destruct (f_repeat _ f _ l1 pos1); intros He;
          apply Forall_app in He as [He1 _]; destruct (H He1) as (? & ? & E & _); discriminate E.
      + intros He; destruct (H He) as (? & E & _); discriminate E. }
  specialize (G n [] p1 Hn l pos (st_rep _ _ _ _ _ _ _ _ _ Hs1) Hw). cbn [fst snd] in G.
  rewrite (st_cfg _ _ _ _ _ _ _ _ _ Hs1) in G.
  destruct (f_repeat (N.to_nat n) f _ l pos) as [bs l2 pos2 ev2|e l2 pos2 ev2]; intros He;
    destruct (G He) as (p' & E & Hs); rewrite E.
  - exists bs, p'. cbn [app]. split; [reflexivity|]. split; [reflexivity|]. eapply step_trans; eassumption.
  - exists p'. split; [reflexivity|]. eapply step_trans; eassumption.
Qed.
End Ref.

Lemma keep_all : forall b md, deliver keep b md = Ok (view_body b, md).
Proof. intros [] md; reflexivity. Qed.

Lemma run_record : forall pl S (PB : parsebuf S) h p,
  parse_record_with_header pl PB keep h p =
  (r <- collect_with_header pl PB h ;; ret (view_body (fst r), snd r)) p.
Proof.
  intros pl S PB h p. rewrite record_with_header_eq. unfold bind.
  destruct (collect_with_header pl PB h p) as [[[b md]|e| |] p']; try reflexivity.
  cbn [fst snd]. now rewrite keep_all.
Qed.

(** [fs] and [fb] are what arrays and bodies come to on sources of mode [mo] for addresses from [a0]. *)
Definition reads_as (pl : platform) (mo : mode) (a0 : N) (fs : N -> F (list N)) (fb : N -> F (body list)) : Prop :=
  forall S (PB : parsebuf S) fin cap mem rep, contract PB mo fin cap mem rep -> 65536 <= cap -> cap <= isize_max pl ->
  (forall n, Ref mo fin cap rep a0 (fun c l => cow_list c = l /\ True) (parse_slice pl PB (elem_u64 pl) n) (fs n)) /\
  (forall t, Ref mo fin cap rep a0 (fun x y => view_body x = y) (parse_body pl PB t) (fb t)) /\
  (forall h, h_size h < 65536 -> Ref mo fin cap rep a0 shows_record (collect_with_header pl PB h) (f_record_by pl fb h)).

Lemma Ref_run_by : forall pl mo a0 fs fb, pl_ok pl -> reads_as pl mo a0 fs fb ->
  forall A (m : prog A) S (PB : parsebuf S) fin cap mem rep,
  contract PB mo fin cap mem rep -> 65536 <= cap -> cap <= isize_max pl ->
  Ref mo fin cap rep a0 eq (run pl m S PB) (flat_by pl fs fb m).
Proof.
  intros pl mo a0 fs fb Hpl HR A m.
  induction m; intros S PB fin cap mem rep HC H16 Hcap; cbn [run flat_by].
  - now apply Ref_ret.
  - eapply Ref_bind; [eapply IHm; eassumption|]. intros x ? <-. eapply H; eassumption.
  - apply Ref_fail.
  - apply Ref_try. eapply IHm; eassumption.
  - apply Ref_cfg.
  - eapply Ref_u8; eassumption.
  - eapply Ref_u16; eassumption.
  - eapply Ref_u32; eassumption.
  - eapply Ref_u64; eassumption.
  - eapply Ref_array; eassumption.
  - eapply Ref_view, Ref_bytes; eassumption.
  - eapply Ref_view, Ref_rest; eassumption.
  - eapply Ref_view, Ref_string; eassumption.
  - apply Ref_parse_if_eq. eapply IHm; eassumption.
  - eapply Ref_repeat; try eassumption; [eapply IHm; eassumption|].
    unfold as_usize. pose proof (N.mod_lt n (2 ^ pl_bits pl) ltac:(now apply N.pow_nonzero)).
    destruct Hpl as [E|E]; rewrite E in *; lia.
  - eapply Ref_sample_id; eassumption.
  - eapply Ref_attr; eassumption.
  - destruct (HR S PB fin cap mem rep HC H16 Hcap) as (Hs & _ & _). eapply Ref_view, Hs.
  - destruct (HR S PB fin cap mem rep HC H16 Hcap) as (_ & Hb & _).
    rename n into t. intros p l pos Hr Hw. specialize (Hb t p l pos Hr Hw). unfold bind, ret.
    destruct (fb t _ l pos) as [b l' pos' ev|e l' pos' ev]; intros He.
    + destruct (Hb He) as (a & p' & -> & <- & Hs). eauto.
    + destruct (Hb He) as (p' & -> & Hs). eauto.
  - destruct (HR S PB fin cap mem rep HC H16 Hcap) as (_ & _ & Hr).
    intros p l pos Hrep Hw. rewrite run_record.
    pose proof (Hr (header_of h) ltac:(cbn; apply N.mod_lt; lia) p l pos Hrep Hw) as G. unfold bind, ret.
    destruct (f_record_by pl fb (header_of h) _ l pos) as [[b md] l' pos' ev|e l' pos' ev]; intros He.
    + destruct (G He) as ([bc md'] & p' & -> & [E1 E2] & Hs). cbn [fst snd] in *. subst. eauto.
    + destruct (G He) as (p' & -> & Hs). eauto.
  - apply RefC_Ref. intros c. eapply RefC_bind.
    + eapply RefC_metadata_with_header; try eassumption. cbn. apply N.mod_lt. lia.
    + intros x y (Es & n & Hn & (Ec & Eo & El & Eof & Elen & Hwq & Hrep)).
      apply RefC_fcfg. rewrite Es.
      apply (RefC_sub mo fin cap rep a0 c _ _ _ _ (cursor_rep mo cap mem) mo a0); try assumption; auto.
      * apply Ref_RefC. eapply H; [apply cursor_contract|assumption|assumption].
      * eapply cursor_rep_mono; [|exact Hrep]. lia.
Qed.

Lemma reads_any : forall pl mo a0, reads_as pl mo a0 (f_array pl fl_u64) (f_body pl).
Proof.
  intros pl mo a0 S PB fin cap mem rep HC H16 Hcap. split; [|split].
  - intros n. eapply Ref_weaken; [|eapply r_slice_u64; eassumption]. intros c l [H _]. auto.
  - intros t. eapply Ref_weaken; [|eapply Ref_body; eassumption]. intros x y [H _]. exact H.
  - intros h Hh. eapply Ref_weaken; [|eapply Ref_collect_with_header; eassumption].
    intros x y [[H1 _] H2]. split; assumption.
Qed.

Lemma reads_copied : forall pl a0, reads_as pl NoExt a0 (f_array pl fl_u64) (f_body_copied pl).
Proof.
  intros pl a0 S PB fin cap mem rep HC H16 Hcap. split; [|split].
  - intros n. eapply Ref_weaken; [|eapply r_slice_u64; eassumption]. intros c l [H _]. auto.
  - intros t. eapply Ref_body_copied; eassumption.
  - intros h Hh. apply RefC_Ref. intros c. eapply RefC_collect_copied; eassumption.
Qed.

Lemma reads_placed : forall pl a a0, a mod word_align pl = a0 mod word_align pl ->
  reads_as pl Whole a0 (g_array pl (bad_at pl a) fl_u64) (g_body pl (bad_at pl a)).
Proof.
  intros pl a a0 Ha S PB fin cap mem rep HC H16 Hcap.
  assert (Hbad : forall pos, bad_at pl a pos = negb ((a0 + pos) mod word_align pl =? 0)).
  { intros pos. unfold bad_at. f_equal. f_equal.
    assert (W : word_align pl <> 0) by (unfold word_align; destruct (pl_align pl); discriminate).
    rewrite (N.add_mod a), (N.add_mod a0), Ha by exact W. reflexivity. }
  split; [|split].
  - intros n. eapply p_slice_u64; eassumption.
  - intros t. eapply p_body; eassumption.
  - intros h Hh. apply RefC_Ref. intros c. eapply RefC_collect_placed; eassumption.
Qed.

Lemma contract_mono : forall S (PB : parsebuf S) mo fin cap cap' mem rep,
  contract PB mo fin cap mem rep -> cap <= cap' -> contract PB mo fin cap' mem rep.
Proof.
  intros S PB mo fin cap cap' mem rep [] H. constructor; try assumption; intros; etransitivity; eauto.
Qed.

Lemma noev_try : forall B (m : F B), noev m -> noev (f_try m).
Proof. intros B m H env l pos. specialize (H env l pos). unfold f_try. destruct (m env l pos); exact H. Qed.

Lemma noev_repeat : forall B n (m : F B), noev m -> noev (f_repeat n m).
Proof.
  intros B n m H. induction n; cbn [f_repeat]; [apply noev_ret|].
  apply noev_bind; [assumption|]. intros x. apply noev_bind; [assumption|]. intros. apply noev_ret.
Qed.

Lemma noev_calm : forall pl A (m : prog A), calm m -> noev (flat pl m).
Proof.
  intros pl A m. induction m; cbn [calm flat_by]; intros Hc;
    auto using noev_ret, noev_fail, noev_cfg, noev_uint, noev_take, noev_rest, noev_string, noev_if,
      noev_try, noev_repeat, noev_sample_id, noev_attr.
  - destruct Hc. apply noev_bind; auto.
  - contradiction.
  - destruct Hc as (H9 & H16 & H20). intros env l pos.
    pose proof (evs_body_none pl (fun _ => True) n H9 H16 H20 env l pos I) as H.
    destruct (f_body pl n env l pos) as [? ? ? [|? ?]|? ? ? [|? ?]]; try reflexivity; inversion H; contradiction.
  - destruct Hc as (H9 & H16 & H20). apply noev_bind; [apply noev_metadata_with_header|]. intros r.
    apply noev_bind; [apply noev_cfg|]. intros c. apply noev_bind; [|intros; apply noev_ret]. apply noev_sub.
    intros env l pos. cbn [h_type header_of].
    pose proof (evs_body_none pl (fun _ => True) (h_type h mod 2 ^ 32) H9 H16 H20 env l pos I) as H.
    destruct (f_body pl (h_type h mod 2 ^ 32) env l pos) as [? ? ? [|? ?]|? ? ? [|? ?]]; try reflexivity; inversion H; contradiction.
  - apply noev_bind; [apply noev_metadata_with_header|]. intros r.
    apply noev_bind; [apply noev_cfg|]. intros c. apply noev_sub. auto.
Qed.

(** What a program does on every source. *)
Lemma run_by : forall pl mo a0 fs fb, pl_ok pl -> reads_as pl mo a0 fs fb ->
  forall A (m : prog A) S (PB : parsebuf S) fin cap mem p l,
  cap <= isize_max pl -> source PB mo fin cap mem p l a0 ->
  match flat_by pl fs fb m (mkEnv (p_cfg p) fin) l 0 with
  | FOk x l' n ev => Forall (ev_ok mo a0) ev ->
      l' = drop n l /\ exists p', run pl m S PB p = (Ok x, p') /\ moved PB mo fin cap mem l a0 p n p'
  | FErr e l' n ev => Forall (ev_ok mo a0) ev ->
      l' = drop n l /\ exists p', run pl m S PB p = (Err e, p') /\ moved PB mo fin cap mem l a0 p n p'
  end.
Proof.
  intros pl mo a fs fb Hpl HR A m S PB fin cap mem p l Hcap (rep & HC & Hr & Hw).
  set (cap' := N.max cap 65536).
  assert (HC' : contract PB mo fin cap' mem rep) by (eapply contract_mono; [exact HC|lia]).
  pose proof (Ref_run_by pl mo a fs fb Hpl HR A m S PB fin cap' mem rep HC' ltac:(lia)) as G.
  pose proof (record_cap pl Hpl). specialize (G ltac:(lia) p l 0).
  rewrite N.add_0_r in G. specialize (G Hr Hw).
  destruct (flat_by pl fs fb m _ l 0) as [x l' n ev|e l' n ev]; intros Hev.
  - destruct (G Hev) as (x' & p' & E & -> & Hs).
    split; [|exists p'; split; [exact E|]; eapply step_moved; eassumption].
    destruct (st_len _ _ _ _ _ _ _ _ _ Hs) as (k & _ & -> & -> & _). reflexivity.
  - destruct (G Hev) as (p' & E & Hs).
    split; [|exists p'; split; [exact E|]; eapply step_moved; eassumption].
    destruct (st_len _ _ _ _ _ _ _ _ _ Hs) as (k & _ & -> & -> & _). reflexivity.
Qed.

Lemma run_events : forall pl A (m : prog A) S (PB : parsebuf S) mo fin cap mem p l a,
  pl_ok pl -> cap <= isize_max pl -> source PB mo fin cap mem p l a ->
  match flat pl m (mkEnv (p_cfg p) fin) l 0 with
  | FOk x l' n ev => Forall (ev_ok mo a) ev ->
      l' = drop n l /\ exists p', run pl m S PB p = (Ok x, p') /\ moved PB mo fin cap mem l a p n p'
  | FErr e l' n ev => Forall (ev_ok mo a) ev ->
      l' = drop n l /\ exists p', run pl m S PB p = (Err e, p') /\ moved PB mo fin cap mem l a p n p'
  end.
Proof.
  intros pl A m S PB mo fin cap mem p l a Hpl Hcap Hs.
  exact (run_by pl mo a _ _ Hpl (reads_any pl mo a) A m S PB fin cap mem p l Hcap Hs).
Qed.

Lemma run_flat : forall pl A (m : prog A) S (PB : parsebuf S) mo fin cap mem p l a,
  pl_ok pl -> cap <= isize_max pl -> calm m -> source PB mo fin cap mem p l a ->
  match flat pl m (mkEnv (p_cfg p) fin) l 0 with
  | FOk x l' n _ => l' = drop n l /\ exists p', run pl m S PB p = (Ok x, p') /\ moved PB mo fin cap mem l a p n p'
  | FErr e l' n _ => l' = drop n l /\ exists p', run pl m S PB p = (Err e, p') /\ moved PB mo fin cap mem l a p n p'
  end.
Proof.
  intros pl A m S PB mo fin cap mem p l a Hpl Hcap Hm Hs.
  pose proof (run_events pl A m S PB mo fin cap mem p l a Hpl Hcap Hs) as G.
  pose proof (noev_calm pl A m Hm (mkEnv (p_cfg p) fin) l 0) as Hev.
  destruct (flat pl m _ l 0); subst; apply G; constructor.
Qed.

(** The events left are only those of [fs] and [fb]. *)
Section Events.
Context (pl : platform) (fs : N -> F (list N)) (fb : N -> F (body list)) (P : event -> Prop).
Notation E := (evs (fun _ => True) P).
Context (Hs : forall n, E (fs n)) (Hb : forall t, E (fb t)).

Lemma evs_try : forall B (m : F B), E m -> E (f_try m).
Proof. intros B m H env l pos HC. specialize (H env l pos HC). unfold f_try. destruct (m env l pos); exact H. Qed.

Lemma evs_repeat : forall B n (m : F B), E m -> E (f_repeat n m).
Proof.
  intros B n m H. induction n; cbn [f_repeat]; [apply evs_ret|].
  apply evs_bind; [assumption|]. intros x. apply evs_bind; [assumption|]. intros. apply evs_ret.
Qed.

Lemma evs_run : forall A (m : prog A), E (flat_by pl fs fb m).
Proof.
  intros A m. induction m; cbn [flat_by];
    auto using evs_ret, evs_fail, evs_cfg, evs_uint, evs_take, evs_rest, evs_string, evs_if,
      evs_try, evs_repeat, evs_sample_id.
  - apply evs_bind; auto.
  - apply evs_noev, noev_attr.
  - apply evs_bind; [now apply evs_metadata|]. intros r. apply evs_cfg_bind. intros c _.
    apply evs_bind; [apply evs_sub; auto|]. intros. apply evs_ret.
  - apply evs_bind; [now apply evs_metadata|]. intros r. apply evs_cfg_bind. intros c _.
    apply evs_sub; auto.
Qed.
End Events.

Lemma evs_array_noext : forall pl n a, evs (fun _ => True) (ev_ok NoExt a) (f_array pl fl_u64 n).
Proof.
  intros pl n a env l pos _. unfold f_array. cbv zeta.
  destruct (_ && _); [constructor|]. destruct (_ && _); [constructor|].
  destruct (_ <? _); [constructor|]. destruct (_ && _); repeat constructor.
Qed.

Lemma evs_copied : forall pl t a, evs (fun _ => True) (ev_ok NoExt a) (f_body_copied pl t).
Proof.
  intros pl t a. unfold f_body_copied. destruct (N.eqb_spec t 20) as [E|E].
  - apply evs_bind; [|intros; apply evs_ret]. apply evs_bind; [|intros; apply evs_ret].
    apply evs_noev, PokeFacts.noev_poke_raw.
  - intros env' l' pos' _. pose proof (evs_body_poke pl t env' l' pos' I) as H.
    destruct (f_body pl t env' l' pos'); revert H; apply Forall_impl;
      intros [al q|] H; cbn; try exact I; destruct H as [H|H]; [contradiction|now elim H|contradiction|now elim H].
Qed.

Lemma evs_placed_body : forall pl bad t a, evs (fun _ => True) (ev_ok Whole a) (g_body pl bad t).
Proof.
  intros pl bad t a. unfold g_body.
  destruct (N.eqb_spec t 9) as [E9|E9]; [|destruct (N.eqb_spec t 16) as [E16|E16]].
  - apply evs_bind; [apply evs_g_sample|intros; apply evs_ret].
  - apply evs_bind; [apply evs_g_namespaces|intros; apply evs_ret].
  - apply evs_body_quiet; [left; split; assumption|]. intros _. reflexivity.
Qed.

(** Every program, on sources which never lend and on those which lend all as one piece. *)
Lemma run_copied : forall pl A (m : prog A) S (PB : parsebuf S) fin cap mem p l a,
  pl_ok pl -> cap <= isize_max pl -> source PB NoExt fin cap mem p l a ->
  match flat_by pl (f_array pl fl_u64) (f_body_copied pl) m (mkEnv (p_cfg p) fin) l 0 with
  | FOk x l' n _ => l' = drop n l /\ exists p', run pl m S PB p = (Ok x, p') /\ moved PB NoExt fin cap mem l a p n p'
  | FErr e l' n _ => l' = drop n l /\ exists p', run pl m S PB p = (Err e, p') /\ moved PB NoExt fin cap mem l a p n p'
  end.
Proof.
  intros pl A m S PB fin cap mem p l a Hpl Hcap Hs.
  pose proof (run_by pl NoExt a _ _ Hpl (reads_copied pl a) A m S PB fin cap mem p l Hcap Hs) as G.
  pose proof (evs_run pl (f_array pl fl_u64) (f_body_copied pl) (ev_ok NoExt a)
    (fun n => evs_array_noext pl n a) (fun t => evs_copied pl t a) A m (mkEnv (p_cfg p) fin) l 0 I) as Hev.
  destruct (flat_by pl _ _ m _ l 0); apply G; exact Hev.
Qed.

Lemma run_placed : forall pl A (m : prog A) S (PB : parsebuf S) fin cap mem p l a a',
  pl_ok pl -> cap <= isize_max pl -> source PB Whole fin cap mem p l a -> a' mod word_align pl = a mod word_align pl ->
  match flat_by pl (g_array pl (bad_at pl a') fl_u64) (g_body pl (bad_at pl a')) m (mkEnv (p_cfg p) fin) l 0 with
  | FOk x l' n _ => l' = drop n l /\ exists p', run pl m S PB p = (Ok x, p') /\ moved PB Whole fin cap mem l a p n p'
  | FErr e l' n _ => l' = drop n l /\ exists p', run pl m S PB p = (Err e, p') /\ moved PB Whole fin cap mem l a p n p'
  end.
Proof.
  intros pl A m S PB fin cap mem p l a a' Hpl Hcap Hs Ha.
  pose proof (run_by pl Whole a _ _ Hpl (reads_placed pl a' a Ha) A m S PB fin cap mem p l Hcap Hs) as G.
  pose proof (evs_run pl (g_array pl (bad_at pl a') fl_u64) (g_body pl (bad_at pl a')) (ev_ok Whole a)
    (fun n => evs_placed pl _ _ _ _ _ n) (fun t => evs_placed_body pl _ t a) A m (mkEnv (p_cfg p) fin) l 0 I) as Hev.
  destruct (flat_by pl _ _ m _ l 0); apply G; exact Hev.
Qed.

(** * More bytes behind *)

(** What [f] makes of some bytes it also makes of them when more follow. *)
Definition grows {B : Type} (f : F B) : Prop :=
  forall c fin1 fin2 l x pos b l' pos' ev,
  f (mkEnv c fin1) l pos = FOk b l' pos' ev -> f (mkEnv c fin2) (l ++ x) pos = FOk b (l' ++ x) pos' ev.

Lemma grows_ret : forall B (b : B), grows (fret b).
Proof. intros B b c f1 f2 l x pos b' l' pos' ev E. unfold fret in *. congruence. Qed.
Lemma grows_fail : forall B e, grows (@ffail B e).
Proof. intros B e c f1 f2 l x pos b' l' pos' ev E. discriminate. Qed.
Lemma grows_cfg : grows fcfg.
Proof. intros c f1 f2 l x pos b' l' pos' ev E. unfold fcfg in *. cbn [fe_cfg] in *. congruence. Qed.
Lemma grows_bind : forall B D (m : F B) (k : B -> F D), grows m -> (forall b, grows (k b)) -> grows (fbind m k).
Proof.
  intros B D m k Hm Hk c f1 f2 l x pos b' l' pos' ev E. unfold fbind in *.
  destruct (m (mkEnv c f1) l pos) as [b1 l1 pos1 ev1|] eqn:E1; [|discriminate].
  rewrite (Hm _ _ f2 _ x _ _ _ _ _ E1).
  destruct (k b1 (mkEnv c f1) l1 pos1) as [b2 l2 pos2 ev2|] eqn:E2; [|discriminate].
  rewrite (Hk _ _ _ f2 _ x _ _ _ _ _ E2). injection E as <- <- <- <-. reflexivity.
Qed.
Lemma grows_take : forall n, grows (f_take n).
Proof.
  intros n c f1 f2 l x pos b' l' pos' ev E. unfold f_take in *.
  destruct l as [|h t]; [discriminate|]. cbn [app] in *. change (h :: t ++ x) with ((h :: t) ++ x).
  set (l := h :: t) in *. rewrite len_app.
  destruct (N.ltb_spec (len l) n) as [H|H]; [discriminate|]. injection E as <- <- <- <-.
  replace (len l + len x <? n) with false by (symmetry; apply N.ltb_ge; lia).
  rewrite take_app_le, drop_app_le by lia. reflexivity.
Qed.
Lemma grows_uint : forall pl n, grows (f_uint pl n).
Proof.
  intros pl n. apply grows_bind; [apply grows_take|]. intros d. apply grows_bind; [apply grows_cfg|].
  intros. apply grows_ret.
Qed.
Lemma grows_if : forall B b (m : F B), grows m -> grows (f_if b m).
Proof.
  intros B [] m H; unfold f_if; [|apply grows_ret]. apply grows_bind; [assumption|]. intros. apply grows_ret.
Qed.
Lemma grows_repeat : forall B n (m : F B), grows m -> grows (f_repeat n m).
Proof.
  intros B n m H. induction n; cbn [f_repeat]; [apply grows_ret|].
  apply grows_bind; [assumption|]. intros x. apply grows_bind; [assumption|]. intros. apply grows_ret.
Qed.
Lemma grows_split : forall n, grows (f_split n).
Proof.
  intros n c f1 f2 l x pos b' l' pos' ev E. unfold f_split in *.
  destruct (n =? 0); [congruence|].
  destruct (f_take n (mkEnv c f1) l pos) as [b1 l1 pos1 ev1|] eqn:E1; [|discriminate].
  rewrite (grows_take n _ _ f2 _ x _ _ _ _ _ E1). congruence.
Qed.
Lemma grows_sub : forall B (m : F B) c st, grows (f_sub m c st).
Proof.
  intros B m c st c0 f1 f2 l x pos b' l' pos' ev E. unfold f_sub in *.
  destruct (m (mkEnv c eof_error) (fst st) (snd st)); congruence.
Qed.
Lemma grows_sample_id : forall pl, grows (f_sample_id pl).
Proof.
  intros pl. unfold f_sample_id. apply grows_bind; [apply grows_cfg|]. intros c. cbv zeta.
  destruct (negb _); [apply grows_ret|].
  repeat first [apply grows_ret|apply grows_uint|apply grows_if|apply grows_bind; [|intros ?]].
Qed.
Lemma grows_attr : forall pl, grows (f_attr pl).
Proof.
  intros pl. unfold f_attr. apply grows_bind; [apply grows_uint|]. intros t.
  apply grows_bind; [apply grows_uint|]. intros s. destruct (negb (attr_size_ok s)); [apply grows_fail|].
  apply grows_bind; [apply grows_split|]. intros st. apply grows_bind; [apply grows_cfg|]. intros c. apply grows_sub.
Qed.
Lemma grows_metadata : forall pl h, grows (f_metadata_with_header pl h).
Proof.
  intros pl h. unfold f_metadata_with_header. destruct (_ <? _); [apply grows_fail|].
  apply grows_bind; [apply grows_split|]. intros st. destruct (_ || _); [apply grows_ret|].
  apply grows_bind; [apply grows_cfg|]. intros c. destruct (_ <? _); [apply grows_fail|].
  apply grows_bind; [apply grows_sub|]. intros. apply grows_ret.
Qed.

(** Nothing is asked that depends on where the bytes end. *)
Fixpoint settled {A : Type} (m : prog A) : Prop :=
  match m with
  | PThen m k => settled m /\ forall x, settled (k x)
  | PIf _ m | PRepeat _ m _ => settled m
  | PTry _ | PRest | PTrimmed | PBody _ => False
  | _ => True
  end.

Lemma grows_settled : forall pl fs fb A (m : prog A), (forall n, grows (fs n)) -> settled m -> grows (flat_by pl fs fb m).
Proof.
  intros pl fs fb A m Hs. induction m; cbn [settled flat_by]; intros Hc; try contradiction;
    auto using grows_ret, grows_fail, grows_cfg, grows_uint, grows_take, grows_if, grows_repeat,
      grows_sample_id, grows_attr.
  - destruct Hc. apply grows_bind; auto.
  - apply grows_bind; [apply grows_metadata|]. intros r.
    apply grows_bind; [apply grows_cfg|]. intros c. apply grows_bind; [apply grows_sub|]. intros. apply grows_ret.
  - apply grows_bind; [apply grows_metadata|]. intros r.
    apply grows_bind; [apply grows_cfg|]. intros c. apply grows_sub.
Qed.

Lemma grows_placed : forall pl bad n, grows (g_array pl bad fl_u64 n).
Proof.
  intros pl bad n c f1 f2 l x pos b' l' pos' ev E. unfold g_array in *. cbn [fe_cfg fe_fin] in *. cbv zeta in *.
  set (o := order_of pl (c_endian c)) in *. set (sz := n * fl_size fl_u64) in *.
  destruct (order_eqb o (pl_host pl) && (usize_max pl <? sz)); [discriminate|].
  destruct (order_eqb o (pl_host pl)) eqn:Eo; cbn [andb] in *.
  - destruct (N.eqb_spec (len l) 0) as [H0|H0]; [discriminate|]. rewrite len_app.
    replace (len l + len x =? 0) with false by (symmetry; apply N.eqb_neq; lia).
    destruct (N.ltb_spec (len l) sz) as [H|H]; [discriminate|].
    replace (len l + len x <? sz) with false by (symmetry; apply N.ltb_ge; lia).
    rewrite take_app_le, drop_app_le by lia.
    destruct (negb (n =? 0) && bad pos); [|injection E as <- <- <- <-; reflexivity].
    rewrite len_app. destruct (N.ltb_spec (len (drop sz l)) sz) as [H2|H2]; [discriminate|].
    replace (len (drop sz l) + len x <? sz) with false by (symmetry; apply N.ltb_ge; lia).
    rewrite take_app_le, drop_app_le by lia. injection E as <- <- <- <-. reflexivity.
  - rewrite len_app. destruct (N.ltb_spec (len l) sz) as [H|H]; [discriminate|].
    replace (len l + len x <? sz) with false by (symmetry; apply N.ltb_ge; lia).
    rewrite take_app_le, drop_app_le by lia. injection E as <- <- <- <-. reflexivity.
Qed.

Lemma grows_array : forall pl n, grows (f_array pl fl_u64 n).
Proof.
  intros pl n c f1 f2 l x pos b' l' pos' ev E. unfold f_array in *. cbn [fe_cfg fe_fin] in *. cbv zeta in *.
  set (o := order_of pl (c_endian c)) in *. set (sz := n * fl_size fl_u64) in *.
  destruct (order_eqb o (pl_host pl) && (usize_max pl <? sz)); [discriminate|].
  destruct (order_eqb o (pl_host pl) && (len l =? 0)) eqn:E0; [discriminate|].
  replace (order_eqb o (pl_host pl) && (len (l ++ x) =? 0)) with false.
  2:{ symmetry. rewrite len_app. destruct (order_eqb o (pl_host pl)); [|reflexivity]. cbn [andb] in *.
      apply N.eqb_neq in E0. apply N.eqb_neq. lia. }
  rewrite len_app. destruct (N.ltb_spec (len l) sz) as [H|H]; [discriminate|].
  replace (len l + len x <? sz) with false by (symmetry; apply N.ltb_ge; lia).
  rewrite take_app_le, drop_app_le by lia. injection E as <- <- <- <-. reflexivity.
Qed.

(** * The bytes of a record alone *)

Lemma metadata_local : forall pl fs fb A (k : metadata -> prog A) h c fin1 fin2 r x1 x2 pos,
  h_size h < 65536 -> h_size h - 8 <= len r ->
  same_out (flat_by pl fs fb (PMetadata h k) (mkEnv c fin1) (r ++ x1) pos)
           (flat_by pl fs fb (PMetadata h k) (mkEnv c fin2) (r ++ x2) pos).
Proof.
  intros pl fs fb A k h c fin1 fin2 r x1 x2 pos Hh Hr. cbn [flat_by].
  assert (Es : h_size (header_of h) = h_size h) by (apply N.mod_small; exact Hh).
  apply same_bind.
  2:{ intros b. apply blind_bind; [apply blind_cfg|]. intros c'. apply blind_sub. }
  unfold f_metadata_with_header. rewrite Es. destruct (N.ltb_spec (h_size h) 8); [cbn; auto|].
  apply same_bind.
  - rewrite !split_app_1 by lia. cbn. auto.
  - intros st. destruct (_ || _); [apply blind_ret|]. apply blind_bind; [apply blind_cfg|].
    intros c'. destruct (_ <? _); [apply blind_fail|].
    repeat first [apply blind_ret|apply blind_sub|apply blind_bind; [|intros ?]].
Qed.

(** The outer parser is past the record whatever becomes of its parts. *)
Definition ends {B : Type} (f : F B) (env : fenv) (l : list N) (pos : N) (n : N) : Prop :=
  match f env l pos with FOk _ _ pos' _ | FErr _ _ pos' _ => pos' = pos + n end.

Definition still {B : Type} (f : F B) : Prop := forall env l pos, ends f env l pos 0.

Lemma still_ret' : forall B (b : B), still (fret b).
Proof. intros B b env l pos. unfold ends. cbn. lia. Qed.
Lemma still_fail' : forall B e, still (@ffail B e).
Proof. intros B b env l pos. unfold ends. cbn. lia. Qed.
Lemma still_cfg' : still fcfg.
Proof. intros env l pos. unfold ends. cbn. lia. Qed.
Lemma still_sub' : forall B (m : F B) c st, still (f_sub m c st).
Proof. intros B m c st env l pos. unfold ends, f_sub. destruct (m _ _ _); lia. Qed.
Lemma ends_bind : forall B D (m : F B) (k : B -> F D) env l pos n,
  ends m env l pos n -> (forall b, still (k b)) -> ends (fbind m k) env l pos n.
Proof.
  intros B D m k env l pos n Hm Hk. unfold ends, fbind in *.
  destruct (m env l pos) as [b l1 pos1 ev1|]; [|assumption].
  specialize (Hk b env l1 pos1). unfold ends in Hk. destruct (k b env l1 pos1); lia.
Qed.
Lemma still_bind' : forall B D (m : F B) (k : B -> F D), still m -> (forall b, still (k b)) -> still (fbind m k).
Proof. intros B D m k Hm Hk env l pos. apply ends_bind; [apply Hm|exact Hk]. Qed.

Lemma metadata_ends : forall pl fs fb A (k : metadata -> prog A) h env l pos,
  8 <= h_size h < 65536 -> h_size h - 8 <= len l ->
  ends (flat_by pl fs fb (PMetadata h k)) env l pos (h_size h - 8).
Proof.
  intros pl fs fb A k h env l pos Hh Hl. cbn [flat_by].
  assert (Es : h_size (header_of h) = h_size h) by (apply N.mod_small; lia).
  apply ends_bind.
  2:{ intros b. apply still_bind'; [apply still_cfg'|]. intros c'. apply still_sub'. }
  unfold f_metadata_with_header. rewrite Es. destruct (N.ltb_spec (h_size h) 8); [lia|].
  apply ends_bind.
  - unfold ends. rewrite <- (app_nil_r l). rewrite split_app_1 by lia. reflexivity.
  - intros st. destruct (_ || _); [apply still_ret'|]. apply still_bind'; [apply still_cfg'|].
    intros c'. destruct (_ <? _); [apply still_fail'|].
    repeat first [apply still_ret'|apply still_sub'|apply still_bind'; [|intros ?]].
Qed.

(** * Two sources *)

(** The program asks for no array and no TEXT_POKE, or neither source ever lends, or both lend all they
    have as one piece, at addresses which agree up to the alignment of words. *)
Definition alike (pl : platform) {A : Type} (m : prog A) (mo1 : mode) (a1 : N) (mo2 : mode) (a2 : N) : Prop :=
  calm m \/ (mo1 = NoExt /\ mo2 = NoExt) \/
  (mo1 = Whole /\ mo2 = Whole /\ a1 mod word_align pl = a2 mod word_align pl).

Definition runs_as (pl : platform) {A : Type} (m : prog A) (f : F A) (mo : mode) (a : N) : Prop :=
  forall S (PB : parsebuf S) fin cap mem p l, cap <= isize_max pl -> source PB mo fin cap mem p l a ->
  match f (mkEnv (p_cfg p) fin) l 0 with
  | FOk x l' n _ => l' = drop n l /\ exists p', run pl m S PB p = (Ok x, p') /\ moved PB mo fin cap mem l a p n p'
  | FErr e l' n _ => l' = drop n l /\ exists p', run pl m S PB p = (Err e, p') /\ moved PB mo fin cap mem l a p n p'
  end.

Lemma alike_runs : forall pl A (m : prog A) mo1 a1 mo2 a2, pl_ok pl -> alike pl m mo1 a1 mo2 a2 ->
  exists fs fb, (forall n, grows (fs n)) /\
    runs_as pl m (flat_by pl fs fb m) mo1 a1 /\ runs_as pl m (flat_by pl fs fb m) mo2 a2.
Proof.
  intros pl A m mo1 a1 mo2 a2 Hpl [Hc|[[-> ->]|(-> & -> & Ha)]].
  - exists (f_array pl fl_u64), (f_body pl). split; [apply grows_array|].
    split; intros S PB fin cap mem p l Hcap Hs; now apply run_flat.
  - exists (f_array pl fl_u64), (f_body_copied pl). split; [apply grows_array|].
    split; intros S PB fin cap mem p l Hcap Hs; now apply run_copied.
  - exists (g_array pl (bad_at pl a1) fl_u64), (g_body pl (bad_at pl a1)). split; [apply grows_placed|].
    split; intros S PB fin cap mem p l Hcap Hs; now apply run_placed.
Qed.

(** * The misc bits *)

Section Misc.
Context (c : config) (m : N).

(** For [f] it does not matter whether the misc bits of [c] are set to [m]. *)
Definition misc_free {B : Type} (f : F B) : Prop :=
  forall fin l pos, f (mkEnv (with_misc c m) fin) l pos = f (mkEnv c fin) l pos.

Lemma mf_ret : forall B (b : B), misc_free (fret b).
Proof. intros B b fin l pos. reflexivity. Qed.
Lemma mf_fail : forall B e, misc_free (@ffail B e).
Proof. intros B b fin l pos. reflexivity. Qed.
Lemma mf_take : forall n, misc_free (f_take n).
Proof. intros n fin l pos. reflexivity. Qed.
Lemma mf_uint : forall pl n, misc_free (f_uint pl n).
Proof. intros pl n fin l pos. reflexivity. Qed.
Lemma mf_rest : misc_free f_rest.
Proof. intros fin l pos. reflexivity. Qed.
Lemma mf_event : forall b e, misc_free (f_event b e).
Proof. intros b e fin l pos. reflexivity. Qed.
Lemma mf_array : forall B pl (E : felem B) n, misc_free (f_array pl E n).
Proof. intros B pl E n fin l pos. reflexivity. Qed.
Lemma mf_bind : forall B D (f : F B) (k : B -> F D), misc_free f -> (forall b, misc_free (k b)) -> misc_free (fbind f k).
Proof.
  intros B D f k Hf Hk fin l pos. unfold fbind. rewrite Hf.
  destruct (f (mkEnv c fin) l pos) as [b l1 pos1 ev1|]; [|reflexivity]. now rewrite Hk.
Qed.
Lemma mf_cfg : forall B (g : config -> F B), g (with_misc c m) = g c ->
  misc_free (g c) -> misc_free (c <~ fcfg ;; g c).
Proof. intros B g H1 H2 fin l pos. unfold fbind, fcfg. cbn [fe_cfg]. now rewrite H1, H2. Qed.
Lemma mf_if : forall B b (f : F B), misc_free f -> misc_free (f_if b f).
Proof. intros B [] f H; unfold f_if; [|apply mf_ret]. apply mf_bind; [assumption|]. intros. apply mf_ret. Qed.
Lemma mf_string : misc_free f_string.
Proof. intros fin l pos. reflexivity. Qed.
Lemma mf_padded : forall B k (f : F B), misc_free f -> misc_free (f_padded k f).
Proof.
  intros B k f H fin l pos. unfold f_padded, fbind at 1 3. rewrite H.
  destruct (f (mkEnv c fin) l pos) as [b l1 pos1 ev1|]; [|reflexivity].
  match goal with |- match ?x with _ => _ end = match ?y with _ => _ end => assert (E : x = y) end.
  { unfold f_skip. destruct (_ =? 0); reflexivity. }
  now rewrite E.
Qed.

Lemma misc_bit : forall k, m < 2 ^ 16 -> N.testbit (misc c) k = N.testbit m k ->
  (N.land (misc (with_misc c m)) (2 ^ k) =? 0) = (N.land (misc c) (2 ^ k) =? 0).
Proof.
  intros k Hm H. rewrite with_misc_misc by exact Hm.
  assert (G : forall x, N.land x (2 ^ k) = if N.testbit x k then 2 ^ k else 0).
  { intros x. apply bits_eq. intros i. rewrite N.land_spec.
    destruct (N.eq_dec i k) as [->|Hi].
    - rewrite N.pow2_bits_true. destruct (N.testbit x k); [now rewrite N.pow2_bits_true|now rewrite N.bits_0].
    - rewrite N.pow2_bits_false by congruence. rewrite andb_false_r.
      destruct (N.testbit x k); [now rewrite N.pow2_bits_false by congruence|now rewrite N.bits_0]. }
  now rewrite !G, H.
Qed.

Ltac mf := repeat first
  [ apply mf_ret | apply mf_fail | apply mf_take | apply mf_uint | apply mf_rest | apply mf_event
  | apply mf_array | apply mf_string | apply mf_if | apply mf_padded
  | apply mf_cfg; [first [rewrite ?with_misc_sample_type, ?with_misc_read_format, ?with_misc_hw_index; reflexivity
                        |change MISC_MMAP_BUILD_ID with (2 ^ 14); now rewrite misc_bit by auto
                        |change MISC_SWITCH_OUT with (2 ^ 13); now rewrite misc_bit by auto]|cbv zeta]
  | apply mf_bind; [|intros ?; cbv zeta]
  | match goal with |- misc_free (if ?b then _ else _) => destruct b end ].

Definition misc_agrees (t : N) : Prop :=
  (t = 10 -> N.testbit (misc c) 14 = N.testbit m 14) /\ (t = 15 -> N.testbit (misc c) 13 = N.testbit m 13).

Lemma mf_body : forall pl t, m < 2 ^ 16 -> misc_agrees t -> misc_free (f_body pl t).
Proof.
  intros pl t Hm [H10 H15]. unfold f_body.
  repeat match goal with
  | |- misc_free (if t =? ?n then _ else _) => destruct (N.eqb_spec t n)
  end; (apply mf_bind; [|intros ?; apply mf_ret]);
  unfold f_mmap, f_lost, f_comm, f_exit, f_throttle, f_read, f_read_value, f_sample, f_sample_read, f_read_group,
    f_callchain, f_raw, f_lbr, f_registers, f_stack_user, f_sample_aux, f_aux, f_itrace_start, f_lost_samples,
    f_namespaces, f_ksymbol, f_bpf_event, f_cgroup, f_text_poke, f_aux_output_hw_id, f_mmap2, f_mmap_detail,
    f_switch_cpu_wide; mf.
Qed.

Lemma mf_copied : forall pl t, m < 2 ^ 16 -> misc_agrees t -> misc_free (f_body_copied pl t).
Proof.
  intros pl t Hm Ht. unfold f_body_copied. destruct (N.eqb_spec t 20); [|now apply mf_body].
  unfold f_poke_copied, PokeFacts.f_poke_raw. mf.
Qed.

Lemma mf_placed : forall pl bad t, m < 2 ^ 16 -> misc_agrees t -> misc_free (g_body pl bad t).
Proof.
  intros pl bad t Hm Ht. unfold g_body.
  assert (Ha : forall B (E : felem B) n, misc_free (g_array pl bad E n)) by (intros B E n fin l pos; reflexivity).
  destruct (N.eqb_spec t 9); [|destruct (N.eqb_spec t 16); [|now apply mf_body]];
    (apply mf_bind; [|intros ?; apply mf_ret]);
    unfold g_sample, g_sample_read, g_read_group, g_callchain, f_raw, g_lbr, g_registers, f_stack_user, f_sample_aux,
      g_namespaces, f_read_value;
    repeat first [apply Ha|progress mf].
Qed.
End Misc.
