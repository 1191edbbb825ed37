(** The parser methods do on any buffer that meets the contract what Flat.v does
    on the bytes it stands for. *)
From Coq Require Import PArith Pnat NArith List Bool Lia.
From Verif Require Import Base BaseFacts Types Platform Config Buf Parser Contract Flat.
From Verif Require Import Records Sample.
Import ListNotations.
Open Scope N_scope.

(** * Pure facts *)

Lemma bytes_drop : forall n l, bytes l -> bytes (drop n l).
Proof.
  unfold bytes; intros n l H; rewrite <- (take_drop n l) in H.
  now apply Forall_app in H as [_ H].
Qed.

Lemma bytes_take : forall n l, bytes l -> bytes (take n l).
Proof.
  unfold bytes; intros n l H; rewrite <- (take_drop n l) in H.
  now apply Forall_app in H as [H _].
Qed.

Definition wf (l : list N) : Prop := bytes l /\ len l < 2 ^ 64.

Lemma wf_drop : forall n l, wf l -> wf (drop n l).
Proof. intros n l [H1 H2]; split; [now apply bytes_drop|]; rewrite len_drop; lia. Qed.

Lemma wf_take : forall n l, wf l -> wf (take n l).
Proof. intros n l [H1 H2]; split; [now apply bytes_take|]; rewrite len_take; lia. Qed.

Lemma mem_at_take : forall m a d n, mem_at m a d -> mem_at m a (take n d).
Proof.
  unfold mem_at; intros m a d n H i b G; apply H.
  rewrite get_nth, take_firstn in G. rewrite get_nth.
  rewrite <- (firstn_skipn (N.to_nat n) d).
  rewrite nth_error_app1; [assumption|].
  apply nth_error_Some; congruence.
Qed.

Lemma nth_error_skipn' : forall A (n i : nat) (l : list A),
  nth_error (skipn n l) i = nth_error l (n + i).
Proof.
  induction n as [|n IH]; intros i l; [reflexivity|].
  destruct l as [|x l]; cbn; [now destruct i | apply IH].
Qed.

Lemma mem_at_drop : forall m a d n, mem_at m a d -> mem_at m (a + n) (drop n d).
Proof.
  unfold mem_at; intros m a d n H i b G.
  rewrite <- N.add_assoc; apply H.
  rewrite get_nth, drop_skipn, nth_error_skipn' in G. rewrite get_nth.
  rewrite <- G; f_equal; lia.
Qed.

Lemma mem_at_nil : forall m a, mem_at m a [].
Proof. unfold mem_at; cbn; discriminate. Qed.

Lemma convert_order : forall pl e l, convert pl e l = from_order (order_of pl e) l.
Proof. intros pl [] l; reflexivity. Qed.

Lemma is_native_order : forall pl e,
  is_native pl e = order_eqb (order_of pl e) (pl_host pl).
Proof. intros [[] b] []; reflexivity. Qed.

Lemma trim_strip : forall l, trim_nul_aux (length l) l = strip l.
Proof.
  intros l. rewrite <- (rev_involutive l). generalize (rev l) as r; clear l.
  induction r as [|b r IH]; [reflexivity|].
  rewrite rev_length. unfold strip. rewrite rev_involutive.
  cbn [length trim_nul_aux]. rewrite split_last_rev_cons.
  cbn [skip_zeros]. destruct (N.eqb_spec b 0) as [->|H].
  - unfold strip in IH. rewrite rev_length, rev_involutive in IH. exact IH.
  - reflexivity.
Qed.

Lemma strip_prefix : forall l, strip l = take (len (strip l)) l.
Proof.
  intros l; unfold strip. rewrite <- (rev_involutive l) at 3.
  generalize (rev l) as r; clear l.
  induction r as [|b r IH]; [reflexivity|].
  cbn [skip_zeros]. destruct (N.eqb_spec b 0) as [->|H].
  - cbn [rev]. rewrite take_app_le; [exact IH|].
    rewrite IH, len_take; lia.
  - rewrite take_all by (rewrite !len_rev; lia). reflexivity.
Qed.

Lemma chunk_truncate_data : forall c n, chunk_data (chunk_truncate c n) = take n (chunk_data c).
Proof.
  intros c n; unfold chunk_truncate. destruct (N.leb_spec (len (chunk_data c)) n) as [H|H].
  - now rewrite take_all.
  - destruct c; reflexivity.
Qed.

(** * Loops *)

Lemma pos_to_nat : forall p, Pos.to_nat p = N.to_nat (N.pos p).
Proof. reflexivity. Qed.

Section Iter.
Context {S St B : Type} (body : St -> M S (St + B)).

Fixpoint iter (n : nat) (x : St) : M S (St + B) :=
  match n with
  | O => ret (inl x)
  | Datatypes.S m => r <- body x ;; match r with inl y => iter m y | inr b => ret (inr b) end
  end.

Lemma iter_add : forall n m x p,
  iter (n + m) x p =
  (r <- iter n x ;; match r with inl y => iter m y | inr b => ret (inr b) end) p.
Proof.
  induction n as [|n IH]; intros m x p; cbn [iter Nat.add]; [reflexivity|].
  unfold bind at 1 3; unfold bind at 1. destruct (body x p) as [[[y|b]|e| |] p']; try reflexivity.
  rewrite IH. reflexivity.
Qed.

Lemma loop_pos_iter : forall n x p, loop_pos body n x p = iter (Pos.to_nat n) x p.
Proof.
  induction n as [n IH|n IH|]; intros x p.
  - rewrite Pos2Nat.inj_xI. replace (2 * Pos.to_nat n)%nat
      with (Pos.to_nat n + Pos.to_nat n)%nat by lia.
    cbn [loop_pos iter]. unfold bind at 1 3.
    destruct (body x p) as [[[y|b]|e| |] p']; try reflexivity.
    rewrite iter_add. unfold bind. rewrite IH.
    destruct (iter (Pos.to_nat n) y p') as [[[z|b]|e| |] p'']; try reflexivity.
    apply IH.
  - rewrite Pos2Nat.inj_xO. replace (2 * Pos.to_nat n)%nat
      with (Pos.to_nat n + Pos.to_nat n)%nat by lia.
    cbn [loop_pos]. rewrite iter_add. unfold bind. rewrite IH.
    destruct (iter (Pos.to_nat n) x p) as [[[z|b]|e| |] p'']; try reflexivity.
    apply IH.
  - change (Pos.to_nat 1) with 1%nat. cbn [loop_pos iter]. unfold bind, ret.
    destruct (body x p) as [[[y|b]|e| |] p']; reflexivity.
Qed.

(** A loop whose rounds keep [I] and lower the measure [k] ends, and its result
    has whatever relation to the start is preserved backwards by rounds. *)
Lemma loop_rule : forall (I : N -> St -> parser S -> Prop)
    (Q : St -> parser S -> out B * parser S -> Prop),
  (forall k x p, I k x p ->
     match body x p with
     | (Ok (inl y), p') => exists k', k' < k /\ I k' y p' /\ (forall r, Q y p' r -> Q x p r)
     | (Ok (inr b), p') => Q x p (Ok b, p')
     | (Err e, p') => Q x p (Err e, p')
     | (Panic, p') => Q x p (Panic, p')
     | (Fuel, p') => Q x p (Fuel, p')
     end) ->
  forall k x p, I k x p -> k < 2 ^ 64 -> Q x p (loop body x p).
Proof.
  intros I Q H.
  assert (G : forall n k x p, I k x p -> (N.to_nat k < n)%nat ->
    exists r p', iter n x p = (r, p') /\
      match r with
      | Ok (inl _) => False
      | Ok (inr b) => Q x p (Ok b, p')
      | Err e => Q x p (Err e, p')
      | Panic => Q x p (Panic, p')
      | Fuel => Q x p (Fuel, p')
      end).
  { induction n as [|n IH]; intros k x p HI Hk; [lia|].
    specialize (H k x p HI). cbn [iter]; unfold bind.
    destruct (body x p) as [[[y|b]|e| |] p'].
    - destruct H as (k' & Hk' & HI' & HQ).
      destruct (IH k' y p' HI' ltac:(lia)) as (r & p'' & E & HR).
      exists r, p''; split; [assumption|].
      destruct r as [[z|b]|e| |]; auto.
    - exists (Ok (inr b)), p'; split; [reflexivity|assumption].
    - exists (Err e), p'; split; [reflexivity|assumption].
    - exists Panic, p'; split; [reflexivity|assumption].
    - exists Fuel, p'; split; [reflexivity|assumption]. }
  intros k x p HI Hk. unfold loop, bind.
  assert (Hf : (N.to_nat k < Pos.to_nat loop_fuel)%nat).
  { rewrite pos_to_nat.
    assert (E : N.pos loop_fuel = 2 ^ 64) by reflexivity. rewrite E. lia. }
  destruct (G _ _ _ _ HI Hf) as (r & p' & E & HR).
  rewrite loop_pos_iter, E. destruct r as [[z|b]|e| |]; [easy|..]; exact HR.
Qed.

End Iter.

(** * The judgement *)

(** Events a buffer can take: borrowed arrays must be aligned, and the quirk of
    TEXT_POKE only bites copied data. *)
Definition ev_ok (mo : mode) (a0 : N) (e : event) : Prop :=
  match e with
  | ESlice al pos =>
      match mo with
      | NoExt => True
      | Whole | Coh => (a0 + pos) mod align_bytes al = 0
      | AnyExt => False
      end
  | EPoke => mo = Whole
  end.

(** Contents of a byte Cow; a borrow is of memory that holds the contents, and a
    buffer that gives out everything in one piece is never copied. *)
Definition bok (mo : mode) (m : memory) (c : cow N) : Prop :=
  match c with
  | Borrowed x d => mem_at m x d
  | Owned _ => mo <> Whole
  end.
Definition brel (mo : mode) (m : memory) (c : cow N) (l : list N) : Prop :=
  cow_list c = l /\ bok mo m c.

(** Contents of an array Cow; a borrow is of aligned memory and is what the host
    sees there. *)
Definition sok {A : Type} (m : memory) (pl : platform) (E : felem A) (c : cow A) : Prop :=
  match c with
  | Borrowed x l =>
      exists d, mem_at m x d /\ l = decode E (pl_host pl) d /\ (x mod word_align pl = 0 \/ l = [])
  | Owned _ => True
  end.
Definition srel {A : Type} (m : memory) (pl : platform) (E : felem A) (c : cow A)
  (l : list A) : Prop :=
  cow_list c = l /\ sok m pl E c.

Section Judgement.
Context (pl : platform) {S : Type} (PB : parsebuf S) (mo : mode) (fin : perror) (cap : N)
  (mem : memory) (rep : S -> list N -> N -> Prop) (a0 : N).

(** [k] bytes of [l] were consumed between [p] and [p']. *)
Record step (p : parser S) (l : list N) (pos : N) (p' : parser S) (l' : list N) (pos' : N)
  : Prop := mkStep {
  st_rep : rep (p_buf p') l' (a0 + pos');
  st_cfg : p_cfg p' = p_cfg p;
  st_len : exists k, k <= len l /\ l' = drop k l /\ pos' = pos + k /\ p_off p' = p_off p + k;
  st_log : exists new, p_log p' = new ++ p_log p /\ Forall (fun n => n <= cap) new;
}.

Definition Ref {A B : Type} (R : A -> B -> Prop) (m : M S A) (f : F B) : Prop :=
  forall p l pos, rep (p_buf p) l (a0 + pos) -> wf l ->
  match f (mkEnv (p_cfg p) fin) l pos with
  | FOk b l' pos' ev =>
      Forall (ev_ok mo a0) ev ->
      exists a p', m p = (Ok a, p') /\ R a b /\ step p l pos p' l' pos'
  | FErr e l' pos' ev =>
      Forall (ev_ok mo a0) ev ->
      exists p', m p = (Err e, p') /\ step p l pos p' l' pos'
  end.

Lemma step_refl : forall p l pos, rep (p_buf p) l (a0 + pos) -> step p l pos p l pos.
Proof.
  intros p l pos H; constructor; [assumption|reflexivity| |].
  - exists 0; rewrite drop_0; repeat split; lia.
  - exists []; split; [reflexivity|constructor].
Qed.

Lemma step_trans : forall p l pos p1 l1 pos1 p2 l2 pos2,
  step p l pos p1 l1 pos1 -> step p1 l1 pos1 p2 l2 pos2 -> step p l pos p2 l2 pos2.
Proof.
  intros p l pos p1 l1 pos1 p2 l2 pos2 [R1 C1 (k1 & K1 & L1 & P1 & O1) (n1 & N1 & F1)]
    [R2 C2 (k2 & K2 & L2 & P2 & O2) (n2 & N2 & F2)].
  subst l1 pos1. rewrite len_drop in K2.
  constructor; [assumption|congruence| |].
  - exists (k1 + k2); rewrite L2, drop_drop; repeat split; lia.
  - exists (n2 ++ n1); rewrite N2, N1, app_assoc; split; [reflexivity|].
    apply Forall_app; split; assumption.
Qed.

Lemma step_wf : forall p l pos p' l' pos', step p l pos p' l' pos' -> wf l -> wf l'.
Proof. intros p l pos p' l' pos' [_ _ (k & _ & -> & _) _] H; now apply wf_drop. Qed.

Lemma Ref_ret : forall A B (R : A -> B -> Prop) a b, R a b -> Ref R (ret a) (fret b).
Proof.
  intros A B R a b HR p l pos Hr Hw; cbn; intros _.
  exists a, p; repeat split; auto using step_refl.
  - exists 0; rewrite drop_0; repeat split; lia.
  - exists []; split; [reflexivity|constructor].
Qed.

Lemma Ref_fail : forall A B (R : A -> B -> Prop) e, Ref R (fail e) (ffail e).
Proof.
  intros A B R e p l pos Hr Hw; cbn; intros _. exists p; split; auto using step_refl.
Qed.

Lemma Ref_bind : forall A B A' B' (R : A -> B -> Prop) (R' : A' -> B' -> Prop) m f k g,
  Ref R m f -> (forall a b, R a b -> Ref R' (k a) (g b)) -> Ref R' (bind m k) (fbind f g).
Proof.
  intros A B A' B' R R' m f k g Hm Hk p l pos Hr Hw.
  specialize (Hm p l pos Hr Hw). unfold fbind, bind.
  destruct (f _ l pos) as [b l1 pos1 ev1|e l1 pos1 ev1].
  - destruct (g b _ l1 pos1) as [c l2 pos2 ev2|e l2 pos2 ev2] eqn:Eg; intros Hev;
      apply Forall_app in Hev as [He1 He2];
      destruct (Hm He1) as (a & p1 & E & HR & Hs); rewrite E;
      specialize (Hk a b HR p1 l1 pos1 (st_rep _ _ _ _ _ _ Hs) (step_wf _ _ _ _ _ _ Hs Hw));
      rewrite (st_cfg _ _ _ _ _ _ Hs), Eg in Hk.
    + destruct (Hk He2) as (a' & p2 & E2 & HR2 & Hs2).
      exists a', p2; split; [assumption|]; split; [assumption|]; eapply step_trans; eassumption.
    + destruct (Hk He2) as (p2 & E2 & Hs2).
      exists p2; split; [assumption|]; eapply step_trans; eassumption.
  - intros He1. destruct (Hm He1) as (p1 & E & Hs); rewrite E. exists p1; auto.
Qed.

Lemma Ref_cfg : Ref eq get_cfg fcfg.
Proof.
  intros p l pos Hr Hw; cbn; intros _. exists (p_cfg p), p; split; [reflexivity|].
  split; [reflexivity|]; now apply step_refl.
Qed.

Lemma Ref_weaken : forall A B (R R' : A -> B -> Prop) m f,
  (forall a b, R a b -> R' a b) -> Ref R m f -> Ref R' m f.
Proof.
  intros A B R R' m f H Hm p l pos Hr Hw. specialize (Hm p l pos Hr Hw).
  destruct (f _ l pos) as [b l1 pos1 ev1|e l1 pos1 ev1]; [|assumption].
  intros Hev; destruct (Hm Hev) as (a & p' & E & HR & Hs); exists a, p'; auto.
Qed.

Lemma Ref_ext : forall A B (R : A -> B -> Prop) m f g,
  (forall env l pos, g env l pos = f env l pos) -> Ref R m f -> Ref R m g.
Proof. intros A B R m f g H Hm p l pos Hr Hw. rewrite H. now apply Hm. Qed.

Lemma Ref_if : forall A B (R : A -> B -> Prop) (b : bool) m1 m2 f1 f2,
  (b = true -> Ref R m1 f1) -> (b = false -> Ref R m2 f2) ->
  Ref R (if b then m1 else m2) (if b then f1 else f2).
Proof. intros A B R [] m1 m2 f1 f2 H1 H2; auto. Qed.

Lemma Ref_parse_if : forall A B (R : A -> B -> Prop) b m f,
  Ref R m f ->
  Ref (fun x y => match x, y with Some a, Some b => R a b | None, None => True | _, _ => False end)
    (parse_if b m) (f_if b f).
Proof.
  intros A B R [] m f Hm; unfold parse_if, f_if.
  - eapply Ref_bind; [exact Hm|]. intros; now apply Ref_ret.
  - now apply Ref_ret.
Qed.

(** * Primitives *)

Context (HC : contract PB mo fin cap mem rep).

Lemma rep_0 : forall s l a, rep s l a -> rep s (drop 0 l) (a + 0).
Proof. intros; now rewrite drop_0, N.add_0_r. Qed.

(** One [chunk] call. *)
Lemma chunk_empty : forall p pos, rep (p_buf p) [] (a0 + pos) ->
  exists p', m_chunk PB p = (Err fin, p') /\ step p [] pos p' [] pos.
Proof.
  intros p pos H. destruct (ct_empty HC _ _ H) as (s' & E & H').
  unfold m_chunk; rewrite E. eexists; split; [reflexivity|].
  constructor; cbn; [assumption|reflexivity| |].
  - exists 0; repeat split; lia.
  - exists []; split; [reflexivity|constructor].
Qed.

Lemma chunk_some : forall p l pos, rep (p_buf p) l (a0 + pos) -> l <> [] ->
  exists c p', m_chunk PB p = (Ok c, p') /\
    chunk_data c <> [] /\ (exists r, l = chunk_data c ++ r) /\
    chunk_ok mo mem l (a0 + pos) c /\ p_cfg p' = p_cfg p /\ step p l pos p' l pos /\
    forall n, n <= len (chunk_data c) ->
      exists p'', m_advance PB n p' = (Ok tt, p'') /\ step p l pos p'' (drop n l) (pos + n).
Proof.
  intros p l pos H Hl. destruct (ct_chunk HC _ _ _ H Hl) as (c & s' & E & H' & Hne & Hp & Hok & Ha).
  unfold m_chunk; rewrite E. exists c; eexists; split; [reflexivity|].
  split; [assumption|]. split; [assumption|]. split; [assumption|]. split; [reflexivity|]. split.
  - constructor; cbn; [assumption|reflexivity| |].
    + exists 0; rewrite drop_0; repeat split; lia.
    + exists []; split; [reflexivity|constructor].
  - intros n Hn. destruct (Ha n Hn) as (s'' & E2 & H2). unfold m_advance; cbn; rewrite E2.
    eexists; split; [reflexivity|]. constructor; cbn; [|reflexivity| |].
    + now rewrite N.add_assoc.
    + exists n; repeat split; try lia.
      destruct Hp as (r & ->); rewrite len_app; lia.
    + exists []; split; [reflexivity|constructor].
Qed.

(** The four loops that consume [n] bytes chunk by chunk have the same shape. *)
Lemma consume_rule : forall St B Acc (mk : N -> Acc -> St) (fi : Acc -> B)
    (body : St -> M S (St + B)) (upd : Acc -> chunk -> N -> Acc)
    (J : N -> N -> list N -> Acc -> Prop),
  (forall n acc n' acc', mk n acc = mk n' acc' -> n = n' /\ acc = acc') ->
  (forall acc p, body (mk 0 acc) p = (Ok (inr (fi acc)), p)) ->
  (forall n acc p, n <> 0 ->
     body (mk n acc) p =
     (c <- m_chunk PB ;;
      m_advance PB (N.min (len (chunk_data c)) n) ;;;
      ret (inl (mk (n - N.min (len (chunk_data c)) n) (upd acc c n)))) p) ->
  (forall pos l acc c n r, J n pos l acc -> l <> [] -> l = chunk_data c ++ r ->
     chunk_ok mo mem l (a0 + pos) c -> chunk_data c <> [] -> n <> 0 ->
     let k := N.min (len (chunk_data c)) n in
     J (n - k) (pos + k) (drop k l) (upd acc c n)) ->
  forall n acc p l pos, rep (p_buf p) l (a0 + pos) -> wf l -> J n pos l acc ->
  let '(r, p') := loop body (mk n acc) p in
  if len l <? n
  then r = Err fin /\ step p l pos p' [] (pos + len l)
  else exists acc', r = Ok (fi acc') /\ J 0 (pos + n) (drop n l) acc' /\
       step p l pos p' (drop n l) (pos + n).
Proof.
  intros St B Acc mk fi body upd J Hinj H0 HS HJ n acc p l pos Hr Hw HJ0.
  set (Q := fun (x : St) (q : parser S) (res : out B * parser S) =>
    forall n acc l pos, x = mk n acc -> rep (p_buf q) l (a0 + pos) -> wf l -> J n pos l acc ->
    let '(r, p') := res in
    if len l <? n
    then r = Err fin /\ step q l pos p' [] (pos + len l)
    else exists acc', r = Ok (fi acc') /\ J 0 (pos + n) (drop n l) acc' /\
         step q l pos p' (drop n l) (pos + n)).
  enough (G : Q (mk n acc) p (loop body (mk n acc) p)) by (apply (G n acc l pos); auto).
  apply (loop_rule body (fun k x q => exists n acc l pos, x = mk n acc /\
      rep (p_buf q) l (a0 + pos) /\ wf l /\ J n pos l acc /\ k = len l)) with (k := len l).
  - clear n acc p l pos Hr Hw HJ0.
    intros k x p (n & acc & l & pos & -> & Hr & Hw & HJ0 & ->).
    destruct (N.eq_dec n 0) as [->|Hn].
    { rewrite H0. intros n' acc' l' pos' Hx Hr' Hw' HJ'.
      apply Hinj in Hx as [<- <-].
      replace (len l' <? 0) with false by (symmetry; apply N.ltb_ge; lia).
      exists acc. rewrite drop_0, N.add_0_r. split; [reflexivity|].
      split; [assumption|]. now apply step_refl. }
    rewrite HS by assumption. unfold bind.
    destruct (list_eq_dec N.eq_dec l []) as [->|Hl].
    { destruct (chunk_empty p pos Hr) as (p1 & E & Hs). rewrite E.
      intros n' acc' l' pos' Hx Hr' Hw' HJ'. apply Hinj in Hx as [<- <-].
      destruct (list_eq_dec N.eq_dec l' []) as [->|Hl'].
      - destruct (chunk_empty p pos' Hr') as (p2 & E2 & Hs2). rewrite E in E2.
        injection E2 as <-. rewrite len_nil.
        replace (0 <? n) with true by (symmetry; apply N.ltb_lt; lia).
        rewrite N.add_0_r; auto.
      - destruct (chunk_some p l' pos' Hr' Hl') as (c & p2 & E2 & _). congruence. }
    destruct (chunk_some p l pos Hr Hl) as (c & p1 & E & Hne & (r & Hp) & Hok & Hc & Hs & Ha).
    rewrite E. destruct (Ha (N.min (len (chunk_data c)) n) ltac:(lia)) as (p2 & E2 & Hs2).
    rewrite E2; cbn [ret]. cbv beta iota.
    pose proof (len_pos _ Hne) as Hpos.
    assert (Hlen : len l = len (chunk_data c) + len r) by (rewrite Hp at 1; apply len_app).
    set (k := N.min (len (chunk_data c)) n) in *.
    exists (len (drop k l)). split; [rewrite len_drop; lia|]. split.
    { exists (n - k), (upd acc c n), (drop k l), (pos + k). split; [reflexivity|].
      split; [apply (st_rep _ _ _ _ _ _ Hs2)|].
      split; [now apply wf_drop|]. split; [|reflexivity].
      apply (HJ pos l acc c n r); auto. }
    intros [res p'] HQ n' acc' l' pos' Hx Hr' Hw' HJ'. apply Hinj in Hx as [<- <-].
    (* the representation used inside the loop may differ from the given one *)
    destruct (list_eq_dec N.eq_dec l' []) as [->|Hl'].
    { destruct (chunk_empty p pos' Hr') as (p3 & E3 & _). congruence. }
    destruct (chunk_some p l' pos' Hr' Hl')
      as (c' & p1' & E' & Hne' & (r' & Hp') & Hok' & Hc' & Hs' & Ha').
    rewrite E in E'. injection E' as <- <-.
    destruct (Ha' k ltac:(lia)) as (p2' & E2' & Hs2').
    rewrite E2 in E2'. injection E2' as <-.
    assert (Hlen' : len l' = len (chunk_data c) + len r') by (rewrite Hp' at 1; apply len_app).
    assert (HJ2 : J (n - k) (pos' + k) (drop k l') (upd acc c n))
      by (apply (HJ pos' l' acc c n r'); auto).
    specialize (HQ (n - k) (upd acc c n) (drop k l') (pos' + k) eq_refl
                  (st_rep _ _ _ _ _ _ Hs2') (wf_drop _ _ Hw') HJ2).
    rewrite len_drop in HQ.
    destruct (N.ltb_spec (len l' - k) (n - k)) as [Hlt|Hge];
      destruct (N.ltb_spec (len l') n) as [Hlt'|Hge']; try lia.
    + destruct HQ as [HQ1 HQ2]; split; [assumption|].
      replace (pos' + len l') with (pos' + k + (len l' - k)) by lia.
      eapply step_trans; eassumption.
    + destruct HQ as (acc' & HQ1 & HQ2 & HQ3). exists acc'. rewrite drop_drop in *.
      replace (k + (n - k)) with n in * by lia.
      replace (pos' + k + (n - k)) with (pos' + n) in * by lia.
      split; [assumption|]. split; [assumption|]. eapply step_trans; eassumption.
  - exists n, acc, l, pos; auto.
  - apply Hw.
Qed.

End Judgement.
