(** How often a parser calls its source, and how often it reserves memory. *)
From Coq Require Import NArith List Bool Lia.
From Verif Require Import Base BaseFacts Types Platform Config Buf Parser Contract Refine.
From Verif Require Import Instances Prims Records Sample Record Attr RefFrame.
Import ListNotations.
Open Scope N_scope.

(** [calls] of a state goes up by at most one with each call of the source. *)
Definition counts {S : Type} (PB : parsebuf S) (calls : S -> N) : Prop :=
  (forall s, calls (snd (pb_chunk PB s)) <= calls s + 1) /\
  (forall s n, calls (snd (pb_advance PB s n)) <= calls s + 1).

Section Judgement.
Context {S : Type} (rep : S -> list N -> N -> Prop) (calls : S -> N).

(** From a source with the bytes [l], [m] takes some [n] of them with [c] calls and reserves
    memory at most [k] times; if it succeeds, [post] tells how [n] and [c] go together, and
    otherwise there are at most [rate] calls for each byte and [e] more. *)
Definition Work {A : Type} (post : A -> N -> N -> Prop) (rate e k : N) (m : M S A) : Prop :=
  forall p l a, rep (p_buf p) l a -> wf l ->
  exists r p' n c, m p = (r, p') /\ n <= len l /\ p_off p' = p_off p + n /\
    calls (p_buf p') <= calls (p_buf p) + c /\ len (p_log p') <= len (p_log p) + k /\
    match r with
    | Ok x => rep (p_buf p') (drop n l) (a + n) /\ post x n c
    | _ => c <= rate * n + e
    end.

Definition W {A : Type} (rate b e k : N) (m : M S A) : Prop :=
  Work (fun _ n c => c <= rate * n + b) rate e k m.

Lemma Work_weaken : forall A (P Q : A -> N -> N -> Prop) rate e k rate' e' k' m,
  (forall x n c, P x n c -> Q x n c) -> rate <= rate' -> e <= e' -> k <= k' ->
  Work P rate e k m -> Work Q rate' e' k' m.
Proof.
  intros A P Q rate e k rate' e' k' m HP Hr He Hk H p l a Hrep Hw.
  destruct (H p l a Hrep Hw) as (r & p' & n & c & E & Hn & Ho & Hc & Hl & Hres).
  exists r, p', n, c. split; [exact E|]. split; [exact Hn|]. split; [exact Ho|]. split; [exact Hc|].
  split; [lia|]. destruct r; try nia. destruct Hres as [R P1]. auto.
Qed.

Lemma W_mono : forall A rate b e k rate' b' e' k' (m : M S A),
  W rate b e k m -> rate <= rate' -> b <= b' -> e <= e' -> k <= k' -> W rate' b' e' k' m.
Proof.
  intros A rate b e k rate' b' e' k' m H Hr Hb He Hk. eapply Work_weaken; [|exact Hr|exact He|exact Hk|exact H].
  cbn. intros _ n c Hc. nia.
Qed.

Lemma W_lift : forall A rate (o : out A), W rate 0 0 0 (lift o).
Proof.
  intros A rate o p l a Hr Hw. exists o, p, 0, 0. split; [reflexivity|]. rewrite drop_0, !N.add_0_r.
  repeat (split; [lia|]). destruct o; try lia. split; [exact Hr|lia].
Qed.
Lemma W_ret : forall A rate (x : A), W rate 0 0 0 (ret x).
Proof. intros. apply W_lift with (o := Ok x). Qed.
Lemma W_fail : forall A rate e, W rate 0 0 0 (@fail S A e).
Proof. intros. apply W_lift with (o := Err e). Qed.
Lemma W_panic : forall A rate, W rate 0 0 0 (@panic S A).
Proof. intros. apply W_lift with (o := Panic). Qed.
Lemma W_cfg : forall rate, W rate 0 0 0 (@get_cfg S).
Proof. intros rate p. exact (W_lift _ rate (Ok (p_cfg p)) p). Qed.
Lemma W_off : forall rate, W rate 0 0 0 (@get_off S).
Proof. intros rate p. exact (W_lift _ rate (Ok (p_off p)) p). Qed.

Lemma Work_bind : forall A B (P : A -> N -> N -> Prop) (Q : B -> N -> N -> Prop) (R : A -> B -> N -> N -> Prop)
    rate e1 e2 e k1 k2 (m : M S A) (K : A -> M S B),
  Work P rate e1 k1 m ->
  (forall x, Work (R x) rate e2 k2 (K x)) ->
  (forall x y n1 n2 c1 c2, P x n1 c1 -> R x y n2 c2 -> Q y (n1 + n2) (c1 + c2)) ->
  e1 <= e -> (forall x n1 c1, P x n1 c1 -> c1 + e2 <= rate * n1 + e) ->
  Work Q rate e (k1 + k2) (bind m K).
Proof.
  intros A B P Q R rate e1 e2 e k1 k2 m K Hm HK HQ He1 He2 p l a Hr Hw. unfold bind.
  destruct (Hm p l a Hr Hw) as (r & p1 & n1 & c1 & E & Hn & Ho & Hc & Hl & Hres). rewrite E.
  destruct r as [x|er| |].
  - destruct Hres as [Hr1 HP].
    destruct (HK x p1 _ _ Hr1 (wf_drop _ _ Hw)) as (r2 & p2 & n2 & c2 & E2 & Hn2 & Ho2 & Hc2 & Hl2 & Hres2).
    rewrite len_drop in Hn2. exists r2, p2, (n1 + n2), (c1 + c2).
    split; [exact E2|]. split; [lia|]. split; [lia|]. split; [lia|]. split; [lia|].
    specialize (He2 _ _ _ HP). destruct r2; try lia. destruct Hres2 as [Hr2 HR]. split; [|eauto].
    rewrite drop_drop, <- N.add_assoc in Hr2. exact Hr2.
  - exists (Err er), p1, n1, c1. repeat (split; [auto || lia|]). lia.
  - exists Panic, p1, n1, c1. repeat (split; [auto || lia|]). lia.
  - exists Fuel, p1, n1, c1. repeat (split; [auto || lia|]). lia.
Qed.

Lemma W_bind : forall A B rate b1 e1 k1 b2 e2 k2 (m : M S A) (K : A -> M S B),
  W rate b1 e1 k1 m -> (forall x, W rate b2 e2 k2 (K x)) ->
  W rate (b1 + b2) (N.max e1 (b1 + e2)) (k1 + k2) (bind m K).
Proof.
  intros A B rate b1 e1 k1 b2 e2 k2 m K Hm HK.
  eapply Work_bind with (R := fun _ _ n c => c <= rate * n + b2) (e1 := e1) (e2 := e2);
    [exact Hm|exact HK| | |]; cbn; intros; lia.
Qed.

Lemma W_if : forall A rate b1 e1 k1 b2 e2 k2 (c : bool) (m1 m2 : M S A),
  W rate b1 e1 k1 m1 -> W rate b2 e2 k2 m2 ->
  W rate (N.max b1 b2) (N.max e1 e2) (N.max k1 k2) (if c then m1 else m2).
Proof. intros. destruct c; eapply W_mono; try eassumption; lia. Qed.

Lemma W_map : forall A B rate b e k (f : A -> B) (m : M S A), W rate b e k m -> W rate b e k (x <- m ;; ret (f x)).
Proof.
  intros A B rate b e k f m H p l a Hr Hw. unfold bind, ret.
  destruct (H p l a Hr Hw) as (r & p1 & n & c & E & Hn & Ho & Hc & Hl & Hres). rewrite E.
  destruct r as [x|er| |]; [exists (Ok (f x))|exists (Err er)|exists Panic|exists Fuel]; exists p1, n, c; auto 10.
Qed.

Lemma W_parse_if : forall A rate b e k c (m : M S A), W rate b e k m -> W rate b e k (parse_if c m).
Proof.
  intros A rate b e k c m H. unfold parse_if. destruct c.
  - now apply W_map.
  - eapply W_mono; [apply W_ret|apply N.le_refl|lia..].
Qed.

(** Rounds of a loop cost nothing beyond the rate and reserve nothing. *)
Definition round {St B : Type} (rate b : N) (r : St + B) (n c : N) : Prop :=
  match r with inl _ => c <= rate * n | inr _ => c <= rate * n + b end.

Lemma W_loop : forall St B rate b e (body : St -> M S (St + B)) x,
  (forall x, Work (round rate b) rate e 0 (body x)) -> W rate b e 0 (loop body x).
Proof.
  intros St B rate b e body x Hb.
  assert (Hi : forall (m m2 : M S (St + B)) (f : St -> M S (St + B)),
    Work (round rate b) rate e 0 m -> (forall y, Work (round rate b) rate e 0 (f y)) ->
    Work (round rate b) rate e 0 (r <- m ;; match r with inl y => f y | inr b => ret (inr b) end)).
  { intros m _ f Hm Hf p l a Hr Hw. unfold bind.
    destruct (Hm p l a Hr Hw) as (r & p1 & n1 & c1 & E & Hn & Ho & Hc & Hl & Hres). rewrite E.
    destruct r as [[y|z]|er| |].
    - destruct Hres as [Hr1 HP]. cbn [round] in HP.
      destruct (Hf y p1 _ _ Hr1 (wf_drop _ _ Hw)) as (r2 & p2 & n2 & c2 & E2 & Hn2 & Ho2 & Hc2 & Hl2 & Hres2).
      rewrite len_drop in Hn2. exists r2, p2, (n1 + n2), (c1 + c2).
      split; [exact E2|]. split; [lia|]. split; [lia|]. split; [lia|]. split; [lia|].
      destruct r2 as [[z|z]|er| |]; try lia; destruct Hres2 as [Hr2 HR]; cbn [round] in HR |- *;
        (split; [rewrite drop_drop, <- N.add_assoc in Hr2; exact Hr2|lia]).
    - exists (Ok (inr z)), p1, n1, c1. auto 10.
    - exists (Err er), p1, n1, c1. auto 10.
    - exists Panic, p1, n1, c1. auto 10.
    - exists Fuel, p1, n1, c1. auto 10. }
  assert (Hp : forall n x, Work (round rate b) rate e 0 (loop_pos body n x)).
  { induction n as [n IH|n IH|]; intros y; cbn [loop_pos].
    - apply Hi; [exact (body y)|apply Hb|]. intros z. apply Hi; [exact (body y)|apply IH|exact IH].
    - apply Hi; [exact (body y)|apply IH|exact IH].
    - apply Hb. }
  intros p l a Hr Hw. unfold loop, bind.
  destruct (Hp loop_fuel x p l a Hr Hw) as (r & p1 & n & c & E & Hn & Ho & Hc & Hl & Hres). rewrite E.
  destruct r as [[y|z]|er| |]; cbn [round] in Hres.
  - exists Fuel, p1, n, c. repeat (split; [auto|]). lia.
  - exists (Ok z), p1, n, c. auto 10.
  - exists (Err er), p1, n, c. auto 10.
  - exists Panic, p1, n, c. auto 10.
  - exists Fuel, p1, n, c. auto 10.
Qed.

(** A run on another buffer makes no calls here. *)
Lemma W_sub : forall A rate k (m : M S A) T (q : parser T) (m' : M T A),
  len (p_log (snd (m' q))) <= k -> W rate 0 0 k (sub m' q).
Proof.
  intros A rate k _ T q m' Hk p l a Hr Hw. unfold sub. destruct (m' q) as [r q'].
  exists r. eexists. exists 0, 0. split; [reflexivity|]. cbn [p_buf p_off p_log].
  rewrite drop_0, !N.add_0_r. cbn [snd] in Hk. rewrite len_app.
  split; [lia|]. split; [reflexivity|]. split; [lia|]. split; [lia|].
  destruct r; try lia. split; [exact Hr|lia].
Qed.
End Judgement.

Section Prims.
Context (pl : platform) {S : Type} (PB : parsebuf S) (mo : mode) (fin : perror) (cap : N)
  (mem : memory) (rep : S -> list N -> N -> Prop) (calls : S -> N).
Context (HC : contract PB mo fin cap mem rep) (Hcalls : counts PB calls).

Notation Work := (Work rep calls).
Notation W := (W rep calls).

Lemma chunk_calls : forall p r p', m_chunk PB p = (r, p') ->
  calls (p_buf p') <= calls (p_buf p) + 1 /\ p_off p' = p_off p /\ p_log p' = p_log p.
Proof.
  intros p r p' E. unfold m_chunk in E. pose proof (proj1 Hcalls (p_buf p)) as H.
  destruct (pb_chunk PB (p_buf p)). injection E as <- <-. cbn in *. auto.
Qed.
Lemma advance_calls : forall n p r p', m_advance PB n p = (r, p') ->
  calls (p_buf p') <= calls (p_buf p) + 1 /\ p_off p' = p_off p + n /\ p_log p' = p_log p.
Proof.
  intros n p r p' E. unfold m_advance in E. pose proof (proj2 Hcalls (p_buf p) n) as H.
  destruct (pb_advance PB (p_buf p) n). injection E as <- <-. cbn in *. auto.
Qed.

(** One look at the source: it is at its end, or there is a piece, some of which can be taken. *)
Lemma look : forall p l a, rep (p_buf p) l a ->
  (l = [] /\ exists p', m_chunk PB p = (Err fin, p') /\ rep (p_buf p') l a) \/
  (exists c p', m_chunk PB p = (Ok c, p') /\ rep (p_buf p') l a /\
    1 <= len (chunk_data c) <= len l /\
    forall n, n <= len (chunk_data c) ->
      exists p'', m_advance PB n p' = (Ok tt, p'') /\ rep (p_buf p'') (drop n l) (a + n)).
Proof.
  intros p l a Hr. destruct (list_eq_dec N.eq_dec l []) as [->|Hl].
  - left. split; [reflexivity|]. destruct (ct_empty HC _ _ Hr) as (s & E & Hs).
    unfold m_chunk. rewrite E. eexists. split; [reflexivity|exact Hs].
  - right. destruct (ct_chunk HC _ _ _ Hr Hl) as (c & s & E & Hs & Hne & (r & El) & _ & Ha).
    unfold m_chunk. rewrite E. exists c. eexists. split; [reflexivity|]. split; [exact Hs|]. split.
    + pose proof (len_pos _ Hne). rewrite El, len_app. lia.
    + intros n Hn. destruct (Ha n Hn) as (s2 & E2 & Hs2). unfold m_advance. cbn [p_buf]. rewrite E2.
      eexists. split; [reflexivity|exact Hs2].
Qed.

(** A look, some of the piece taken. *)
Lemma Work_take : forall B (g : chunk -> B) (kf : chunk -> N) (P : B -> N -> N -> Prop),
  (forall c, 1 <= len (chunk_data c) -> kf c <= len (chunk_data c) /\ P (g c) (kf c) 2) ->
  Work P 2 1 0 (c <- m_chunk PB ;; m_advance PB (kf c) ;;; ret (g c)).
Proof.
  intros B g kf P Hk p l a Hr Hw. unfold bind, ret.
  destruct (look p l a Hr) as [(-> & p1 & E & Hr1)|(c & p1 & E & Hr1 & Hc & Ha)]; rewrite E;
    destruct (chunk_calls _ _ _ E) as (C1 & O1 & L1).
  - exists (Err fin), p1, 0, 1. repeat (split; [auto; lia|]). rewrite L1. split; lia.
  - destruct (Hk c ltac:(lia)) as [Hle HP]. destruct (Ha _ Hle) as (p2 & E2 & Hr2). rewrite E2.
    destruct (advance_calls _ _ _ _ E2) as (C2 & O2 & L2).
    exists (Ok (g c)), p2, (kf c), 2. split; [reflexivity|]. split; [lia|]. split; [lia|]. split; [lia|].
    split; [rewrite L2, L1; lia|]. auto.
Qed.

Lemma min_some : forall A B (c : chunk) n (x : A), n <> 0 -> 1 <= len (chunk_data c) ->
  N.min (len (chunk_data c)) n <= len (chunk_data c) /\ round (B := B) 2 0 (inl x) (N.min (len (chunk_data c)) n) 2.
Proof. intros A B c n x Hn Hc. cbn [round]. lia. Qed.

Lemma truncated : forall c n, len (chunk_data (chunk_truncate c n)) = N.min (len (chunk_data c)) n.
Proof. intros c n. rewrite chunk_truncate_data, len_take. lia. Qed.

Lemma Work_done : forall A B rate b e (x : B), Work (round (St := A) rate b) rate e 0 (ret (inr x)).
Proof.
  intros A B rate b e x p l a Hr Hw. exists (Ok (inr x)), p, 0, 0. split; [reflexivity|].
  rewrite drop_0, !N.add_0_r. repeat (split; [lia|]). split; [exact Hr|]. cbn [round]. lia.
Qed.

Lemma W_to_slice : forall n, W 2 0 1 0 (parse_to_slice PB n).
Proof.
  intros n. apply W_loop. intros [k dst]. destruct (N.eqb_spec k 0) as [->|Hk]; [apply Work_done|].
  apply (Work_take _ (fun c => inl (k - N.min (len (chunk_data c)) k, dst ++ take (N.min (len (chunk_data c)) k) (chunk_data c)))
           (fun c => N.min (len (chunk_data c)) k)).
  intros c Hc. now apply min_some.
Qed.

Lemma W_ignored : forall n, W 2 0 1 0 (parse_bytes_ignored PB n).
Proof.
  intros n. apply W_loop. intros k. destruct (N.eqb_spec k 0) as [->|Hk]; [apply Work_done|].
  apply (Work_take _ (fun c => inl (k - N.min (len (chunk_data c)) k)) (fun c => N.min (len (chunk_data c)) k)).
  intros c Hc. now apply min_some.
Qed.

Lemma W_cursor_new : forall n, W 2 0 1 0 (cursor_new PB n).
Proof.
  intros n. apply W_map. apply W_loop. intros [k chunks]. destruct (N.eqb_spec k 0) as [->|Hk]; [apply Work_done|].
  apply (Work_take _ (fun c => inl (k - len (chunk_data (chunk_truncate c k)),
             if 0 <? len (chunk_data (chunk_truncate c k)) then chunks ++ [chunk_to_cow (chunk_truncate c k)] else chunks))
           (fun c => len (chunk_data (chunk_truncate c k)))).
  intros c Hc. rewrite truncated. now apply min_some.
Qed.

Lemma W_split : forall n, W 2 0 1 0 (split_at PB n).
Proof.
  intros n. unfold split_at. eapply W_mono; [eapply W_bind; [apply W_cursor_new|]|..].
  - intros c. eapply W_bind; [apply W_cfg|]. intros x. apply W_ret.
  - lia. - lia. - lia. - lia.
Qed.

(** Reserving. *)
Lemma W_alloc : forall rate n, W rate 0 0 1 (m_alloc (S := S) pl n).
Proof.
  intros rate n p l a Hr Hw. unfold m_alloc. destruct (isize_max pl <? n).
  - exists Panic, p, 0, 0. rewrite !N.add_0_r. repeat (split; [reflexivity || lia|]). lia.
  - exists (Ok tt). eexists. exists 0, 0. split; [reflexivity|]. cbn [p_buf p_off p_log].
    rewrite drop_0, !N.add_0_r, len_cons. repeat (split; [reflexivity || lia|]). split; [exact Hr|lia].
Qed.
Lemma W_hint : forall rate, W rate 0 0 0 (m_hint PB).
Proof. intros rate p. exact (W_lift rep calls _ rate (Ok (pb_hint PB (p_buf p))) p). Qed.
Lemma W_bound : forall rate n, W rate 0 0 0 (safe_capacity_bound pl PB n).
Proof.
  intros rate n. unfold safe_capacity_bound. destruct (n =? 0); [apply W_ret|]. apply W_map, W_hint.
Qed.

Lemma W_slow : forall n, W 2 0 1 1 (parse_bytes_slow pl PB n).
Proof.
  intros n. unfold parse_bytes_slow. eapply W_mono.
  - eapply W_bind; [apply W_bound|]. intros b. eapply W_bind; [apply W_alloc|]. intros _.
    apply W_loop with (b := 0) (e := 1). intros [k bytes]. destruct (N.eqb_spec k 0) as [->|Hk]; [apply Work_done|].
    apply (Work_take _ (fun c => inl (k - len (chunk_data (chunk_truncate c k)), bytes ++ chunk_data (chunk_truncate c k)))
             (fun c => len (chunk_data (chunk_truncate c k)))).
    intros c Hc. rewrite truncated. now apply min_some.
  - lia. - lia. - lia. - lia.
Qed.

Lemma W_direct : forall n, W 2 2 1 0 (parse_bytes_direct PB n).
Proof.
  intros n p l a Hr Hw. unfold parse_bytes_direct, bind, ret.
  destruct (look p l a Hr) as [(-> & p1 & E & Hr1)|(c & p1 & E & Hr1 & Hc & Ha)]; rewrite E;
    destruct (chunk_calls _ _ _ E) as (C1 & O1 & L1).
  - exists (Err fin), p1, 0, 1. repeat (split; [auto; lia|]). rewrite L1. split; lia.
  - assert (G : exists r p' m c, (Ok (@None (N * list N)), p1) = (r, p') /\ m <= len l /\ p_off p' = p_off p + m /\
      calls (p_buf p') <= calls (p_buf p) + c /\ len (p_log p') <= len (p_log p) + 0 /\
      match r with Ok x => rep (p_buf p') (drop m l) (a + m) /\ c <= 2 * m + 2 | _ => c <= 2 * m + 1 end).
    { exists (Ok None), p1, 0, 1. rewrite drop_0, !N.add_0_r, L1. repeat (split; [reflexivity || lia|]). split; [exact Hr1|lia]. }
    destruct c as [d|x d]; [exact G|]. cbn [chunk_data] in *. destruct (N.ltb_spec (len d) n) as [Hn|Hn]; [exact G|].
    destruct (Ha n Hn) as (p2 & E2 & Hr2). rewrite E2. destruct (advance_calls _ _ _ _ E2) as (C2 & O2 & L2).
    exists (Ok (Some (x, take n d))), p2, n, 2. rewrite L2, L1. repeat (split; [reflexivity || lia|]). split; [exact Hr2|lia].
Qed.

Lemma W_bytes : forall n, W 2 2 3 1 (parse_bytes pl PB n).
Proof.
  intros n. unfold parse_bytes. eapply W_mono.
  - eapply W_bind; [apply W_direct|]. intros [[x d]|].
    + eapply W_mono with (b' := 0) (e' := 1) (k' := 1); [apply W_ret|..]; [apply N.le_refl|lia|lia|lia].
    + eapply W_mono.
      * eapply W_bind; [apply W_hint|]. intros h. cbv zeta. eapply W_if.
        -- eapply W_bind; [apply W_alloc|]. intros _. apply W_map, W_to_slice.
        -- apply W_map, W_slow.
      * lia. * lia. * lia. * lia.
  - lia. - lia. - lia. - lia.
Qed.

Lemma Work_array : forall n, Work (fun _ m c => m = n /\ c <= 2 * n + 2 /\ (1 <= n -> c <= 2 * n + 1)) 2 2 0 (parse_array PB n).
Proof.
  intros n p l a Hr Hw. unfold parse_array, bind, ret.
  destruct (look p l a Hr) as [(-> & p1 & E & Hr1)|(c & p1 & E & Hr1 & Hc & Ha)]; rewrite E;
    destruct (chunk_calls _ _ _ E) as (C1 & O1 & L1).
  - exists (Err fin), p1, 0, 1. repeat (split; [auto; lia|]). rewrite L1. split; lia.
  - destruct (N.ltb_spec (len (chunk_data c)) n) as [Hn|Hn].
    + destruct (W_to_slice n p1 l a Hr1 Hw) as (r & p2 & m & k & E2 & Hm & Ho & Hk & Hl & Hres).
      assert (Hr1' : rep (p_buf p1) l (a + 0)) by now rewrite N.add_0_r.
      pose proof (to_slice_spec PB mo fin cap mem rep a HC n p1 l 0 Hr1' Hw) as Hs.
      rewrite E2 in *. rewrite L1 in Hl.
      exists r, p2, m, (k + 1). repeat (split; [reflexivity || lia|]).
      destruct (len l <? n).
      * destruct Hs as [-> _]. lia.
      * destruct Hs as [-> Hst]. destruct Hres as [Hr2 Hk2]. split; [exact Hr2|].
        destruct (st_len _ _ _ _ _ _ _ _ _ Hst) as (j & _ & _ & Hj & Hoff). lia.
    + destruct (Ha n Hn) as (p2 & E2 & Hr2). rewrite E2. destruct (advance_calls _ _ _ _ E2) as (C2 & O2 & L2).
      eexists. exists p2, n, 2. rewrite L2, L1. split; [reflexivity|]. repeat (split; [lia|]). split; [exact Hr2|lia].
Qed.

Lemma W_array : forall n, W 2 2 2 0 (parse_array PB n).
Proof. intros n. eapply Work_weaken; [|apply N.le_refl..|apply Work_array]. cbv beta. intros _ m c [-> [H _]]. exact H. Qed.

(** Something is taken, so that there is nothing beyond the rate. *)
Lemma W_array_pos : forall n, 1 <= n -> W 4 0 2 0 (parse_array PB n).
Proof. intros n Hn. eapply Work_weaken; [| | | |apply (Work_array n)]; [|lia..]. cbv beta. intros _ m c [-> [H _]]. lia. Qed.
Lemma W_array_two : forall n, 1 <= n -> W 2 1 2 0 (parse_array PB n).
Proof. intros n Hn. eapply Work_weaken; [| | | |apply (Work_array n)]; [|lia..]. cbv beta. intros _ m c [-> [_ H]]. lia. Qed.

Lemma W_u8 : W 4 0 2 0 (parse_u8 PB).
Proof. unfold parse_u8. apply W_map, W_array_pos. lia. Qed.

Lemma W_uint : forall A n (f : config -> list N -> A), 1 <= n ->
  W 4 0 2 0 (a <- parse_array PB n ;; c <- get_cfg ;; ret (f c a)).
Proof.
  intros A n f Hn. eapply W_mono.
  - eapply W_bind; [apply (W_array_pos n Hn)|]. intros x. eapply W_bind; [apply W_cfg|]. intros c. apply W_ret.
  - lia. - lia. - lia. - lia.
Qed.
Lemma W_uint_two : forall A n (f : config -> list N -> A), 1 <= n ->
  W 2 1 2 0 (a <- parse_array PB n ;; c <- get_cfg ;; ret (f c a)).
Proof.
  intros A n f Hn. eapply W_mono.
  - eapply W_bind; [apply (W_array_two n Hn)|]. intros x. eapply W_bind; [apply W_cfg|]. intros c. apply W_ret.
  - lia. - lia. - lia. - lia.
Qed.
Lemma W_u16_two : W 2 1 2 0 (parse_u16 pl PB).
Proof. apply (W_uint_two _ 2 (fun c a => convert pl (c_endian c) a)). lia. Qed.
Lemma W_u32_two : W 2 1 2 0 (parse_u32 pl PB).
Proof. apply (W_uint_two _ 4 (fun c a => convert pl (c_endian c) a)). lia. Qed.
Lemma W_header_two : W 2 3 4 0 (parse_header pl PB).
Proof.
  unfold parse_header. eapply W_mono.
  - eapply W_bind; [apply W_u32_two|]. intros t. eapply W_bind; [apply W_u16_two|]. intros m.
    eapply W_bind; [apply W_u16_two|]. intros s. apply W_ret.
  - lia. - lia. - lia. - lia.
Qed.
Lemma W_u16 : W 4 0 2 0 (parse_u16 pl PB).
Proof. apply (W_uint _ 2 (fun c a => convert pl (c_endian c) a)). lia. Qed.
Lemma W_u32 : W 4 0 2 0 (parse_u32 pl PB).
Proof. apply (W_uint _ 4 (fun c a => convert pl (c_endian c) a)). lia. Qed.
Lemma W_u64 : W 4 0 2 0 (parse_u64 pl PB).
Proof. apply (W_uint _ 8 (fun c a => convert pl (c_endian c) a)). lia. Qed.

Lemma W_rest : W 2 1 1 0 (parse_rest PB).
Proof.
  unfold parse_rest. eapply W_mono.
  - pose (g := fun c => chunk_to_cow c).
    assert (H : W 2 0 1 0 (c <- m_chunk PB ;; m_advance PB (len (cow_list (chunk_to_cow c))) ;;; ret (g c))).
    { apply (Work_take _ g (fun c => len (cow_list (chunk_to_cow c)))).
      intros c Hc. assert (Ec : cow_list (chunk_to_cow c) = chunk_data c) by (destruct c; reflexivity).
      rewrite Ec. lia. }
    assert (Hl : forall b, W 2 1 1 0 (loop (fun bytes => fun p =>
      match m_chunk PB p with
      | (Ok c, p') =>
          (m_advance PB (len (chunk_data c)) ;;;
           ret (inl (Owned (cow_list bytes ++ chunk_data c)))) p'
      | (Err e, p') => if is_eof e then (Ok (inr bytes), p') else (Err e, p')
      | (Panic, p') => (Panic, p')
      | (Fuel, p') => (Fuel, p')
      end) b)).
    { intros b. apply W_loop. clear b. intros bytes p l a Hr Hw.
      destruct (look p l a Hr) as [(-> & p1 & E & Hr1)|(c & p1 & E & Hr1 & Hc & Ha)]; rewrite E;
        destruct (chunk_calls _ _ _ E) as (C1 & O1 & L1).
      - destruct (is_eof fin); [exists (Ok (inr bytes))|exists (Err fin)]; exists p1, 0, 1; rewrite !N.add_0_r, L1;
          repeat (split; [reflexivity || lia|]); [|lia]. split; [exact Hr1|cbn [round]; lia].
      - destruct (Ha _ (N.le_refl _)) as (p2 & E2 & Hr2). unfold bind, ret. rewrite E2.
        destruct (advance_calls _ _ _ _ E2) as (C2 & O2 & L2).
        eexists. exists p2, (len (chunk_data c)), 2. rewrite L2, L1. split; [reflexivity|].
        repeat (split; [lia|]). split; [exact Hr2|cbn [round]; lia]. }
    pose proof (W_bind rep calls _ _ _ _ _ _ _ _ _ _ _ H Hl) as H2.
    assert (Ebind : forall p, (x <- (c <- m_chunk PB ;; m_advance PB (len (cow_list (chunk_to_cow c))) ;;; ret (g c)) ;;
      loop (fun bytes => fun p =>
      match m_chunk PB p with
      | (Ok c, p') =>
          (m_advance PB (len (chunk_data c)) ;;;
           ret (inl (Owned (cow_list bytes ++ chunk_data c)))) p'
      | (Err e, p') => if is_eof e then (Ok (inr bytes), p') else (Err e, p')
      | (Panic, p') => (Panic, p')
      | (Fuel, p') => (Fuel, p')
      end) x) p = parse_rest PB p).
    { intros p. unfold parse_rest, bind at 1 2 3. unfold bind at 2 3.
      destruct (m_chunk PB p) as [[c|e| |] p1]; try reflexivity.
      destruct (m_advance PB (len (cow_list (chunk_to_cow c))) p1) as [[[]|e| |] p2]; reflexivity. }
    intros p l a Hr Hw.
    specialize (H2 p l a Hr Hw). rewrite Ebind in H2. exact H2.
  - lia. - lia. - lia. - lia.
Qed.

Lemma W_string : W 2 1 1 0 (parse_rest_trim_nul PB).
Proof.
  unfold parse_rest_trim_nul. eapply W_mono.
  - eapply W_bind; [apply W_rest|]. intros c. apply W_lift.
  - lia. - lia. - lia. - lia.
Qed.

Section Elem.
Context {A : Type} (E : elem A) (He : W 4 0 2 0 (el_parse E PB)).

Lemma W_repeated : forall n, W 4 0 2 1 (parse_repeated pl PB E n).
Proof.
  intros n. unfold parse_repeated. eapply W_mono.
  - eapply W_bind; [apply W_bound|]. intros b. eapply W_bind; [apply W_alloc|]. intros _.
    apply W_loop with (b := 0) (e := 2). intros [k vec]. destruct (N.eqb_spec k 0) as [->|Hk]; [apply Work_done|].
    intros p l a Hr Hw. destruct (He p l a Hr Hw) as (r & p1 & m & c & Ep & Hm & Ho & Hc & Hl & Hres).
    unfold bind, ret. rewrite Ep.
    destruct r as [x|er| |]; [exists (Ok (inl (k - 1, vec ++ [x])))|exists (Err er)|exists Panic|exists Fuel];
      exists p1, m, c; (do 5 (split; [auto|])); cbn [round]; [|exact Hres..].
    destruct Hres as [Hr2 Hc2]. split; [exact Hr2|lia].
  - lia. - lia. - lia. - lia.
Qed.

Lemma W_slice : forall n, W 4 2 4 1 (parse_slice pl PB E n).
Proof.
  intros n. unfold parse_slice. eapply W_mono.
  - eapply W_bind with (b1 := 2) (e1 := 2) (k1 := 0).
    + unfold parse_slice_direct. eapply W_mono.
      * eapply W_bind; [apply W_cfg|]. intros c. eapply W_if; [apply W_ret|].
        assert (H : W 4 2 2 0 match checked_mul pl n (el_size E) with
          | None => fail (custom_error KInvalidRecord MsgSliceTooLong)
          | Some byte_len =>
              r <- parse_bytes_direct PB byte_len ;;
              match r with
              | None => ret None
              | Some (a, d) =>
                  if (a mod word_align pl =? 0) || (len d =? 0)
                  then ret (Some (a, map (el_native E) (chunks (el_size E) d)))
                  else ret None
              end
          end).
        { destruct (checked_mul pl n (el_size E)) as [k|]; [|eapply W_mono; [apply W_fail|apply N.le_refl|lia..]].
          eapply W_mono; [eapply W_bind with (b2 := 0) (e2 := 0) (k2 := 0); [apply W_direct|]|..]; [|lia..].
          intros [[x d]|]; [|apply W_ret]. destruct (_ || _); apply W_ret. }
        exact H.
      * apply N.le_refl. * lia. * lia. * lia.
    + intros [[x l]|]; [eapply W_mono; [apply W_ret|apply N.le_refl|..]|apply W_map, W_repeated]; lia.
  - lia. - lia. - lia. - lia.
Qed.
End Elem.

Lemma W_rest4 : W 4 1 1 0 (parse_rest PB).
Proof. eapply W_mono; [apply W_rest|lia..]. Qed.
Lemma W_string4 : W 4 1 1 0 (parse_rest_trim_nul PB).
Proof. eapply W_mono; [apply W_string|lia..]. Qed.
Lemma W_bytes4 : forall n, W 4 2 3 1 (parse_bytes pl PB n).
Proof. intros n. eapply W_mono; [apply W_bytes|lia..]. Qed.
Lemma W_skip4 : forall n, W 4 0 1 0 (parse_bytes_ignored PB n).
Proof. intros n. eapply W_mono; [apply W_ignored|lia..]. Qed.
Lemma W_split4 : forall n, W 4 0 1 0 (split_at PB n).
Proof. intros n. eapply W_mono; [apply W_split|lia..]. Qed.

Ltac prim :=
  first [apply W_u64 | apply W_u32 | apply W_u16 | apply W_u8 | apply W_array_pos; lia | apply W_cfg | apply W_off
        | apply W_string4 | apply W_rest4 | apply W_bytes4 | apply W_skip4
        | apply W_ret | apply W_fail | apply W_lift].
Ltac w t := first [prim | t | apply W_parse_if; w t | eapply W_bind; [w t|intros; cbv zeta; w t] | eapply W_if; [w t|w t]].
Ltac small := first [apply N.leb_le; vm_compute; reflexivity | lia].
Ltac weigh t := cbv zeta; eapply W_mono; [w t|..]; small.

Lemma W_header : W 4 0 2 0 (parse_header pl PB).
Proof. unfold parse_header. weigh ltac:(fail). Qed.
Lemma W_lost : W 4 0 2 0 (parse_lost pl PB).
Proof. unfold parse_lost. weigh ltac:(fail). Qed.
Lemma W_lost_samples : W 4 0 2 0 (parse_lost_samples pl PB).
Proof. unfold parse_lost_samples. weigh ltac:(fail). Qed.
Lemma W_exit : W 4 0 2 0 (parse_exit pl PB).
Proof. unfold parse_exit. weigh ltac:(fail). Qed.
Lemma W_throttle : W 4 0 2 0 (parse_throttle pl PB).
Proof. unfold parse_throttle. weigh ltac:(fail). Qed.
Lemma W_aux : W 4 0 2 0 (parse_aux pl PB).
Proof. unfold parse_aux. weigh ltac:(fail). Qed.
Lemma W_itrace_start : W 4 0 2 0 (parse_itrace_start pl PB).
Proof. unfold parse_itrace_start. weigh ltac:(fail). Qed.
Lemma W_switch_cpu_wide : W 4 0 2 0 (parse_switch_cpu_wide pl PB).
Proof. unfold parse_switch_cpu_wide. weigh ltac:(fail). Qed.
Lemma W_bpf_event : W 4 0 2 0 (parse_bpf_event pl PB).
Proof. unfold parse_bpf_event. weigh ltac:(fail). Qed.
Lemma W_aux_output_hw_id : W 4 0 2 0 (parse_aux_output_hw_id pl PB).
Proof. unfold parse_aux_output_hw_id. weigh ltac:(fail). Qed.
Lemma W_mmap : W 4 1 2 0 (parse_mmap pl PB).
Proof. unfold parse_mmap. weigh ltac:(fail). Qed.
Lemma W_mmap_detail : W 4 0 2 0 (parse_mmap_detail pl PB).
Proof. unfold parse_mmap_detail. weigh ltac:(fail). Qed.
Lemma W_mmap2 : W 4 1 2 0 (parse_mmap2 pl PB).
Proof. unfold parse_mmap2. weigh ltac:(apply W_mmap_detail). Qed.
Lemma W_comm : W 4 1 2 0 (parse_comm pl PB).
Proof. unfold parse_comm. weigh ltac:(fail). Qed.
Lemma W_ksymbol : W 4 1 2 0 (parse_ksymbol pl PB).
Proof. unfold parse_ksymbol. weigh ltac:(fail). Qed.
Lemma W_cgroup : W 4 1 2 0 (parse_cgroup pl PB).
Proof. unfold parse_cgroup. weigh ltac:(fail). Qed.
Lemma W_text_poke : W 4 2 3 1 (parse_text_poke pl PB).
Proof. unfold parse_text_poke. weigh ltac:(fail). Qed.
Lemma W_sample_id : W 4 0 2 0 (parse_sample_id pl PB).
Proof. unfold parse_sample_id. weigh ltac:(fail). Qed.
Lemma W_read_value : W 4 0 2 0 (parse_read_value pl PB).
Proof. unfold parse_read_value. weigh ltac:(fail). Qed.
Lemma W_read : W 4 0 2 0 (parse_read pl PB).
Proof. unfold parse_read. weigh ltac:(apply W_read_value). Qed.

Lemma W_slice_u64 : forall n, W 4 2 4 1 (parse_slice pl PB (elem_u64 pl) n).
Proof. apply W_slice. apply W_u64. Qed.
Lemma W_slice_ns : forall n, W 4 2 4 1 (parse_slice pl PB (elem_ns pl) n).
Proof. apply W_slice. cbn [el_parse elem_ns]. unfold parse_ns_entry. weigh ltac:(fail). Qed.
Lemma W_slice_branch : forall n, W 4 2 4 1 (parse_slice pl PB (elem_branch pl) n).
Proof. apply W_slice. cbn [el_parse elem_branch]. unfold parse_branch_entry. weigh ltac:(fail). Qed.
Ltac arrays := first [apply W_slice_u64 | apply W_slice_ns | apply W_slice_branch].

Lemma W_namespaces : W 4 2 4 1 (parse_namespaces pl PB).
Proof. unfold parse_namespaces. weigh arrays. Qed.
Lemma W_group_data : forall B o err (f : cow N -> B),
  W 4 2 4 1 (match o with None => fail err | Some n => x <- parse_slice pl PB (elem_u64 pl) n ;; ret (f x) end).
Proof.
  intros B [n|] err f.
  - apply W_map, W_slice_u64.
  - eapply W_mono; [apply W_fail|apply N.le_refl|lia..].
Qed.
Lemma W_read_group : W 4 2 4 1 (parse_read_group pl PB).
Proof. unfold parse_read_group. weigh ltac:(apply W_group_data). Qed.
Lemma W_registers : forall mask, W 4 2 4 1 (parse_registers pl PB mask).
Proof. intros mask. unfold parse_registers. weigh arrays. Qed.
Lemma W_regs_user : W 4 2 4 1 (parse_regs_user pl PB).
Proof. unfold parse_regs_user. weigh ltac:(apply W_registers). Qed.
Lemma W_regs_intr : W 4 2 4 1 (parse_regs_intr pl PB).
Proof. unfold parse_regs_intr. weigh ltac:(apply W_registers). Qed.
Lemma W_sample_read : W 4 2 4 1 (parse_sample_read pl PB).
Proof. unfold parse_sample_read. weigh ltac:(first [apply W_read_group|apply W_read_value]). Qed.
Lemma W_callchain : W 4 2 4 1 (parse_callchain pl PB).
Proof. unfold parse_callchain. weigh arrays. Qed.
Lemma W_padded : forall A b e k n (m : M S A), b <= e -> W 4 b e k m -> W 4 b (N.max e (b + 1)) k (parse_padded PB n m).
Proof.
  intros A b e k n m Hb H. unfold parse_padded. eapply W_mono.
  - eapply W_if; [apply W_panic|]. w ltac:(apply H).
  - lia. - lia. - lia. - lia.
Qed.
Lemma W_raw : W 4 2 3 1 (parse_raw pl PB).
Proof.
  unfold parse_raw. eapply W_mono; [apply (W_padded _ 2 3 1); [lia|weigh ltac:(fail)]|..]; lia.
Qed.
Lemma W_lbr : forall hw, W 4 2 4 1 (parse_lbr pl PB hw).
Proof. intros hw. unfold parse_lbr. weigh arrays. Qed.
Lemma W_stack_user : W 4 2 4 1 (parse_stack_user pl PB).
Proof. unfold parse_stack_user. weigh ltac:(fail). Qed.
Lemma W_sample_aux : W 4 2 3 1 (parse_sample_aux pl PB).
Proof. unfold parse_sample_aux. weigh ltac:(fail). Qed.
Ltac parts := first [apply W_sample_read | apply W_callchain | apply W_raw | apply W_lbr | apply W_registers
  | apply W_stack_user | apply W_sample_aux].
Lemma W_sample : W 4 16 18 8 (parse_sample pl PB).
Proof. unfold parse_sample. weigh parts. Qed.

Lemma W_case : forall A rate b e k (c : bool) (m1 m2 : M S A),
  W rate b e k m1 -> W rate b e k m2 -> W rate b e k (if c then m1 else m2).
Proof. intros A rate b e k [] m1 m2 H1 H2; assumption. Qed.
Lemma W_of : forall A B b e k (f : A -> B) (m : M S A),
  b <= 16 -> e <= 18 -> k <= 8 -> W 4 b e k m -> W 4 16 18 8 (x <- m ;; ret (f x)).
Proof. intros A B b e k f m Hb He Hk H. eapply W_mono; [apply W_map, H|lia..]. Qed.
Lemma W_body : forall t, W 4 16 18 8 (parse_body pl PB t).
Proof.
  intros t. unfold parse_body.
  apply W_case; [eapply W_of; [| | |apply W_mmap]; lia|].
  apply W_case; [eapply W_of; [| | |apply W_lost]; lia|].
  apply W_case; [eapply W_of; [| | |apply W_comm]; lia|].
  apply W_case; [eapply W_of; [| | |apply W_exit]; lia|].
  apply W_case; [eapply W_of; [| | |apply W_throttle]; lia|].
  apply W_case; [eapply W_of; [| | |apply W_throttle]; lia|].
  apply W_case; [eapply W_of; [| | |apply W_exit]; lia|].
  apply W_case; [eapply W_of; [| | |apply W_read]; lia|].
  apply W_case; [eapply W_of; [| | |apply W_sample]; lia|].
  apply W_case; [eapply W_of; [| | |apply W_mmap2]; lia|].
  apply W_case; [eapply W_of; [| | |apply W_aux]; lia|].
  apply W_case; [eapply W_of; [| | |apply W_itrace_start]; lia|].
  apply W_case; [eapply W_of; [| | |apply W_lost_samples]; lia|].
  apply W_case; [eapply W_of; [| | |apply W_switch_cpu_wide]; lia|].
  apply W_case; [eapply W_of; [| | |apply W_namespaces]; lia|].
  apply W_case; [eapply W_of; [| | |apply W_ksymbol]; lia|].
  apply W_case; [eapply W_of; [| | |apply W_bpf_event]; lia|].
  apply W_case; [eapply W_of; [| | |apply W_cgroup]; lia|].
  apply W_case; [eapply W_of; [| | |apply W_text_poke]; lia|].
  apply W_case; [eapply W_of; [| | |apply W_aux_output_hw_id]; lia|].
  eapply W_of; [| | |apply W_rest4]; lia.
Qed.

Lemma W_attr_fields : forall t sz, W 4 1 2 0 (parse_attr_fields pl PB t sz).
Proof. intros t sz. unfold parse_attr_fields, or0. weigh ltac:(fail). Qed.

End Prims.
