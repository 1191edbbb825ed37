(** Refinement for the methods of [Parser]. *)
From Coq Require Import NArith List Bool Lia.
From Verif Require Import Base BaseFacts Types Platform Config Buf Parser Contract Flat Refine.
From Verif Require Import Instances Records Sample.
Import ListNotations.
Open Scope N_scope.

Lemma chunks_ok_snoc : forall mo m acc a c,
  chunks_ok mo m acc a -> (mo = Whole -> acc = []) ->
  chunks_ok mo m [c] (a + len (concat (map cow_list acc))) ->
  chunks_ok mo m (acc ++ [c]) a.
Proof.
  intros mo m acc; induction acc as [|d acc IH]; intros a c H HW Hc.
  - cbn in Hc |- *. now rewrite N.add_0_r in Hc.
  - cbn [app chunks_ok map concat] in *. destruct H as (Hne & Hd & Ht).
    split; [assumption|]. split.
    + destruct d as [x l|l]; [|assumption]. destruct Hd as [Hm Hd]; split; [assumption|].
      destruct mo; try assumption. discriminate (HW eq_refl).
    + apply IH; [assumption|intros E; discriminate (HW E)|].
      rewrite len_app in Hc. now rewrite N.add_assoc in Hc.
Qed.

(** [H] is about the run the goal is about. *)
Ltac run H r p' :=
  cbv beta in H;
  match type of H with
  | match ?L with pair _ _ => _ end => revert H; destruct L as [r p']; intros H
  end.

Section Prims.
Context (pl : platform) {S : Type} (PB : parsebuf S) (mo : mode) (fin : perror) (cap : N)
  (mem : memory) (rep : S -> list N -> N -> Prop) (a0 : N).
Context (HC : contract PB mo fin cap mem rep).

Notation Ref := (Ref mo fin cap rep a0).
Notation step := (step cap rep a0).

(** Progress of an accumulator of bytes. *)
Let J (l0 : list N) (pos0 : N) (n pos : N) (l acc : list N) : Prop :=
  exists k, k <= len l0 /\ pos = pos0 + k /\ l = drop k l0 /\ acc = take k l0.

Lemma J_start : forall l0 pos0 n, J l0 pos0 n pos0 l0 [].
Proof. intros; exists 0; rewrite drop_0, take_0; repeat split; lia. Qed.

Lemma J_next : forall l0 pos0 n pos l acc c r,
  J l0 pos0 n pos l acc -> l = chunk_data c ++ r ->
  let k := N.min (len (chunk_data c)) n in
  J l0 pos0 (n - k) (pos + k) (drop k l) (acc ++ take k (chunk_data c)).
Proof.
  intros l0 pos0 n pos l acc c r (k & Hk & -> & Hl & ->) Hp k'.
  assert (Hlen : len l = len (chunk_data c) + len r) by (rewrite Hp at 1; apply len_app).
  assert (Hlen' : len l = len l0 - k) by (rewrite Hl; apply len_drop).
  exists (k + k'). repeat split; try lia.
  - now rewrite Hl, drop_drop.
  - rewrite take_plus. f_equal. rewrite <- Hl, Hp. now rewrite take_app_le by lia.
Qed.

Lemma to_slice_spec : forall n p l pos, rep (p_buf p) l (a0 + pos) -> wf l ->
  let '(r, p') := parse_to_slice PB n p in
  if len l <? n
  then r = Err fin /\ step p l pos p' [] (pos + len l)
  else r = Ok (take n l) /\ step p l pos p' (drop n l) (pos + n).
Proof.
  intros n p l pos Hr Hw. unfold parse_to_slice.
  pose proof (consume_rule PB mo fin cap mem rep a0 HC (N * list N) (list N) (list N)
    (fun n acc => (n, acc)) (fun acc => acc)
    (fun '(n, dst) =>
      if n =? 0 then ret (inr dst)
      else c <- m_chunk PB ;;
           let cl := N.min (len (chunk_data c)) n in
           let dst := dst ++ take cl (chunk_data c) in
           m_advance PB cl ;;;
           ret (inl (n - cl, dst)))
    (fun acc c n => acc ++ take (N.min (len (chunk_data c)) n) (chunk_data c))
    (J l pos)) as H.
  specialize (H ltac:(intros; split; congruence)).
  specialize (H ltac:(reflexivity)).
  specialize (H ltac:(intros n' acc p' Hn; cbv beta iota zeta; destruct (N.eqb_spec n' 0); [contradiction|reflexivity])).
  specialize (H ltac:(intros pos' l' acc' c' n' r' HJ' _ Hp' _ _ _; exact (J_next _ _ _ _ _ _ _ _ HJ' Hp'))).
  specialize (H n [] p l pos Hr Hw (J_start _ _ _)).
  run H r p'.
  revert H; destruct (N.ltb_spec (len l) n) as [Hlt|Hge]; intros H; [assumption|].
  destruct H as (acc & -> & (k & Hk & Hpos & Hd & ->) & Hs).
  replace k with n in * by lia. auto.
Qed.

Lemma slow_loop_spec : forall n p l pos, rep (p_buf p) l (a0 + pos) -> wf l ->
  let '(r, p') := loop (fun '(n, bytes) =>
    if n =? 0 then ret (inr bytes)
    else c <- m_chunk PB ;;
         let c := chunk_truncate c n in
         let bytes := bytes ++ chunk_data c in
         let cl := len (chunk_data c) in
         m_advance PB cl ;;;
         ret (inl (n - cl, bytes))) (n, []) p in
  if len l <? n
  then r = Err fin /\ step p l pos p' [] (pos + len l)
  else r = Ok (take n l) /\ step p l pos p' (drop n l) (pos + n).
Proof.
  intros n p l pos Hr Hw.
  pose proof (consume_rule PB mo fin cap mem rep a0 HC (N * list N) (list N) (list N)
    (fun n acc => (n, acc)) (fun acc => acc)
    (fun '(n, bytes) =>
    if n =? 0 then ret (inr bytes)
    else c <- m_chunk PB ;;
         let c := chunk_truncate c n in
         let bytes := bytes ++ chunk_data c in
         let cl := len (chunk_data c) in
         m_advance PB cl ;;;
         ret (inl (n - cl, bytes)))
    (fun acc c n => acc ++ take (N.min (len (chunk_data c)) n) (chunk_data c))
    (J l pos)) as H.
  specialize (H ltac:(intros; split; congruence)).
  specialize (H ltac:(reflexivity)).
  assert (Hb : forall n c, chunk_data (chunk_truncate c n)
                 = take (N.min (len (chunk_data c)) n) (chunk_data c)).
  { intros n' c. rewrite chunk_truncate_data. rewrite <- (take_all (len (chunk_data c)) (chunk_data c)) at 1 by lia.
    rewrite take_take. f_equal; lia. }
  specialize (H ltac:(intros n' acc p' Hn; cbv beta iota zeta; destruct (N.eqb_spec n' 0); [contradiction|];
    unfold bind; destruct (m_chunk PB p') as [[c|e| |] p'']; try reflexivity;
    cbv zeta; rewrite Hb, len_take;
    replace (N.min (N.min (len (chunk_data c)) n') (len (chunk_data c)))
      with (N.min (len (chunk_data c)) n') by lia; reflexivity)).
  specialize (H ltac:(intros pos' l' acc' c' n' r' HJ' _ Hp' _ _ _; exact (J_next _ _ _ _ _ _ _ _ HJ' Hp'))).
  specialize (H n [] p l pos Hr Hw (J_start _ _ _)).
  run H r p'.
  revert H; destruct (N.ltb_spec (len l) n) as [Hlt|Hge]; intros H; [assumption|].
  destruct H as (acc & -> & (k & Hk & Hpos & Hd & ->) & Hs).
  replace k with n in * by lia. auto.
Qed.

Lemma ignored_spec : forall n p l pos, rep (p_buf p) l (a0 + pos) -> wf l ->
  let '(r, p') := parse_bytes_ignored PB n p in
  if len l <? n
  then r = Err fin /\ step p l pos p' [] (pos + len l)
  else r = Ok tt /\ step p l pos p' (drop n l) (pos + n).
Proof.
  intros n p l pos Hr Hw. unfold parse_bytes_ignored.
  pose proof (consume_rule PB mo fin cap mem rep a0 HC N unit unit
    (fun n _ => n) (fun acc => acc)
    (fun n =>
      if n =? 0 then ret (inr tt)
      else c <- m_chunk PB ;;
           let consumed := N.min (len (chunk_data c)) n in
           m_advance PB consumed ;;;
           ret (inl (n - consumed)))
    (fun acc c n => tt) (fun _ _ _ _ => True)) as H.
  specialize (H ltac:(intros n1 [] n2 []; auto)).
  specialize (H ltac:(intros []; reflexivity)).
  specialize (H ltac:(intros n' acc p' Hn; cbv beta iota zeta; destruct (N.eqb_spec n' 0); [contradiction|reflexivity])).
  specialize (H ltac:(intros; exact I)).
  specialize (H n tt p l pos Hr Hw I).
  run H r p'.
  revert H; destruct (N.ltb_spec (len l) n) as [Hlt|Hge]; intros H; [assumption|].
  destruct H as ([] & -> & _ & Hs). auto.
Qed.

Lemma cursor_new_spec : forall n p l pos, rep (p_buf p) l (a0 + pos) -> wf l ->
  let '(r, p') := cursor_new PB n p in
  if len l <? n
  then r = Err fin /\ step p l pos p' [] (pos + len l)
  else exists c, r = Ok c /\ cursor_rep mo n mem c (take n l) (a0 + pos) /\ cu_offset c = 0 /\
       cu_len c = n /\ step p l pos p' (drop n l) (pos + n).
Proof.
  intros n p l pos Hr Hw. unfold cursor_new.
  pose proof (consume_rule PB mo fin cap mem rep a0 HC (N * list (cow N)) (list (cow N))
    (list (cow N)) (fun n acc => (n, acc)) (fun acc => acc)
    (fun '(n, chunks) =>
    if n =? 0 then ret (inr chunks)
    else c <- m_chunk PB ;;
         let c := chunk_truncate c n in
         let cl := len (chunk_data c) in
         let chunks := if 0 <? cl then chunks ++ [chunk_to_cow c] else chunks in
         m_advance PB cl ;;;
         ret (inl (n - cl, chunks)))
    (fun acc c n => if 0 <? len (chunk_data (chunk_truncate c n))
                    then acc ++ [chunk_to_cow (chunk_truncate c n)] else acc)
    (fun n pos' l' acc => J l pos n pos' l' (concat (map cow_list acc)) /\
       chunks_ok mo mem acc (a0 + pos) /\ (mo = Whole -> acc = [] \/ l' = [] \/ n = 0))) as H.
  assert (Hb : forall n c, chunk_data (chunk_truncate c n)
                 = take (N.min (len (chunk_data c)) n) (chunk_data c)).
  { intros n' c. rewrite chunk_truncate_data. rewrite <- (take_all (len (chunk_data c)) (chunk_data c)) at 1 by lia.
    rewrite take_take. f_equal; lia. }
  specialize (H ltac:(intros; split; congruence)).
  specialize (H ltac:(reflexivity)).
  specialize (H ltac:(intros n' acc p' Hn; cbv beta iota zeta; destruct (N.eqb_spec n' 0); [contradiction|];
    unfold bind; destruct (m_chunk PB p') as [[c|e| |] p'']; try reflexivity;
    cbv zeta; rewrite Hb, len_take;
    replace (N.min (N.min (len (chunk_data c)) n') (len (chunk_data c)))
      with (N.min (len (chunk_data c)) n') by lia; reflexivity)).
  assert (HJ : forall pos' l' acc c n r,
     J l pos n pos' l' (concat (map cow_list acc)) /\
       chunks_ok mo mem acc (a0 + pos) /\ (mo = Whole -> acc = [] \/ l' = [] \/ n = 0) ->
     l' <> [] -> l' = chunk_data c ++ r -> chunk_ok mo mem l' (a0 + pos') c ->
     chunk_data c <> [] -> n <> 0 ->
     let k := N.min (len (chunk_data c)) n in
     let acc' := if 0 <? len (chunk_data (chunk_truncate c n))
                 then acc ++ [chunk_to_cow (chunk_truncate c n)] else acc in
     J l pos (n - k) (pos' + k) (drop k l') (concat (map cow_list acc')) /\
       chunks_ok mo mem acc' (a0 + pos) /\ (mo = Whole -> acc' = [] \/ drop k l' = [] \/ n - k = 0)).
  { clear H. intros pos' l' acc c n' r (HJ & Hok & HW) Hl' Hp Hc Hne Hn. cbv zeta.
    pose proof (len_pos _ Hne) as Hpos.
    replace (0 <? len (chunk_data (chunk_truncate c n'))) with true
      by (symmetry; apply N.ltb_lt; rewrite Hb, len_take; lia).
    pose proof (J_next _ _ _ _ _ _ _ _ HJ Hp) as HJ'; cbv zeta in HJ'.
    assert (Ecow : cow_list (chunk_to_cow (chunk_truncate c n'))
                   = take (N.min (len (chunk_data c)) n') (chunk_data c)).
    { rewrite <- Hb. destruct (chunk_truncate c n'); reflexivity. }
    split; [|split].
    - rewrite map_app, concat_app; cbn [map concat]; rewrite app_nil_r, Ecow. exact HJ'.
    - apply chunks_ok_snoc; [assumption| |].
      { intros E; destruct (HW E) as [?|[?|?]]; [assumption|contradiction|contradiction]. }
      destruct HJ as (k & Hk & -> & Hl & Ecat). rewrite Ecat, len_take.
      replace (N.min k (len l)) with k by lia.
      cbn [chunks_ok]. split.
      { rewrite Ecow. apply len_pos_inv; rewrite len_take; lia. }
      split; [|exact I].
      unfold chunk_truncate. destruct c as [d|x d]; cbn [chunk_data chunk_ok] in *.
      + destruct (len d <=? n'); exact Hc.
      + destruct Hc as [Hm Hc].
        assert (G : forall d', (d' = d \/ d' = take n' d) -> mem_at mem x d' /\
          match mo with NoExt => False | Whole => x mod 8 = (a0 + pos + k) mod 8 /\ @nil (cow N) = []
                      | Coh => x mod 8 = (a0 + pos + k) mod 8 | AnyExt => True end).
        { intros d' Hd'; split; [destruct Hd' as [->| ->]; [assumption|now apply mem_at_take]|].
          rewrite <- N.add_assoc. destruct mo; try assumption. split; [tauto|reflexivity]. }
        destruct (len d <=? n'); cbn [chunk_to_cow]; apply G; auto.
    - intros E. right. destruct c as [d|x d]; cbn [chunk_data chunk_ok] in *; [congruence|].
      destruct Hc as [_ Hc]; rewrite E in Hc; destruct Hc as [_ ->].
      destruct (N.le_gt_cases (len l') n') as [Hle|Hgt].
      + left. apply drop_all; lia.
      + right; lia. }
  specialize (H HJ). clear HJ Hb.
  specialize (H n [] p l pos Hr Hw).
  specialize (H ltac:(split; [apply J_start|]; split; [exact I|auto])).
  unfold bind at 1.
  run H r p'.
  revert H; destruct (N.ltb_spec (len l) n) as [Hlt|Hge]; intros H.
  - destruct H as [-> Hs]; auto.
  - destruct H as (acc & -> & ((k & Hk & Hpos & Hd & Ecat) & Hok & _) & Hs).
    replace k with n in * by lia. cbn [ret].
    exists (mkCursor (rev acc) 0 n). split; [reflexivity|]. split; [|auto].
    exists (a0 + pos), acc; cbn [cu_chunks cu_offset cu_len].
    split; [reflexivity|]. split; [lia|]. split; [assumption|]. split.
    { destruct acc as [|d acc]; [reflexivity|]. cbn in Hok. apply len_pos; tauto. }
    rewrite drop_0, len_take. split; [congruence|]. lia.
Qed.

(** * [Ref] for the methods *)

Lemma Ref_array : forall n, Ref eq (parse_array PB n) (f_take n).
Proof.
  intros n p l pos Hr Hw. unfold f_take, parse_array, bind.
  destruct (list_eq_dec N.eq_dec l []) as [->|Hl].
  { destruct (chunk_empty PB mo fin cap mem rep a0 HC p pos Hr) as (p1 & E & Hs).
    intros _. rewrite E. exists p1; auto. }
  destruct (chunk_some PB mo fin cap mem rep a0 HC p l pos Hr Hl)
    as (c & p1 & E & Hne & (r & Hp) & Hok & Hc & Hs & Ha).
  rewrite E.
  assert (Hlen : len l = len (chunk_data c) + len r) by (rewrite Hp at 1; apply len_app).
  replace (match l with [] => _ | _ => _ end) with
    (if len l <? n then FErr fin [] (pos + len l) []
     else FOk (take n l) (drop n l) (pos + n) []) by (destruct l; [congruence|reflexivity]).
  destruct (N.ltb_spec (len (chunk_data c)) n) as [Hlt|Hge].
  - pose proof (to_slice_spec n p1 l pos (st_rep _ _ _ _ _ _ _ _ _ Hs) Hw) as H.
    run H res p2.
    revert H; destruct (len l <? n); intros H _; destruct H as [-> H].
    + exists p2; split; [reflexivity|]. eapply step_trans; eassumption.
    + exists (take n l), p2; split; [reflexivity|]. split; [reflexivity|].
      eapply step_trans; eassumption.
  - replace (len l <? n) with false by (symmetry; apply N.ltb_ge; lia). intros _.
    destruct (Ha n Hge) as (p2 & E2 & Hs2). rewrite E2. cbn [ret].
    exists (take n l), p2; split; [|auto]. do 2 f_equal.
    rewrite Hp, take_app_le by assumption. reflexivity.
Qed.

Lemma Ref_ignored : forall n, Ref eq (parse_bytes_ignored PB n) (f_skip n).
Proof.
  intros n p l pos Hr Hw.
  pose proof (ignored_spec n p l pos Hr Hw) as H.
  run H res p'. unfold f_skip.
  destruct (N.eqb_spec n 0) as [->|Hn].
  - cbn. intros _. replace (len l <? 0) with false in H by (symmetry; apply N.ltb_ge; lia).
    destruct H as [-> H]. rewrite drop_0, N.add_0_r in H. exists tt, p'; auto.
  - unfold fbind, f_take. destruct l as [|b l].
    + cbn [fe_fin]. intros _. rewrite len_nil in H.
      replace (0 <? n) with true in H by (symmetry; apply N.ltb_lt; lia).
      destruct H as [-> H]. rewrite N.add_0_r in H. exists p'; auto.
    + revert H; destruct (len (b :: l) <? n); cbn [fret]; intros H _; destruct H as [-> H].
      * exists p'; auto.
      * exists tt, p'; auto.
Qed.

Lemma bind_eq : forall A B (m : M S A) (k : A -> M S B) p a p',
  m p = (Ok a, p') -> bind m k p = k a p'.
Proof. intros A B m k p a p' E; unfold bind; now rewrite E. Qed.

(** [parse_bytes_direct], in the two cases. *)
Lemma bytes_direct_spec : forall n p l pos, rep (p_buf p) l (a0 + pos) -> wf l ->
  match l with
  | [] => exists p', parse_bytes_direct PB n p = (Err fin, p') /\ step p [] pos p' [] pos
  | _ =>
      exists r p', parse_bytes_direct PB n p = (Ok r, p') /\
      match r with
      | Some (x, d) =>
          n <= len l /\ d = take n l /\ mem_at mem x d /\
          match mo with NoExt => False | Whole | Coh => x mod 8 = (a0 + pos) mod 8 | AnyExt => True end /\
          step p l pos p' (drop n l) (pos + n)
      | None => (mo = Whole -> len l < n) /\ step p l pos p' l pos
      end
  end.
Proof.
  intros n p l pos Hr Hw. unfold parse_bytes_direct.
  destruct (list_eq_dec N.eq_dec l []) as [->|Hl].
  { destruct (chunk_empty PB mo fin cap mem rep a0 HC p pos Hr) as (p1 & E & Hs).
    unfold bind; rewrite E. exists p1; auto. }
  destruct (chunk_some PB mo fin cap mem rep a0 HC p l pos Hr Hl)
    as (c & p1 & E & Hne & (r & Hp) & Hok & Hc & Hs & Ha).
  assert (Hlen : len l = len (chunk_data c) + len r) by (rewrite Hp at 1; apply len_app).
  rewrite (bind_eq _ _ _ _ _ _ _ E).
  enough (G : exists r p', match c with
      | Temporary _ => ret None
      | External a d => if len d <? n then ret None else m_advance PB n ;;; ret (Some (a, take n d))
      end p1 = (Ok r, p') /\
      match r with
      | Some (x, d) =>
          n <= len l /\ d = take n l /\ mem_at mem x d /\
          match mo with NoExt => False | Whole | Coh => x mod 8 = (a0 + pos) mod 8 | AnyExt => True end /\
          step p l pos p' (drop n l) (pos + n)
      | None => (mo = Whole -> len l < n) /\ step p l pos p' l pos
      end) by (destruct l; [congruence|exact G]).
  destruct c as [d|x d]; cbn [chunk_data chunk_ok] in *.
  - exists None, p1; split; [reflexivity|]. split; [intros; congruence|assumption].
  - destruct Hok as [Hm Hok]. destruct (N.ltb_spec (len d) n) as [Hlt|Hge].
    + exists None, p1; split; [reflexivity|]. split; [|assumption].
      intros E1; rewrite E1 in Hok. destruct Hok as [_ ->]; lia.
    + destruct (Ha n Hge) as (p2 & E2 & Hs2).
      rewrite (bind_eq _ _ _ _ _ _ _ E2).
      exists (Some (x, take n d)), p2; split; [reflexivity|].
      split; [lia|]. split; [now rewrite Hp, take_app_le by assumption|].
      split; [now apply mem_at_take|]. split; [|assumption].
      destruct mo; tauto.
Qed.

(** Integers. *)
Lemma Ref_uint_of : forall n (g : config -> list N -> N),
  (forall c l, len l = n -> g c l = from_order (order_of pl (c_endian c)) l) ->
  Ref eq (a <- parse_array PB n ;; c <- get_cfg ;; ret (g c a)) (f_uint pl n).
Proof.
  intros n g Hg p l pos Hr Hw. pose proof (Ref_array n p l pos Hr Hw) as H.
  unfold f_uint, fbind. unfold f_take in *.
  destruct l as [|b l].
  - intros _. destruct (H ltac:(constructor)) as (p' & E & Hs). unfold bind; rewrite E. exists p'; auto.
  - revert H; destruct (N.ltb_spec (len (b :: l)) n) as [Hlt|Hge]; intros H.
    + intros _. destruct (H ltac:(constructor)) as (p' & E & Hs). unfold bind; rewrite E. exists p'; auto.
    + cbn [fcfg fret]. intros _. destruct (H ltac:(constructor)) as (a & p' & E & -> & Hs).
      unfold bind; rewrite E. cbn [get_cfg ret]. eexists; exists p'; split; [reflexivity|].
      split; [|assumption]. rewrite Hg by (rewrite len_take; lia).
      now rewrite (st_cfg _ _ _ _ _ _ _ _ _ Hs).
Qed.

Lemma Ref_u16 : Ref eq (parse_u16 pl PB) (f_uint pl 2).
Proof. apply (Ref_uint_of 2 (fun c a => convert pl (c_endian c) a)); intros; apply convert_order. Qed.
Lemma Ref_u32 : Ref eq (parse_u32 pl PB) (f_uint pl 4).
Proof. apply (Ref_uint_of 4 (fun c a => convert pl (c_endian c) a)); intros; apply convert_order. Qed.
Lemma Ref_u64 : Ref eq (parse_u64 pl PB) (f_uint pl 8).
Proof. apply (Ref_uint_of 8 (fun c a => convert pl (c_endian c) a)); intros; apply convert_order. Qed.

Lemma from_order_1 : forall o b, from_order o [b] = b.
Proof. intros [] b; cbn; lia. Qed.

Lemma Ref_u8 : Ref eq (parse_u8 PB) (f_uint pl 1).
Proof.
  intros p l pos Hr Hw.
  pose proof (Ref_uint_of 1 (fun _ a => match a with [b] => b | _ => 0 end)) as G.
  assert (Hg : forall (c : config) (l : list N), len l = 1 ->
    match l with [b] => b | _ => 0 end = from_order (order_of pl (c_endian c)) l).
  { intros c [|b [|b' t]] E; rewrite ?len_cons, ?len_nil in E; try lia.
    now rewrite from_order_1. }
  specialize (G Hg p l pos Hr Hw).
  assert (E : parse_u8 PB p =
    (a <- parse_array PB 1 ;; _ <- get_cfg ;; ret match a with [b] => b | _ => 0 end) p).
  { unfold parse_u8, bind. destruct (parse_array PB 1 p) as [[a|e| |] p']; reflexivity. }
  rewrite E. exact G.
Qed.

Lemma Ref_padded : forall A B (R : A -> B -> Prop) k m f, k <> 0 ->
  Ref R m f -> Ref R (parse_padded PB k m) (f_padded k f).
Proof.
  intros A B R k m f Hk Hm p l pos Hr Hw. unfold parse_padded.
  destruct (N.eqb_spec k 0) as [?|_]; [contradiction|].
  specialize (Hm p l pos Hr Hw). unfold f_padded, fbind at 1.
  assert (E0 : get_off p = (Ok (p_off p), p)) by reflexivity.
  rewrite (bind_eq _ _ _ _ _ _ _ E0).
  destruct (f _ l pos) as [b l1 pos1 ev1|e l1 pos1 ev1].
  2:{ intros Hev. destruct (Hm Hev) as (p1 & E & Hs). unfold bind; rewrite E. exists p1; auto. }
  assert (G : Forall (ev_ok mo a0) ev1 -> exists a p1, m p = (Ok a, p1) /\ R a b /\ step p l pos p1 l1 pos1 /\
     Ref R ((if (p_off p1 - p_off p) mod k =? 0 then ret tt
             else parse_bytes_ignored PB (k - (p_off p1 - p_off p) mod k)) ;;; ret a)
       (_ <~ f_skip (if (pos1 - pos) mod k =? 0 then 0 else k - (pos1 - pos) mod k) ;; fret b)).
  { intros Hev. destruct (Hm Hev) as (a & p1 & E & HR & Hs). exists a, p1.
    split; [assumption|]. split; [assumption|]. split; [assumption|].
    destruct Hs as [_ _ (j & _ & _ & -> & ->) _].
    replace (p_off p + j - p_off p) with j by lia. replace (pos + j - pos) with j by lia.
    eapply Ref_bind; [|intros; apply Ref_ret; assumption].
    instantiate (1 := eq).
    destruct (j mod k =? 0); [|apply Ref_ignored].
    unfold f_skip; cbn. now apply Ref_ret. }
  destruct ((_ <~ f_skip (if (pos1 - pos) mod k =? 0 then 0 else k - (pos1 - pos) mod k) ;; fret b)
    (mkEnv (p_cfg p) fin) l1 pos1) as [b2 l2 pos2 ev2|e2 l2 pos2 ev2] eqn:Ef;
    intros Hev; apply Forall_app in Hev as [Hev1 Hev2];
    destruct (G Hev1) as (a & p1 & E & HR & Hs & HRef);
    rewrite (bind_eq _ _ _ _ _ _ _ E);
    assert (E1 : get_off p1 = (Ok (p_off p1), p1)) by reflexivity;
    rewrite (bind_eq _ _ _ _ _ _ _ E1); cbv zeta;
    specialize (HRef p1 l1 pos1 (st_rep _ _ _ _ _ _ _ _ _ Hs)
                  (step_wf _ _ _ _ _ _ _ _ _ Hs Hw));
    rewrite (st_cfg _ _ _ _ _ _ _ _ _ Hs), Ef in HRef.
  - destruct (HRef Hev2) as (a2 & p2 & E2 & HR2 & Hs2). exists a2, p2.
    split; [assumption|]. split; [assumption|]. eapply step_trans; eassumption.
  - destruct (HRef Hev2) as (p2 & E2 & Hs2). exists p2.
    split; [assumption|]. eapply step_trans; eassumption.
Qed.

(** [parse_rest]. *)
Lemma Ref_rest : Ref (brel mo mem) (parse_rest PB) f_rest.
Proof.
  intros p l pos Hr Hw. unfold parse_rest, f_rest.
  destruct (list_eq_dec N.eq_dec l []) as [->|Hl].
  { destruct (chunk_empty PB mo fin cap mem rep a0 HC p pos Hr) as (p1 & E & Hs).
    intros _. unfold bind; rewrite E. exists p1; auto. }
  destruct (chunk_some PB mo fin cap mem rep a0 HC p l pos Hr Hl)
    as (c & p1 & E & Hne & (r & Hp) & Hok & Hc & Hs & Ha).
  assert (Hlen : len l = len (chunk_data c) + len r) by (rewrite Hp at 1; apply len_app).
  rewrite (bind_eq _ _ _ _ _ _ _ E). cbv zeta.
  assert (Ecow : cow_list (chunk_to_cow c) = chunk_data c) by (destruct c; reflexivity).
  rewrite Ecow.
  destruct (Ha (len (chunk_data c)) ltac:(lia)) as (p2 & E2 & Hs2).
  rewrite (bind_eq _ _ _ _ _ _ _ E2).
  replace (match l with [] => _ | _ => _ end) with
    (if is_eof fin then FOk l [] (pos + len l) [] else FErr fin [] (pos + len l) [])
    by (destruct l; [congruence|reflexivity]).
  set (body := fun bytes => fun p =>
    match m_chunk PB p with
    | (Ok c, p') =>
        (m_advance PB (len (chunk_data c)) ;;;
         ret (inl (Owned (cow_list bytes ++ chunk_data c)))) p'
    | (Err e, p') => if is_eof e then (Ok (inr bytes), p') else (Err e, p')
    | (Panic, p') => (Panic, p')
    | (Fuel, p') => (Fuel, p')
    end).
  assert (G : forall k x q, (exists l' pos', rep (p_buf q) l' (a0 + pos') /\ wf l' /\ k = len l') ->
    k < 2 ^ 64 -> forall l' pos', rep (p_buf q) l' (a0 + pos') -> wf l' ->
    bok mo mem x -> (mo = Whole -> l' = []) ->
    let '(r, q') := loop body x q in
     step q l' pos' q' [] (pos' + len l') /\
     if is_eof fin then exists y, r = Ok y /\ cow_list y = cow_list x ++ l' /\ bok mo mem y
     else r = Err fin).
  { intros k0 x0 q0 HI Hk.
    apply (loop_rule body (fun k (x : cow N) q => exists l' pos', rep (p_buf q) l' (a0 + pos') /\ wf l' /\ k = len l')
      (fun x q res => forall l' pos', rep (p_buf q) l' (a0 + pos') -> wf l' ->
        bok mo mem x -> (mo = Whole -> l' = []) ->
        let '(r, q') := res in
         step q l' pos' q' [] (pos' + len l') /\
         if is_eof fin then exists y, r = Ok y /\ cow_list y = cow_list x ++ l' /\ bok mo mem y
         else r = Err fin)) with (k := k0); [|assumption|assumption].
    clear - HC. intros k x q (l & pos & Hr & Hw & ->). unfold body at 1.
    destruct (list_eq_dec N.eq_dec l []) as [->|Hl].
    - destruct (chunk_empty PB mo fin cap mem rep a0 HC q pos Hr) as (p1 & E & Hs). rewrite E.
      destruct (is_eof fin).
      + intros l' pos' Hr' Hw' Hb HWh.
        destruct (list_eq_dec N.eq_dec l' []) as [->|Hl'].
        * destruct (chunk_empty PB mo fin cap mem rep a0 HC q pos' Hr') as (p2 & E2 & Hs2).
          rewrite E in E2; injection E2 as <-. rewrite len_nil, N.add_0_r. split; [assumption|].
          exists x; rewrite app_nil_r; auto.
        * destruct (chunk_some PB mo fin cap mem rep a0 HC q l' pos' Hr' Hl') as (c & p2 & E2 & _). congruence.
      + intros l' pos' Hr' Hw' Hb HWh.
        destruct (list_eq_dec N.eq_dec l' []) as [->|Hl'].
        * destruct (chunk_empty PB mo fin cap mem rep a0 HC q pos' Hr') as (p2 & E2 & Hs2).
          rewrite E in E2; injection E2 as <-. rewrite len_nil, N.add_0_r. split; [assumption|]. reflexivity.
        * destruct (chunk_some PB mo fin cap mem rep a0 HC q l' pos' Hr' Hl') as (c & p2 & E2 & _). congruence.
    - destruct (chunk_some PB mo fin cap mem rep a0 HC q l pos Hr Hl)
        as (c & p1 & E & Hne & (r & Hp) & Hok & Hc & Hs & Ha).
      assert (Hlen : len l = len (chunk_data c) + len r) by (rewrite Hp at 1; apply len_app).
      rewrite E. destruct (Ha (len (chunk_data c)) ltac:(lia)) as (p2 & E2 & Hs2).
      rewrite (bind_eq _ _ _ _ _ _ _ E2). cbn [ret].
      pose proof (len_pos _ Hne) as Hpos.
      exists (len (drop (len (chunk_data c)) l)). split; [rewrite len_drop; lia|]. split.
      { eexists; eexists; split; [apply (st_rep _ _ _ _ _ _ _ _ _ Hs2)|]. split; [now apply wf_drop|reflexivity]. }
      intros [res p'] HQ l' pos' Hr' Hw' Hb HWh.
      destruct (list_eq_dec N.eq_dec l' []) as [->|Hl'].
      { destruct (chunk_empty PB mo fin cap mem rep a0 HC q pos' Hr') as (p3 & E3 & _). congruence. }
      destruct (chunk_some PB mo fin cap mem rep a0 HC q l' pos' Hr' Hl')
        as (c' & p1' & E' & Hne' & (r' & Hp') & Hok' & Hc' & Hs' & Ha').
      rewrite E in E'. injection E' as <- <-.
      destruct (Ha' (len (chunk_data c)) ltac:(lia)) as (p2' & E2' & Hs2').
      rewrite E2 in E2'. injection E2' as <-.
      assert (Hlen' : len l' = len (chunk_data c) + len r') by (rewrite Hp' at 1; apply len_app).
      assert (Ed : drop (len (chunk_data c)) l' = r')
        by (rewrite Hp'; now rewrite drop_app_exact by reflexivity).
      assert (Hmo : mo <> Whole) by (intros EW; apply HWh in EW; contradiction).
      specialize (HQ (drop (len (chunk_data c)) l') (pos' + len (chunk_data c))
        (st_rep _ _ _ _ _ _ _ _ _ Hs2') (wf_drop _ _ Hw') Hmo ltac:(intros; contradiction)).
      cbn [cow_list] in HQ. rewrite Ed in *.
      destruct HQ as [HQ1 HQ2]. split.
      + replace (pos' + len l') with (pos' + len (chunk_data c) + len r') by lia.
        eapply step_trans; eassumption.
      + destruct (is_eof fin); [|assumption].
        destruct HQ2 as (y & -> & Hy & Hy2). exists y. split; [reflexivity|]. split; [|assumption].
        rewrite Hy, Hp', app_assoc. reflexivity. }
  assert (Ed : drop (len (chunk_data c)) l = r)
    by (rewrite Hp; now rewrite drop_app_exact by reflexivity).
  rewrite Ed in Hs2.
  assert (Hwr : wf r) by (rewrite <- Ed; now apply wf_drop).
  specialize (G (len r) (chunk_to_cow c) p2).
  specialize (G ltac:(eexists; eexists; split; [apply (st_rep _ _ _ _ _ _ _ _ _ Hs2)|]; auto)).
  specialize (G ltac:(apply Hwr) r (pos + len (chunk_data c)) (st_rep _ _ _ _ _ _ _ _ _ Hs2) Hwr).
  assert (Hb0 : bok mo mem (chunk_to_cow c)).
  { destruct c as [d|x d]; cbn in Hok |- *; tauto. }
  assert (HW0 : mo = Whole -> r = []).
  { intros EW. destruct c as [d|x d]; cbn [chunk_ok chunk_data] in *; [congruence|].
    rewrite EW in Hok. destruct Hok as [_ [_ ->]]. apply len_0; lia. }
  specialize (G Hb0 HW0).
  revert G; destruct (loop body (chunk_to_cow c) p2) as [res p3]; intros G. destruct G as [G1 G2].
  replace (pos + len (chunk_data c) + len r) with (pos + len l) in G1 by lia.
  pose proof (step_trans _ _ _ _ _ _ _ _ _ _ _ _ Hs2 G1) as Hs3.
  destruct (is_eof fin); intros _.
  - destruct G2 as (y & -> & Hy & Hy2). exists y, p3. split; [reflexivity|].
    split; [|assumption]. split; [|assumption]. now rewrite Hy, Ecow, <- Hp.
  - subst res. exists p3; auto.
Qed.

Lemma truncate_prefix : forall c n, n <= len (cow_list c) ->
  exists c', cow_truncate c n = Ok c' /\ cow_list c' = take n (cow_list c) /\
             (bok mo mem c -> bok mo mem c').
Proof.
  intros [x l|l] n Hn; cbn [cow_truncate cow_list] in *.
  - replace (len l <? n) with false by (symmetry; apply N.ltb_ge; lia).
    eexists; split; [reflexivity|]. split; [reflexivity|]. cbn. apply mem_at_take.
  - eexists; split; [reflexivity|]. split; [reflexivity|]. cbn. auto.
Qed.

Lemma Ref_lift_ok : forall A B (R : A -> B -> Prop) o b,
  (exists a, o = Ok a /\ R a b) -> Ref R (lift o) (fret b).
Proof. intros A B R o b (a & -> & H). now apply (Ref_ret mo fin cap rep a0 A B R a b). Qed.

Lemma Ref_string : Ref (brel mo mem) (parse_rest_trim_nul PB) f_string.
Proof.
  unfold parse_rest_trim_nul, f_string. eapply Ref_bind; [apply Ref_rest|].
  intros c l [<- Hok]. cbv zeta. apply Ref_lift_ok. rewrite trim_strip.
  destruct (truncate_prefix c (len (strip (cow_list c)))) as (c' & E & E2 & H2).
  { rewrite strip_prefix, len_take; lia. }
  exists c'; split; [assumption|]. split; [|auto].
  rewrite E2. symmetry; apply strip_prefix.
Qed.

(** [split_at]: the new parser stands for the split-off bytes. *)
Definition sub_rel (cfg : config) (n : N) (q : parser cursor) (st : list N * N) : Prop :=
  p_cfg q = cfg /\ p_off q = 0 /\ p_log q = [] /\ cu_offset (p_buf q) = 0 /\
  cu_len (p_buf q) = n /\ wf (fst st) /\
  cursor_rep mo n mem (p_buf q) (fst st) (a0 + snd st).

Lemma split_spec : forall n p l pos, rep (p_buf p) l (a0 + pos) -> wf l ->
  match f_split n (mkEnv (p_cfg p) fin) l pos with
  | FOk st l' pos' ev =>
      exists q p', split_at PB n p = (Ok q, p') /\ sub_rel (p_cfg p) n q st /\
        step p l pos p' l' pos' /\ len (fst st) = n /\ ev = [] /\ n <= len l /\
        st = (take n l, pos) /\ l' = drop n l /\ pos' = pos + n
  | FErr e l' pos' ev =>
      exists p', split_at PB n p = (Err e, p') /\ step p l pos p' l' pos' /\ e = fin /\ ev = []
  end.
Proof.
  intros n p l pos Hr Hw. unfold split_at.
  pose proof (cursor_new_spec n p l pos Hr Hw) as H.
  unfold bind. run H r p'.
  assert (G : len l < n -> f_split n (mkEnv (p_cfg p) fin) l pos = FErr fin [] (pos + len l) []).
  { intros Hn. unfold f_split. destruct (N.eqb_spec n 0) as [?|?]; [lia|].
    unfold f_take; cbn [fe_fin]. destruct l as [|b l].
    - rewrite len_nil, N.add_0_r; reflexivity.
    - replace (len (b :: l) <? n) with true by (symmetry; apply N.ltb_lt; assumption). reflexivity. }
  assert (G2 : n <= len l -> f_split n (mkEnv (p_cfg p) fin) l pos
               = FOk (take n l, pos) (drop n l) (pos + n) []).
  { intros Hn. unfold f_split. destruct (N.eqb_spec n 0) as [->|?].
    - now rewrite take_0, drop_0, N.add_0_r.
    - unfold f_take. destruct l as [|b l]; [rewrite len_nil in Hn; lia|].
      replace (len (b :: l) <? n) with false by (symmetry; apply N.ltb_ge; assumption). reflexivity. }
  revert H; destruct (N.ltb_spec (len l) n) as [Hlt|Hge]; intros H.
  - rewrite G by assumption. destruct H as [-> Hs]. exists p'; split; [reflexivity|auto].
  - rewrite G2 by assumption. destruct H as (c & -> & Hcr & Hco & Hcl & Hs).
    cbn [bind get_cfg ret]. eexists; exists p'; split; [reflexivity|].
    split.
    { repeat split; cbn; try assumption; try (now apply wf_take).
      exact (st_cfg _ _ _ _ _ _ _ _ _ Hs). }
    split; [assumption|]. cbn [fst]. split; [rewrite len_take; lia|]. auto.
Qed.

(** The methods that reserve memory. *)
Context (Hcap : cap <= isize_max pl).

Lemma alloc_ok : forall n p l pos, rep (p_buf p) l (a0 + pos) -> n <= cap ->
  exists p', m_alloc pl n p = (Ok tt, p') /\ step p l pos p' l pos.
Proof.
  intros n p l pos Hr Hn. unfold m_alloc.
  replace (isize_max pl <? n) with false by (symmetry; apply N.ltb_ge; lia).
  eexists; split; [reflexivity|]. constructor; cbn; [assumption|reflexivity| |].
  - exists 0; rewrite drop_0; repeat split; lia.
  - exists [n]; split; [reflexivity|]. constructor; [assumption|constructor].
Qed.

Lemma bytes_slow_spec : forall n p l pos, rep (p_buf p) l (a0 + pos) -> wf l ->
  let '(r, p') := parse_bytes_slow pl PB n p in
  if len l <? n
  then r = Err fin /\ step p l pos p' [] (pos + len l)
  else r = Ok (take n l) /\ step p l pos p' (drop n l) (pos + n).
Proof.
  intros n p l pos Hr Hw. unfold parse_bytes_slow.
  assert (E : safe_capacity_bound pl PB 1 p
              = (Ok (unwrap_or (pb_hint PB (p_buf p)) 16384), p)).
  { unfold safe_capacity_bound, bind, m_hint; cbn. now rewrite N.div_1_r. }
  rewrite (bind_eq _ _ _ _ _ _ _ E).
  assert (Hh : unwrap_or (pb_hint PB (p_buf p)) 16384 <= cap).
  { destruct (pb_hint PB (p_buf p)) as [h|] eqn:Eh; cbn.
    - exact (ct_hint HC _ _ _ _ Hr Eh).
    - exact (ct_nohint HC _ _ _ Hr Eh). }
  destruct (alloc_ok (N.min (unwrap_or (pb_hint PB (p_buf p)) 16384) n) p l pos Hr ltac:(lia))
    as (p1 & E1 & Hs1).
  rewrite (bind_eq _ _ _ _ _ _ _ E1).
  pose proof (slow_loop_spec n p1 l pos (st_rep _ _ _ _ _ _ _ _ _ Hs1) Hw) as H.
  run H r p2.
  revert H; destruct (len l <? n); intros [-> H]; (split; [reflexivity|]); eapply step_trans; eassumption.
Qed.

Lemma Ref_bytes : forall n, Ref (brel mo mem) (parse_bytes pl PB n) (f_take n).
Proof.
  intros n p l pos Hr Hw. unfold parse_bytes.
  pose proof (bytes_direct_spec n p l pos Hr Hw) as H. unfold f_take.
  destruct l as [|b l].
  { destruct H as (p1 & E & Hs). intros _. unfold bind; rewrite E. exists p1; auto. }
  destruct H as (r & p1 & E & H). rewrite (bind_eq _ _ _ _ _ _ _ E).
  remember (b :: l) as l1 eqn:El.
  destruct r as [[x d]|].
  - destruct H as (Hn & Hd & Hm & _ & Hs).
    replace (len l1 <? n) with false by (symmetry; apply N.ltb_ge; lia). intros _.
    exists (Borrowed x d), p1; split; [reflexivity|]. split; [|assumption].
    split; [exact Hd|exact Hm].
  - destruct H as [HW Hs]. cbv beta iota.
    assert (Eh : m_hint PB p1 = (Ok (pb_hint PB (p_buf p1)), p1)) by reflexivity.
    rewrite (bind_eq _ _ _ _ _ _ _ Eh). cbv zeta.
    pose proof (st_rep _ _ _ _ _ _ _ _ _ Hs) as Hr1.
    destruct (match pb_hint PB (p_buf p1) with Some hint => n <=? hint | None => false end) eqn:Ef.
    + destruct (pb_hint PB (p_buf p1)) as [h|] eqn:Eh'; [|discriminate].
      apply N.leb_le in Ef. pose proof (ct_hint HC _ _ _ _ Hr1 Eh') as Hh.
      destruct (alloc_ok n p1 l1 pos Hr1 ltac:(lia)) as (p2 & E2 & Hs2).
      rewrite (bind_eq _ _ _ _ _ _ _ E2).
      pose proof (to_slice_spec n p2 l1 pos (st_rep _ _ _ _ _ _ _ _ _ Hs2) Hw) as H.
      pose proof (step_trans _ _ _ _ _ _ _ _ _ _ _ _ Hs Hs2) as Hs3.
      unfold bind. run H res p3.
      revert H; destruct (N.ltb_spec (len l1) n) as [Hlt|Hge]; intros [-> H] _.
      * exists p3; split; [reflexivity|]. eapply step_trans; eassumption.
      * exists (Owned (take n l1)), p3; split; [reflexivity|].
        split; [split; [reflexivity|]|eapply step_trans; eassumption].
        cbn. intros E'; specialize (HW E'); lia.
    + pose proof (bytes_slow_spec n p1 l1 pos Hr1 Hw) as H.
      unfold bind. run H res p3.
      revert H; destruct (N.ltb_spec (len l1) n) as [Hlt|Hge]; intros [-> H] _.
      * exists p3; split; [reflexivity|]. eapply step_trans; eassumption.
      * exists (Owned (take n l1)), p3; split; [reflexivity|].
        split; [split; [reflexivity|]|eapply step_trans; eassumption].
        cbn. intros E'; specialize (HW E'); lia.
Qed.

End Prims.
