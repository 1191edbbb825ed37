(** What is reserved for a record, whatever comes of it. *)
From Coq Require Import NArith List Bool Lia.
From Verif Require Import Base BaseFacts Types Platform Config Buf Parser Contract Flat Refine.
From Verif Require Import Instances Prims Records Sample Record RefFrame Work WorkTop Size SizeFacts SizeTop SpendFacts.
Import ListNotations.
Open Scope N_scope.

Definition any_state {S : Type} (p : parser S) : Prop := True.

Lemma header_quiet : forall pl S (PB : parsebuf S), Quiet any_state (parse_header pl PB).
Proof. intros pl S PB. apply quiet_header; intros; exact Logic.I. Qed.
Lemma id_quiet : forall pl S (PB : parsebuf S), Quiet any_state (parse_sample_id pl PB).
Proof. intros pl S PB. apply quiet_sample_id; intros; exact Logic.I. Qed.
Lemma split_quiet : forall S (PB : parsebuf S) n, Quiet any_state (split_at PB n).
Proof.
  intros S PB n. unfold split_at. apply Quiet_bind.
  - apply Quiet_bind; [|intros; apply Quiet_ret]. apply Quiet_loop. intros [k x].
    destruct (k =? 0); [apply Quiet_ret|]. apply Quiet_chunk; [intros; exact Logic.I|]. intros c.
    cbv zeta. apply After_advance; [intros; exact Logic.I|apply trunc_le|]. intros; apply Quiet_ret.
  - intros c. apply Quiet_bind; [|intros; apply Quiet_ret].
    intros p Hp. cbn. split; [exact Hp|]. split; [lia|reflexivity].
Qed.

Lemma sub_any : forall S S2 A (m : M S2 A) (q : parser S2) (p : parser S),
  p_off (snd (sub m q p)) = p_off p /\ p_log (snd (sub m q p)) = p_log (snd (m q)) ++ p_log p /\
  fst (sub m q p) = fst (m q).
Proof. intros S S2 A m q p. unfold sub. destruct (m q) as [r q']. cbn. auto. Qed.

(** What holds of everything a parser gives. *)
Definition Post {S A : Type} (P : A -> Prop) (m : M S A) : Prop := forall p a p', m p = (Ok a, p') -> P a.

Lemma Post_bind : forall S A B (P : B -> Prop) (m : M S A) (k : A -> M S B), (forall x, Post P (k x)) -> Post P (bind m k).
Proof. intros S A B P m k H p b p' E. apply bind_ok in E. destruct E as (x & p1 & _ & E). exact (H x _ _ _ E). Qed.

Lemma Post_ret : forall S A (P : A -> Prop) (x : A), P x -> Post P (@ret S A x).
Proof. intros S A P x H p b p' E. apply ret_ok in E. destruct E as [-> _]. exact H. Qed.

Lemma split_new : forall S (PB : parsebuf S) n, Post (fun q => p_log q = []) (split_at PB n).
Proof. intros S PB n. unfold split_at. apply Post_bind. intros c. apply Post_bind. intros g. apply Post_ret. reflexivity. Qed.

Lemma Quiet_post : forall S A B (P : A -> Prop) (m : M S A) (k : A -> M S B),
  Quiet any_state m -> Post P m -> (forall x, P x -> Quiet any_state (k x)) -> Quiet any_state (bind m k).
Proof.
  intros S A B P m k Hm HP Hk p Hp. destruct (Hm p Hp) as (H1 & H2 & H3). specialize (HP p). unfold bind.
  destruct (m p) as [[x|e| |] p1]; cbn [fst snd] in *; auto.
  destruct (Hk x (HP _ _ eq_refl) p1 H1) as (H4 & H5 & H6). split; [exact H4|]. split; [lia|congruence].
Qed.

Lemma Quiet_sub : forall S S2 A (m : M S2 A) (q : parser S2), Quiet any_state m -> p_log q = [] ->
  Quiet any_state (@sub S S2 A m q).
Proof.
  intros S S2 A m q H Hq p Hp. destruct (sub_any S S2 A m q p) as (O & L & _). destruct (H q Logic.I) as (_ & _ & H3).
  rewrite L, H3, Hq. split; [exact Logic.I|]. split; [lia|reflexivity].
Qed.

Lemma metadata_quiet : forall pl S (PB : parsebuf S) h, Quiet any_state (parse_metadata_with_header pl PB h).
Proof.
  intros pl S PB h. unfold parse_metadata_with_header. destruct (checked_sub (h_size h) 8) as [n|]; [|apply Quiet_fail].
  apply (Quiet_post _ _ _ _ _ _ (split_quiet _ PB n) (split_new _ PB n)). intros q Hq.
  destruct (_ || _); [apply Quiet_ret|]. destruct (checked_sub n _) as [k|]; [|apply Quiet_fail].
  apply Quiet_bind; [|intros; apply Quiet_ret]. apply Quiet_sub; [|exact Hq].
  apply Quiet_bind; [apply split_quiet|]. intros p. apply Quiet_bind; [apply id_quiet|]. intros; apply Quiet_ret.
Qed.

(** The memory a cursor stands for. *)
Lemma cursor_whole : forall n mem c d b, cursor_rep Whole n mem c d b -> d = [] \/ exists s, cursor_as_slice c = Some s.
Proof.
  intros n mem c d b (start & cs & H1 & H2 & H3 & H4 & H5 & H6 & H7). unfold cursor_as_slice. rewrite H1.
  destruct cs as [|[x y|y] t]; cbn [chunks_ok] in H3.
  - left. rewrite H4 in H5. exact H5.
  - right. destruct H3 as (_ & (_ & _ & ->) & _). cbn. eauto.
  - destruct H3 as (_ & H & _). congruence.
Qed.

Lemma cursor_slice : forall mo n mem c d b s, cursor_rep mo n mem c d b -> cu_offset c = 0 -> cursor_as_slice c = Some s ->
  sl_data s = d.
Proof.
  intros mo n mem c d b s (start & cs & H1 & H2 & H3 & H4 & H5 & H6 & H7) Ho E. unfold cursor_as_slice in E.
  assert (Ecs : cs = [Borrowed (sl_addr s) (sl_data s)]).
  { rewrite <- (rev_involutive cs), <- H1. destruct (cu_chunks c) as [|[a' d'|] [|]]; try discriminate.
    injection E as <-. reflexivity. }
  subst cs. rewrite Ho, drop_0 in H5. cbn [map concat cow_list] in H5. rewrite app_nil_r in H5. congruence.
Qed.

Lemma metadata_room : forall pl S (PB : parsebuf S) mo fin cap mem rep h p l a q md p',
  contract PB mo fin cap mem rep -> rep (p_buf p) l a -> wf l ->
  parse_metadata_with_header pl PB h p = (Ok (q, md), p') ->
  exists d b, cursor_rep mo (len d) mem (p_buf q) d b /\ cu_offset (p_buf q) = 0 /\ p_off p + len d <= p_off p'.
Proof.
  intros pl S PB mo fin cap mem rep h p l a q md p' HC Hr Hw E. unfold parse_metadata_with_header in E.
  destruct (checked_sub (h_size h) 8) as [n|]; [|discriminate].
  apply bind_ok in E. destruct E as (r & p1 & E1 & E).
  destruct (split_ok _ _ _ _ _ _ _ _ _ _ _ _ _ HC Hr Hw E1) as (Hn & O1 & _ & _ & _ & Cq & _ & Hwd & Hrep).
  assert (Hd : len (take n l) = n) by (rewrite len_take; lia).
  destruct (_ || _).
  - apply ret_ok in E. destruct E as [E ->]. injection E as -> ->.
    exists (take n l), a. rewrite Hd. split; [exact Hrep|]. split; [exact Cq|]. lia.
  - destruct (checked_sub n (estimate_len (p_cfg r))) as [k|]; [|discriminate].
    apply bind_ok in E. destruct E as ([q1 si] & p2 & E2 & E). apply ret_ok in E. destruct E as [E ->].
    cbn [fst snd] in E. injection E as -> ->.
    apply sub_ok in E2. destruct E2 as (r' & E2 & O2 & _).
    apply bind_ok in E2. destruct E2 as (q2 & r1 & E3 & E2). apply bind_ok in E2. destruct E2 as (si' & r2 & E4 & E2).
    apply ret_ok in E2. destruct E2 as [E2 _]. injection E2 as -> _.
    destruct (split_ok _ _ _ _ _ _ _ _ _ _ _ _ _ (cursor_contract mo n mem) Hrep Hwd E3)
      as (Hk & _ & _ & _ & _ & C2 & _ & _ & Hrep2).
    assert (Hd2 : len (take k (take n l)) = k) by (rewrite len_take; lia).
    exists (take k (take n l)), a. rewrite Hd2. split; [exact Hrep2|]. split; [exact C2|]. lia.
Qed.

(** [n] bytes reserved for a record of which [k] bytes were taken; [two] is 1 or 2. *)
Definition spent (two k n : N) : Prop := n = 0 \/ 8 * two + n <= two * k.
Definition factor (mo : mode) : N := match mo with Whole => 1 | _ => 2 end.

Lemma with_header_spends : forall pl S (PB : parsebuf S) mo fin cap mem rep h p l a,
  contract PB mo fin cap mem rep -> rep (p_buf p) l a -> wf l ->
  exists k n, p_off (snd (collect_with_header pl PB h p)) = p_off p + k /\
    total (p_log (snd (collect_with_header pl PB h p))) = total (p_log p) + n /\ n <= factor mo * k.
Proof.
  intros pl S PB mo fin cap mem rep h p l a HC Hr Hw. unfold collect_with_header.
  destruct (metadata_quiet pl _ PB h p Logic.I) as (_ & O1 & L1).
  unfold bind at 1 4. pose proof (metadata_room pl S PB mo fin cap mem rep h p l a) as HM.
  destruct (parse_metadata_with_header pl PB h p) as [[[q md]|e| |] p1]; cbn [fst snd] in *;
    try (exists (p_off p1 - p_off p), 0; rewrite L1; split; [lia|]; split; [lia|apply N.le_0_l]).
  destruct (HM _ _ _ HC Hr Hw eq_refl) as (d & b & Hrep & Hcu & Hoff). clear HM.
  assert (Hf : forall T2 (m : M T2 (body cow)) q0, p_log q0 = [] -> total (p_log (snd (m q0))) <= factor mo * len d ->
    exists k n, p_off (snd (bind (sub m q0) (fun b => ret (b, md)) p1)) = p_off p + k /\
      total (p_log (snd (bind (sub m q0) (fun b => ret (b, md)) p1))) = total (p_log p) + n /\ n <= factor mo * k).
  { intros T2 m q0 Hq Ht. destruct (sub_any S T2 _ m q0 p1) as (O2 & L2 & _).
    exists (p_off p1 - p_off p), (total (p_log (snd (m q0)))).
    assert (factor mo * len d <= factor mo * (p_off p1 - p_off p)) by (apply N.mul_le_mono_l; lia).
    unfold bind. destruct (sub m q0 p1) as [[x|e| |] p2]; cbn [fst snd ret lift] in *;
      rewrite O2, L2, total_app, L1; (split; [lia|]); (split; [lia|]); lia. }
  destruct (cursor_as_slice (p_buf q)) as [s|] eqn:Es.
  - apply Hf; [reflexivity|]. pose proof (cursor_slice _ _ _ _ _ _ _ Hrep Hcu Es) as Hs.
    match goal with |- context [parse_body pl slice_buf ?t ?p] => pose proof (slice_body_spends pl t p) as H;
      destruct (parse_body pl slice_buf t p) as [o p2] end.
    cbn [new_parser p_log p_buf snd total] in *. rewrite Hs in H. destruct mo; cbn [factor]; lia.
  - apply Hf; [reflexivity|].
    match goal with |- context [parse_body pl cursor_buf ?t ?p] =>
      pose proof (body_spends pl _ cursor_buf mo eof_error (len d) mem _ t p d b (cursor_contract mo (len d) mem) Hrep) as H;
      destruct (parse_body pl cursor_buf t p) as [o p2] end.
    cbn [new_parser p_log snd total] in *.
    destruct mo; cbn [factor]; try lia.
    destruct (cursor_whole _ _ _ _ _ Hrep) as [->|[s Hs]]; [cbn in *; lia|congruence].
Qed.

Lemma collect_spends : forall pl S (PB : parsebuf S) mo fin cap mem rep p l a,
  contract PB mo fin cap mem rep -> rep (p_buf p) l a -> wf l ->
  exists k n, p_off (snd (collect pl PB p)) = p_off p + k /\
    total (p_log (snd (collect pl PB p))) = total (p_log p) + n /\ spent (factor mo) k n.
Proof.
  intros pl S PB mo fin cap mem rep p l a HC Hr Hw. unfold collect.
  destruct (header_quiet pl _ PB p Logic.I) as (_ & O1 & L1).
  pose proof (header_fed pl PB p) as HF.
  destruct (W_header pl PB mo fin cap mem rep _ HC (zero_counts _ PB) p l a Hr Hw)
    as (r & q & n & c & E2 & Hn & O2 & _ & L2 & Hq).
  unfold bind. rewrite E2 in *. destruct r as [h|e| |]; cbn [fst snd] in *;
    try (exists n, 0; rewrite L1; split; [exact O2|]; split; [lia|]; now left).
  destruct Hq as [Hr1 _]. destruct (HF _ _ eq_refl) as [HF1 _].
  destruct (with_header_spends pl S PB mo fin cap mem rep h q _ _ HC Hr1 (wf_drop _ _ Hw)) as (k & m & O3 & L3 & H).
  exists (n + k), m. rewrite O3, L3, L1. split; [lia|]. split; [reflexivity|]. right. nia.
Qed.
