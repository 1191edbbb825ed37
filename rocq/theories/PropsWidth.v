(** Theorems: 64-bit counts and the width of [usize] (C47). *)
From Coq Require Import NArith List Bool Lia.
From Verif Require Import Base BaseFacts Types Platform Config Buf Parser Contract Flat Refine.
From Verif Require Import Instances Records Sample Read Record RefTop Safe Wire Codec Spec FrameFacts ReadFacts ExData PropsPrim.
From Verif Require PropsParts.
Import ListNotations.
Open Scope N_scope.

(** A count and then something whose size is the count. *)
Lemma counted : forall pl S (PB : parsebuf S) mo fin cap mem p nr rest a A (k : N -> M S A) (Q : A -> Prop) v p',
  let o := order_of pl (c_endian (p_cfg p)) in
  nr < 2 ^ 64 -> source PB mo fin cap mem p (w64 o nr ++ rest) a ->
  (forall rep a0, contract PB mo fin cap mem rep -> Safe.Safe fin cap rep a0 Q (k nr)) ->
  bind (parse_u64 pl PB) k p = (Ok v, p') -> Q v.
Proof.
  intros pl S PB mo fin cap mem p nr rest a A k Q v p' o Hn Hs Hk E.
  destruct (C05_u64 pl S PB mo fin cap mem p nr rest a Hn Hs) as (p1 & E1 & (rep & HC & Hr & Hw) & _).
  unfold bind in E. rewrite E1 in E.
  rewrite <- (N.add_0_r (a + 8)) in Hr.
  destruct (Hk rep (a + 8) HC p1 rest 0 Hr Hw) as (r & p2 & l' & pos' & E2 & Hg & _).
  rewrite E2 in E. injection E as -> _. exact Hg.
Qed.

Lemma as_usize_fits : forall pl n, n < 2 ^ pl_bits pl -> as_usize pl n = n.
Proof. intros pl n H. unfold as_usize. now apply N.mod_small. Qed.

(** Full statement: without [nr < 2 ^ pl_bits pl], which is every count where
    pointers have 64 bits.  Where they have 32 it is false, see [C47_refuted]. *)
Theorem C47_callchain_partial :
  forall pl S (PB : parsebuf S) mo fin cap mem p nr rest a v p',
  let o := order_of pl (c_endian (p_cfg p)) in
  cap <= isize_max pl -> nr < 2 ^ 64 -> nr < 2 ^ pl_bits pl ->
  source PB mo fin cap mem p (w64 o nr ++ rest) a ->
  parse_callchain pl PB p = (Ok v, p') -> len (cow_list v) = nr.
Proof.
  intros pl S PB mo fin cap mem p nr rest a v p' o Hcap Hn Hb Hs E.
  apply (counted pl S PB mo fin cap mem p nr rest a _ _ (fun c => len (cow_list c) = nr) v p' Hn Hs) in E;
    [exact E|].
  intros rep a0 HC. rewrite as_usize_fits by exact Hb. eapply s_slice_u64; eassumption.
Qed.

Theorem C47_branch_stack_partial :
  forall pl S (PB : parsebuf S) mo fin cap mem p hw nr rest a v p',
  let o := order_of pl (c_endian (p_cfg p)) in
  cap <= isize_max pl -> nr < 2 ^ 64 -> nr < 2 ^ pl_bits pl ->
  source PB mo fin cap mem p (w64 o nr ++ rest) a ->
  parse_lbr pl PB hw p = (Ok v, p') -> len (cow_list (fst v)) = nr.
Proof.
  intros pl S PB mo fin cap mem p hw nr rest a v p' o Hcap Hn Hb Hs E.
  apply (counted pl S PB mo fin cap mem p nr rest a _ _ (fun c => len (cow_list (fst c)) = nr) v p' Hn Hs) in E;
    [exact E|].
  intros rep a0 HC. rewrite as_usize_fits by exact Hb.
  eapply Safe_bind with (Q := any).
  - unfold parse_if. destruct hw; [|now apply Safe_ret].
    eapply Safe_bind; [eapply s_u64; eassumption|]. intros. now apply Safe_ret.
  - intros h _. eapply Safe_bind; [eapply s_slice_branch; eassumption|].
    intros l Hl. now apply Safe_ret.
Qed.

Theorem C47_aux_partial :
  forall pl S (PB : parsebuf S) mo fin cap mem p n rest a v p',
  let o := order_of pl (c_endian (p_cfg p)) in
  cap <= isize_max pl -> n < 2 ^ 64 -> n < 2 ^ pl_bits pl ->
  source PB mo fin cap mem p (w64 o n ++ rest) a ->
  parse_sample_aux pl PB p = (Ok v, p') -> len (cow_list v) = n.
Proof.
  intros pl S PB mo fin cap mem p n rest a v p' o Hcap Hn Hb Hs E.
  apply (counted pl S PB mo fin cap mem p n rest a _ _ (fun c => len (cow_list c) = n) v p' Hn Hs) in E;
    [exact E|].
  intros rep a0 HC. rewrite as_usize_fits by exact Hb. eapply s_bytes; eassumption.
Qed.

Theorem C47_namespaces_partial :
  forall pl S (PB : parsebuf S) mo fin cap mem p pid tid n rest a v p',
  let o := order_of pl (c_endian (p_cfg p)) in
  cap <= isize_max pl -> pid < 2 ^ 32 -> tid < 2 ^ 32 -> n < 2 ^ 64 -> n < 2 ^ pl_bits pl ->
  source PB mo fin cap mem p (w32 o pid ++ w32 o tid ++ w64 o n ++ rest) a ->
  parse_namespaces pl PB p = (Ok v, p') -> len (cow_list (nss_entries v)) = n.
Proof.
  intros pl S PB mo fin cap mem p pid tid n rest a v p' o Hcap Hp Ht Hn Hb Hs E.
  destruct (C05_u32 pl S PB mo fin cap mem p pid _ a Hp Hs) as (p1 & E1 & Hs1 & Hc1 & _).
  unfold parse_namespaces in E. unfold bind at 1 in E. rewrite E1 in E.
  assert (Eo : o = order_of pl (c_endian (p_cfg p1))) by (now rewrite Hc1).
  rewrite Eo in Hs1.
  destruct (C05_u32 pl S PB mo fin cap mem p1 tid _ _ Ht Hs1) as (p2 & E2 & Hs2 & Hc2 & _).
  unfold bind at 1 in E. rewrite E2 in E. rewrite <- Hc2 in Hs2.
  apply (counted pl S PB mo fin cap mem p2 n rest _ _ _ (fun c => len (cow_list (nss_entries c)) = n) v p' Hn Hs2) in E;
    [exact E|].
  intros rep a0 HC. rewrite as_usize_fits by exact Hb.
  eapply Safe_bind; [eapply s_slice_ns; eassumption|]. intros l Hl. now apply Safe_ret.
Qed.

Theorem C47_group_partial :
  forall pl S (PB : parsebuf S) mo fin cap mem p nr rest a v p',
  let o := order_of pl (c_endian (p_cfg p)) in
  cap <= isize_max pl -> nr < 2 ^ 64 -> nr < 2 ^ pl_bits pl ->
  source PB mo fin cap mem p (w64 o nr ++ rest) a ->
  parse_read_group pl PB p = (Ok v, p') -> group_len v = Ok nr.
Proof.
  intros pl S PB mo fin cap mem p nr rest a v p' o Hcap Hn Hb Hs E.
  unfold parse_read_group in E. unfold bind at 1, get_cfg in E.
  set (rf := read_format (p_cfg p)) in *.
  destruct (negb (contains rf RF_GROUP)); [discriminate|].
  destruct (negb (difference rf RF_ALL =? 0)); [discriminate|].
  apply (counted pl S PB mo fin cap mem p nr rest a _ _ (fun c => group_len c = Ok nr) v p' Hn Hs) in E;
    [exact E|].
  intros rep a0 HC. rewrite as_usize_fits by exact Hb.
  assert (I : forall b, Safe.Safe fin cap rep a0 any (parse_if b (parse_u64 pl PB))).
  { intros b. unfold parse_if. destruct b; [|now apply Safe_ret].
    eapply Safe_bind; [eapply s_u64; eassumption|]. intros. now apply Safe_ret. }
  eapply Safe_bind; [apply I|]. intros te _. eapply Safe_bind; [apply I|]. intros tr _.
  unfold checked_mul. destruct (nr * element_len rf <=? usize_max pl).
  - eapply Safe_bind; [eapply s_slice_u64; eassumption|]. intros l Hl. apply Safe_ret.
    assert (He : element_len rf <> 0) by (unfold element_len; lia).
    unfold group_len, iter_new. cbn [rg_data rg_format].
    replace (element_len rf =? 0) with false by (symmetry; now apply N.eqb_neq).
    cbn [obind]. unfold it_len, ch_len. cbn [gi_v gi_size].
    rewrite Hl, N.mod_mul by exact He. rewrite N.sub_0_r, take_all by (rewrite Hl; apply N.le_refl).
    now rewrite Hl, N.div_mul by exact He.
  - apply Safe_fail, err_custom; reflexivity.
Qed.

Theorem C47_stack_partial :
  forall pl S (PB : parsebuf S) mo fin cap mem p data dyn rest a v p',
  let o := order_of pl (c_endian (p_cfg p)) in
  pl_ok pl -> cap <= isize_max pl ->
  data <> [] -> dyn < 2 ^ pl_bits pl -> len data + 16 < 2 ^ pl_bits pl ->
  source PB mo fin cap mem p (w64 o (len data) ++ data ++ w64 o dyn ++ rest) a ->
  parse_stack_user pl PB p = (Ok v, p') -> dyn <= len data /\ cow_list v = take dyn data.
Proof.
  intros pl S PB mo fin cap mem p data dyn rest a v p' o Hpl Hcap Hne Hd Hb Hs E.
  unfold w64 in Hs.
  destruct (N.leb_spec dyn (len data)) as [Hle|Hgt].
  - split; [exact Hle|].
    destruct (PropsParts.C23_stack_partial pl S PB mo fin cap mem p data dyn rest a) as (c & p1 & E1 & Hc & _);
      try assumption.
    + replace (len data =? 0) with false by (symmetry; apply N.eqb_neq; apply len_pos in Hne; lia).
      rewrite !len_app, !enc_len. unfold usize_max. lia.
    + congruence.
    + replace (len data =? 0) with false by (symmetry; apply N.eqb_neq; apply len_pos in Hne; lia).
      rewrite <- !app_assoc. exact Hs.
    + rewrite E1 in E. injection E as <- _. exact Hc.
  - exfalso. pose proof (PropsParts.C23_too_long pl S PB mo fin cap mem p data dyn rest a Hpl Hcap Hne Hgt
      ltac:(unfold usize_max; lia) Hs) as H.
    rewrite E in H. discriminate.
Qed.

(** With 32-bit pointers the upper half of a count is dropped: 2^32 + 1 entries
    are announced, one is delivered. *)
Definition count33 : N := 2 ^ 32 + 1.

Theorem C47_refuted :
  pl_bits pl32 = 32 /\
  fst (parse_callchain pl32 slice_buf (on_slice 4096 (w64 LE count33 ++ w64 LE 7) ex_cfg)) =
    Ok (Borrowed 4104 [7]) /\
  fst (parse_lbr pl32 slice_buf false (on_slice 4096 (w64 LE count33 ++ w64 LE 7 ++ w64 LE 8 ++ w64 LE 9) ex_cfg)) =
    Ok (Borrowed 4104 [mkBranch 7 8 9], None) /\
  fst (parse_sample_aux pl32 slice_buf (on_slice 4096 (w64 LE count33 ++ [7]) ex_cfg)) =
    Ok (Borrowed 4104 [7]) /\
  fst (parse_namespaces pl32 slice_buf (on_slice 4096 (w32 LE 1 ++ w32 LE 2 ++ w64 LE count33 ++ w64 LE 7 ++ w64 LE 8) ex_cfg)) =
    Ok (mkNamespaces 1 2 (Borrowed 4112 [mkNs 7 8])) /\
  fst (parse_read_group pl32 slice_buf (on_slice 4096 (w64 LE count33 ++ w64 LE 7)
        (mkConfig (cf_new 8 6 true false 0) 0 0 Little))) =
    Ok (mkReadGroup 8 0 0 (Borrowed 4104 [7])) /\
  fst (parse_stack_user pl32 slice_buf (on_slice 4096 (w64 LE count33 ++ [7] ++ w64 LE count33) ex_cfg)) =
    Ok (Borrowed 4104 [7]).
Proof. repeat split; vm_compute; reflexivity. Qed.

(** The same on 64 bits is refused. *)
Example C47_example :
  fst (parse_callchain pl64 slice_buf (on_slice 4096 (w64 LE count33 ++ w64 LE 7) ex_cfg)) = Err eof_error /\
  fst (parse_callchain pl64 slice_buf (on_slice 4096 (w64 LE 1 ++ w64 LE 7) ex_cfg)) = Ok (Borrowed 4104 [7]).
Proof. split; vm_compute; reflexivity. Qed.

Print Assumptions C47_callchain_partial.
Print Assumptions C47_branch_stack_partial.
Print Assumptions C47_aux_partial.
Print Assumptions C47_namespaces_partial.
Print Assumptions C47_group_partial.
Print Assumptions C47_stack_partial.
Print Assumptions C47_refuted.
