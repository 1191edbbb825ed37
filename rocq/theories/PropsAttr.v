(** Theorems: decoding and validation of perf_event_attr (C30, C31, C63). *)
From Coq Require Import NArith List Bool Lia.
From Verif Require Import Base BaseFacts Types Platform Config Buf Parser Contract Flat Refine.
From Verif Require Import Instances Attr RefTop Wire Codec WireAttr Spec NoHint FrameFacts AttrFacts ExData.
Import ListNotations.
Open Scope N_scope.

Lemma attr_run : forall pl S (PB : parsebuf S) mo fin cap mem p l a, pl_ok pl ->
  source PB mo fin cap mem p l a ->
  match f_attr pl (mkEnv (p_cfg p) fin) l 0 with
  | FOk x l' n [] => exists p', parse_attr pl PB p = (Ok x, p') /\ after PB mo fin cap mem p n l' a p'
  | FErr e l' n [] => exists p', parse_attr pl PB p = (Err e, p') /\ after PB mo fin cap mem p n l' a p'
  | _ => True
  end.
Proof.
  intros pl S PB mo fin cap mem p l a Hpl (rep & HC & Hr & Hw).
  pose proof (attr_ref pl PB mo fin cap mem rep a HC Hpl) as HR.
  destruct (f_attr pl (mkEnv (p_cfg p) fin) l 0) as [x l' n [|]|e l' n [|]] eqn:E; try exact I.
  - destruct (run_ok mo fin 0 rep _ _ _ _ _ _ _ _ _ _ _ _ HR Hr Hw E ltac:(constructor)) as (v & p' & Ep & <- & Hs).
    exists p'. split; [exact Ep|]. eapply step_after; eassumption.
  - destruct (run_err mo fin 0 rep _ _ _ _ _ _ _ _ _ _ _ _ HR Hr Hw E ltac:(constructor)) as (p' & Ep & Hs).
    exists p'. split; [exact Ep|]. eapply step_after; eassumption.
Qed.

Definition zero_bytes (l : list N) : Prop := Forall (fun b => b = 0) l.

Lemma zero_bytes_forallb : forall l, zero_bytes l -> forallb (fun b => b =? 0) l = true.
Proof.
  intros l H. apply forallb_forall. intros x Hx. apply N.eqb_eq.
  exact (proj1 (Forall_forall _ _) H x Hx).
Qed.

Lemma nonzero_bytes_forallb : forall l, ~ zero_bytes l -> forallb (fun b => b =? 0) l = false.
Proof.
  intros l H. destruct (forallb _ l) eqn:E; [|reflexivity]. exfalso. apply H.
  apply Forall_forall. intros x Hx. apply N.eqb_eq. exact (proj1 (forallb_forall _ _) E x Hx).
Qed.

(** ** C30

    Full statement: for every attr of a valid size whose extension is zero, with
    anything or nothing after it, the result is [Ok (attr_seen a)] and
    [at_size a] bytes are consumed.  What is missing here: four more bytes must
    follow, they are consumed too, and if the size is beyond version 8 they must
    be zero.  The other theorems show that the full statement is false. *)
Theorem C30_decoding_partial :
  forall pl S (PB : parsebuf S) mo fin cap mem p a r2 r3 ext four rest pos,
  let o := order_of pl (c_endian (p_cfg p)) in
  pl_ok pl -> attr_ok a r2 r3 ext -> zero_bytes ext -> len four = 4 ->
  (at_size a <= 136 \/ zero_bytes four) ->
  source PB mo fin cap mem p (w_attr o a r2 r3 ext ++ four ++ rest) pos ->
  exists p', parse_attr pl PB p = (Ok (attr_seen a), p') /\
    after PB mo fin cap mem p (at_size a + 4) rest pos p'.
Proof.
  intros pl S PB mo fin cap mem p a r2 r3 ext four rest pos o Hpl Ha Hz Hf Hor Hs.
  pose proof (attr_run pl S PB mo fin cap mem p _ pos Hpl Hs) as R.
  unfold o in R. rewrite attr_flat in R by assumption.
  replace ((at_size a <=? 136) || forallb (fun b => b =? 0) (ext ++ four)) with true in R; [exact R|].
  symmetry. apply orb_true_iff. destruct Hor as [H|H].
  - left. now apply N.leb_le.
  - right. apply zero_bytes_forallb, Forall_app. now split.
Qed.

(** An attr that is not followed by four bytes cannot be parsed, whatever it is. *)
Theorem C30_alone_refuted :
  forall pl S (PB : parsebuf S) mo fin cap mem p a r2 r3 ext more pos,
  let o := order_of pl (c_endian (p_cfg p)) in
  pl_ok pl -> attr_ok a r2 r3 ext -> len more < 4 ->
  source PB mo fin cap mem p (w_attr o a r2 r3 ext ++ more) pos ->
  fst (parse_attr pl PB p) = Err fin.
Proof.
  intros pl S PB mo fin cap mem p a r2 r3 ext more pos o Hpl Ha Hm Hs.
  pose proof (attr_run pl S PB mo fin cap mem p _ pos Hpl Hs) as R.
  destruct (attr_flat_short pl (p_cfg p) fin a r2 r3 ext more Ha Hm) as (l & n & E).
  unfold o in R. rewrite E in R. destruct R as (p' & -> & _). reflexivity.
Qed.

Definition ex_attr8 : attr := mkAttr 1 136 2 3 4 5 6 7 8 9 10 11 12 13 14 15 16 17 18 19 20.
Definition ex_attr9 : attr := mkAttr 1 144 2 3 4 5 6 7 8 9 10 11 12 13 14 15 16 17 18 19 20.
Definition ex_attr0 : attr := mkAttr 1 64 2 3 4 5 6 7 8 9 10 11 12 13 14 15 16 17 18 19 20.

Lemma ex_attr8_ok : attr_ok ex_attr8 0 0 [].
Proof. unfold attr_ok. repeat split; try reflexivity. left. split; [cbn; tauto|reflexivity]. Qed.
Lemma ex_attr0_ok : attr_ok ex_attr0 0 0 [].
Proof. unfold attr_ok. repeat split; try reflexivity. left. split; [cbn; tauto|reflexivity]. Qed.
Lemma ex_attr9_ok : forall ext, len ext = 8 -> attr_ok ex_attr9 0 0 ext.
Proof. intros ext H. unfold attr_ok. repeat split; try reflexivity. right. split; [reflexivity|exact H]. Qed.

(** A version 8 attr from memory holding nothing else, four bytes too many
    consumed, and an extended attr rejected for what follows it. *)
Theorem C30_refuted :
  (exists a, attr_ok a 0 0 [] /\
     fst (parse_attr pl64 slice_buf (on_slice 4096 (w_attr LE a 0 0 []) ex_cfg0)) = Err eof_error) /\
  (exists a rest, attr_ok a 0 0 [] /\
     fst (parse_attr pl64 slice_buf (on_slice 4096 (w_attr LE a 0 0 [] ++ rest) ex_cfg0)) = Ok a /\
     p_off (snd (parse_attr pl64 slice_buf (on_slice 4096 (w_attr LE a 0 0 [] ++ rest) ex_cfg0))) = at_size a + 4) /\
  (exists a rest, attr_ok a 0 0 (repeat 0 8) /\
     fst (parse_attr pl64 slice_buf (on_slice 4096 (w_attr LE a 0 0 (repeat 0 8) ++ rest) ex_cfg0)) =
     Err (mkError KUnsupportedData (Some (SrcMsg MsgAttrTail)))).
Proof.
  split; [|split].
  - exists ex_attr8. split; [apply ex_attr8_ok|]. vm_compute. reflexivity.
  - exists ex_attr8, [1; 2; 3; 4; 5]. split; [apply ex_attr8_ok|]. split; vm_compute; reflexivity.
  - exists ex_attr9, [1; 2; 3; 4; 5]. split; [now apply ex_attr9_ok|]. vm_compute. reflexivity.
Qed.

(** Fields beyond the size are zero. *)
Example C30_example_old_attr : exists l,
  source slice_buf Whole eof_error 100 (memory_of 4096 l) (on_slice 4096 l ex_cfg0) l 4096 /\
  l = w_attr LE ex_attr0 0 0 [] ++ [9; 9; 9; 9] ++ [1] /\
  fst (parse_attr pl64 slice_buf (on_slice 4096 l ex_cfg0)) =
  Ok (mkAttr 1 64 2 3 4 5 6 7 8 9 0 0 0 0 0 0 0 0 0 0 0).
Proof.
  exists (w_attr LE ex_attr0 0 0 [] ++ [9; 9; 9; 9] ++ [1]). split.
  - apply slice_source; [| | |apply memory_of_at]; try (vm_compute; congruence). repeat constructor.
  - split; [reflexivity|]. vm_compute. reflexivity.
Qed.

Example C30_example_new_attr :
  attr_ok ex_attr9 0 0 (repeat 0 8) /\ zero_bytes (repeat 0 8) /\ zero_bytes (repeat 0 4) /\
  fst (parse_attr pl64 slice_buf (on_slice 4096 (w_attr LE ex_attr9 0 0 (repeat 0 8) ++ repeat 0 4) ex_cfg0)) =
  Ok ex_attr9.
Proof.
  split; [now apply ex_attr9_ok|]. split; [repeat constructor|]. split; [repeat constructor|].
  vm_compute. reflexivity.
Qed.

(** Both outcomes together: the four bytes after the attr are always consumed, and the
    attr is refused exactly when it is longer than version 8 and one of the bytes of its
    extension or of these four is set. *)
Theorem C30_exact :
  forall pl S (PB : parsebuf S) mo fin cap mem p a r2 r3 ext four rest pos,
  let o := order_of pl (c_endian (p_cfg p)) in
  pl_ok pl -> attr_ok a r2 r3 ext -> len four = 4 ->
  source PB mo fin cap mem p (w_attr o a r2 r3 ext ++ four ++ rest) pos ->
  exists r p', parse_attr pl PB p = (r, p') /\
    after PB mo fin cap mem p (at_size a + 4) rest pos p' /\
    (at_size a <= 136 \/ zero_bytes (ext ++ four) -> r = Ok (attr_seen a)) /\
    (136 < at_size a -> ~ zero_bytes (ext ++ four) ->
     r = Err (mkError KUnsupportedData (Some (SrcMsg MsgAttrTail)))).
Proof.
  intros pl S PB mo fin cap mem p a r2 r3 ext four rest pos o Hpl Ha Hf Hs.
  pose proof (attr_run pl S PB mo fin cap mem p _ pos Hpl Hs) as R.
  unfold o in R. rewrite attr_flat in R by assumption.
  destruct (N.leb_spec (at_size a) 136) as [Hv|Hv]; cbn [orb] in R.
  - destruct R as (p' & E & Hp). exists (Ok (attr_seen a)), p'.
    split; [exact E|]. split; [exact Hp|]. split; [reflexivity|]. intros H. lia.
  - destruct (forallb (fun b => b =? 0) (ext ++ four)) eqn:Ez; destruct R as (p' & E & Hp).
    + exists (Ok (attr_seen a)), p'. split; [exact E|]. split; [exact Hp|]. split; [reflexivity|].
      intros _ Hn. now rewrite (nonzero_bytes_forallb _ Hn) in Ez.
    + eexists _, p'. split; [exact E|]. split; [exact Hp|]. split; [|reflexivity].
      intros [H|H]; [lia|]. now rewrite (zero_bytes_forallb _ H) in Ez.
Qed.

(** ** C63: exactly which attrs are read back.  [more] is whatever follows the attr. *)
Theorem C63_attr :
  forall pl S (PB : parsebuf S) mo fin cap mem p a r2 r3 ext more pos,
  let o := order_of pl (c_endian (p_cfg p)) in
  pl_ok pl -> attr_ok a r2 r3 ext ->
  source PB mo fin cap mem p (w_attr o a r2 r3 ext ++ more) pos ->
  (exists p', parse_attr pl PB p = (Ok (attr_seen a), p')) <->
  4 <= len more /\ (at_size a <= 136 \/ zero_bytes (ext ++ take 4 more)).
Proof.
  intros pl S PB mo fin cap mem p a r2 r3 ext more pos o Hpl Ha Hs.
  destruct (N.ltb_spec (len more) 4) as [Hl|Hl].
  - pose proof (C30_alone_refuted pl S PB mo fin cap mem p a r2 r3 ext more pos Hpl Ha Hl Hs) as E.
    split; [intros [p' Ep]; rewrite Ep in E; discriminate E|intros [H _]; lia].
  - rewrite <- (take_drop 4 more) in Hs.
    destruct (C30_exact pl S PB mo fin cap mem p a r2 r3 ext (take 4 more) (drop 4 more) pos Hpl Ha
      ltac:(rewrite len_take; lia) Hs) as (r & p' & E & _ & Hok & Hbad).
    split.
    + intros [q Eq]. split; [exact Hl|].
      destruct (N.leb_spec (at_size a) 136) as [Hv|Hv]; [now left|right].
      destruct (forallb (fun b => b =? 0) (ext ++ take 4 more)) eqn:Ez.
      * apply Forall_forall. intros x Hx. apply N.eqb_eq. exact (proj1 (forallb_forall _ _) Ez x Hx).
      * exfalso. assert (Hn : ~ zero_bytes (ext ++ take 4 more))
          by (intros H; now rewrite (zero_bytes_forallb _ H) in Ez).
        specialize (Hbad Hv Hn). rewrite E in Eq. congruence.
    + intros [_ H]. specialize (Hok H). subst r. now exists p'.
Qed.

(** A version 8 attr with nothing after it, and with four bytes. *)
Example C63_example_attr :
  (exists p', parse_attr pl64 slice_buf (on_slice 4096 (w_attr LE ex_attr8 0 0 [] ++ [1; 2; 3; 4]) ex_cfg0) =
     (Ok (attr_seen ex_attr8), p')) /\
  ~ (exists p', parse_attr pl64 slice_buf (on_slice 4096 (w_attr LE ex_attr8 0 0 []) ex_cfg0) =
     (Ok (attr_seen ex_attr8), p')).
Proof.
  split; [eexists; vm_compute; reflexivity|]. intros [p' H].
  apply (f_equal fst) in H. vm_compute in H. discriminate H.
Qed.

(** ** C31 *)

Theorem C31_invalid_size :
  forall pl S (PB : parsebuf S) mo fin cap mem p t s rest pos,
  let o := order_of pl (c_endian (p_cfg p)) in
  pl_ok pl -> t < 2 ^ 32 -> s < 2 ^ 32 -> ~ In s versions -> s <= 136 ->
  source PB mo fin cap mem p (w32 o t ++ w32 o s ++ rest) pos ->
  fst (parse_attr pl PB p) = Err (mkError KInvalidRecord (Some (SrcMsg (MsgAttrSize s)))).
Proof.
  intros pl S PB mo fin cap mem p t s rest pos o Hpl Ht Hs Hn Hm Hsrc.
  pose proof (attr_run pl S PB mo fin cap mem p _ pos Hpl Hsrc) as R.
  unfold o in R. rewrite attr_flat_size in R by assumption.
  destruct R as (p' & -> & _). reflexivity.
Qed.

(** No other size is refused with this error. *)
Theorem C31_valid_sizes_accepted :
  forall pl S (PB : parsebuf S) mo fin cap mem p a r2 r3 ext rest pos n,
  let o := order_of pl (c_endian (p_cfg p)) in
  pl_ok pl -> attr_ok a r2 r3 ext -> fin <> mkError KInvalidRecord (Some (SrcMsg (MsgAttrSize n))) ->
  source PB mo fin cap mem p (w_attr o a r2 r3 ext ++ rest) pos ->
  fst (parse_attr pl PB p) <> Err (mkError KInvalidRecord (Some (SrcMsg (MsgAttrSize n)))).
Proof.
  intros pl S PB mo fin cap mem p a r2 r3 ext rest pos n o Hpl Ha Hfin Hs.
  destruct (N.ltb_spec (len rest) 4) as [Hl|Hl].
  - rewrite (C30_alone_refuted pl S PB mo fin cap mem p a r2 r3 ext rest pos Hpl Ha Hl Hs). congruence.
  - rewrite <- (take_drop 4 rest) in Hs.
    pose proof (attr_run pl S PB mo fin cap mem p _ pos Hpl Hs) as R.
    unfold o in R. rewrite attr_flat in R by (try assumption; rewrite len_take; lia).
    destruct (_ || _); destruct R as (p' & -> & _); cbn [fst]; discriminate.
Qed.

(** Full statement: without the four bytes, and without [rest]. *)
Theorem C31_nonzero_tail_partial :
  forall pl S (PB : parsebuf S) mo fin cap mem p a r2 r3 ext four rest pos,
  let o := order_of pl (c_endian (p_cfg p)) in
  pl_ok pl -> attr_ok a r2 r3 ext -> 136 < at_size a -> ~ zero_bytes ext -> len four = 4 ->
  source PB mo fin cap mem p (w_attr o a r2 r3 ext ++ four ++ rest) pos ->
  exists p', parse_attr pl PB p = (Err (mkError KUnsupportedData (Some (SrcMsg MsgAttrTail))), p') /\
    after PB mo fin cap mem p (at_size a + 4) rest pos p'.
Proof.
  intros pl S PB mo fin cap mem p a r2 r3 ext four rest pos o Hpl Ha Hm Hz Hf Hs.
  pose proof (attr_run pl S PB mo fin cap mem p _ pos Hpl Hs) as R.
  unfold o in R. rewrite attr_flat in R by assumption.
  rewrite nonzero_bytes_forallb in R.
  - replace (at_size a <=? 136) with false in R by (symmetry; now apply N.leb_gt). exact R.
  - intros H. apply Forall_app in H. tauto.
Qed.

Theorem C31_nonzero_tail_refuted : exists a ext,
  attr_ok a 0 0 ext /\ 136 < at_size a /\ ~ zero_bytes ext /\
  fst (parse_attr pl64 slice_buf (on_slice 4096 (w_attr LE a 0 0 ext) ex_cfg0)) = Err eof_error.
Proof.
  exists ex_attr9, [0; 0; 0; 0; 0; 0; 0; 1]. split; [now apply ex_attr9_ok|]. split; [reflexivity|].
  split; [|vm_compute; reflexivity]. intros H. unfold zero_bytes in H. rewrite Forall_forall in H.
  specialize (H 1 ltac:(cbn; tauto)). discriminate.
Qed.

Example C31_example :
  ~ In 100 versions /\
  fst (parse_attr pl64 slice_buf (on_slice 4096 (w32 LE 1 ++ w32 LE 100) ex_cfg0)) =
  Err (mkError KInvalidRecord (Some (SrcMsg (MsgAttrSize 100)))) /\
  fst (parse_attr pl64 slice_buf (on_slice 4096 (w_attr LE ex_attr9 0 0 [0; 0; 0; 1; 0; 0; 0; 0] ++ [0; 0; 0; 0]) ex_cfg0)) =
  Err (mkError KUnsupportedData (Some (SrcMsg MsgAttrTail))).
Proof.
  split; [unfold versions; cbn [In]; intros H; repeat destruct H as [H|H]; discriminate || contradiction|].
  split; vm_compute; reflexivity.
Qed.

Print Assumptions C30_decoding_partial.
Print Assumptions C30_alone_refuted.
Print Assumptions C30_refuted.
Print Assumptions C30_exact.
Print Assumptions C63_attr.
Print Assumptions C31_invalid_size.
Print Assumptions C31_valid_sizes_accepted.
Print Assumptions C31_nonzero_tail_partial.
Print Assumptions C31_nonzero_tail_refuted.
