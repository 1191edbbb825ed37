(** Theorems: which error refused data gets (C67), and what the error for the end of the
    data tells (C68). *)
From Coq Require Import NArith List Bool Lia.
From Verif Require Import Base BaseFacts Types Platform Config Buf Parser Contract Flat Refine.
From Verif Require Import Instances Prims Slices Records Sample Record Attr Views RefRecords.
From Verif Require Import RefFrame RefTop Wire Codec Roundtrip ConfFacts Spec SameFacts.
From Verif Require Import WireAttr AttrFacts Accept AcceptFacts AcceptRecord AcceptAttr ExData.
From Verif Require Import AcceptSample RoundFacts FrameFacts Faults FaultFacts.
From Verif Require Import PropsFrame PropsSame PropsBorrow PropsAttr PropsAccept.
Import ListNotations.
Open Scope N_scope.

(** ** C67: a record is refused with the error [record_part] finds in the bytes, and no
    other. *)
(** Full statement: without [tame]; see C67_reader and C67_memory_refuted (PropsReader.v). *)
Theorem C67_record_partial :
  forall pl S (PB : parsebuf S) mo fin cap mem w p l a e,
  let o := order_of pl (c_endian (p_cfg p)) in
  pl_ok pl -> configured (p_cfg p) w -> ws_regs_user w < 2 ^ 64 -> ws_regs_intr w < 2 ^ 64 ->
  source PB mo fin cap mem p l a -> tame pl (p_cfg p) mo a l ->
  ((exists p', gives pl PB p (inl e) p') <-> record_part (pl_bits pl) (pl_host pl) o w fin l = Fault e).
Proof.
  intros pl S PB mo fin cap mem w p l a e o Hpl Hw Hu Hi Hs Ht.
  pose proof (gives_flat pl S PB mo fin cap mem p l a Hpl Hs Ht) as G.
  assert (Hb : bytes l) by (destruct Hs as (? & _ & _ & Hwf); apply Hwf).
  pose proof (Lex_record pl Hpl (mkEnv (p_cfg p) fin) w Hw Hu Hi l 0 Hb) as X. cbn [fe_fin fe_cfg] in X. fold o in X.
  destruct (f_record pl (mkEnv (p_cfg p) fin) l 0) as [[v md] l' k ev|e' l' k ev].
  - destruct X as (_ & n & -> & _). destruct G as (b & p' & G & _). split; [|discriminate].
    intros (p'' & H). destruct (gives_once _ _ _ _ _ _ _ _ G H) as [E _]. discriminate E.
  - rewrite X. destruct G as (p' & G & _). split.
    + intros (p'' & H). destruct (gives_once _ _ _ _ _ _ _ _ G H) as [E _]. now injection E as <-.
    + intros E. injection E as <-. now exists p'.
Qed.

(** It is given, and takes [n] bytes, if [record_part] says so. *)
(** Full statement: without [tame]. *)
Theorem C67_accepted_partial :
  forall pl S (PB : parsebuf S) mo fin cap mem w p l a n,
  let o := order_of pl (c_endian (p_cfg p)) in
  pl_ok pl -> configured (p_cfg p) w -> ws_regs_user w < 2 ^ 64 -> ws_regs_intr w < 2 ^ 64 ->
  source PB mo fin cap mem p l a -> tame pl (p_cfg p) mo a l ->
  ((exists x p', gives pl PB p (inr x) p' /\ moved PB mo fin cap mem l a p n p') <->
   record_part (pl_bits pl) (pl_host pl) o w fin l = Takes n).
Proof.
  intros pl S PB mo fin cap mem w p l a n o Hpl Hw Hu Hi Hs Ht.
  pose proof (gives_flat pl S PB mo fin cap mem p l a Hpl Hs Ht) as G.
  assert (Hb : bytes l) by (destruct Hs as (? & _ & _ & Hwf); apply Hwf).
  pose proof (Lex_record pl Hpl (mkEnv (p_cfg p) fin) w Hw Hu Hi l 0 Hb) as X. cbn [fe_fin fe_cfg] in X. fold o in X.
  destruct (f_record pl (mkEnv (p_cfg p) fin) l 0) as [[v md] l' k ev|e' l' k ev].
  - destruct X as (_ & j & -> & _ & _ & Ek). rewrite N.add_0_l in Ek. subst k.
    destruct G as (b & p' & G & _ & M). split.
    + intros (x & p'' & H & M2). destruct (gives_once _ _ _ _ _ _ _ _ G H) as [_ <-].
      f_equal. destruct M as (_ & _ & _ & M), M2 as (_ & _ & _ & M2). lia.
    + intros E. injection E as <-. eauto.
  - rewrite X. destruct G as (p' & G & _). split; [|discriminate].
    intros (x & p'' & H & _). destruct (gives_once _ _ _ _ _ _ _ _ G H) as [E _]. discriminate E.
Qed.

(** The two descriptions, of the records there are and of what is refused, agree. *)
Theorem C67_agree :
  forall pl c w fin l n,
  let o := order_of pl (c_endian c) in
  pl_ok pl -> configured c w -> ws_regs_user w < 2 ^ 64 -> ws_regs_intr w < 2 ^ 64 -> bytes l ->
  (record_part (pl_bits pl) (pl_host pl) o w fin l = Takes n <->
   n <= len l /\ exists m si b, is_record (pl_bits pl) (pl_host pl) o w m si b (take n l)).
Proof.
  intros pl c w fin l n o Hpl Hw Hu Hi Hb.
  pose proof (Lex_record pl Hpl (mkEnv c fin) w Hw Hu Hi l 0 Hb) as X. cbn [fe_fin fe_cfg] in X. fold o in X.
  split.
  - intros E. rewrite E in X.
    destruct (f_record pl (mkEnv c fin) l 0) as [[v md] l' k ev|e' l' k ev] eqn:Er; [|discriminate].
    destruct X as (_ & j & E2 & Hj & El & Ek). injection E2 as <-. rewrite N.add_0_l in Ek. subst k.
    destruct (Snd_record pl Hpl (mkEnv c fin) (len l) w Hw Hu Hi l 0 _ _ _ _ Hb (N.le_refl _) Er)
      as (bs & E3 & Ek2 & m & si & b & _ & Hr).
    split; [exact Hj|]. exists m, si, b. rewrite N.add_0_l in Ek2.
    rewrite E3, take_app_exact by assumption. exact Hr.
  - intros (Hn & m & si & b & Hr).
    assert (Ht : bytes (take n l)).
    { unfold bytes in *. rewrite <- (take_drop n l) in Hb. apply Forall_app in Hb. apply Hb. }
    destruct (record_here pl (mkEnv c fin) w l m si b (take n l) (drop n l) Hpl Hw Hu Hi Ht) as (ev & E);
      [symmetry; apply take_drop|exact Hr|].
    rewrite E in X. destruct X as (_ & j & E2 & _ & _ & Ek).
    rewrite E2. f_equal. rewrite len_take, N.min_l, N.add_0_l in Ek by exact Hn. now symmetry.
Qed.

(** Samples, attrs and values of counters read on their own. *)
(** Full statement: without [lends_plain]. *)
Theorem C67_sample_partial :
  forall pl S (PB : parsebuf S) mo fin cap mem w p l a e,
  let o := order_of pl (c_endian (p_cfg p)) in
  pl_ok pl -> configured (p_cfg p) w -> ws_regs_user w < 2 ^ 64 -> ws_regs_intr w < 2 ^ 64 ->
  cap <= isize_max pl -> source PB mo fin cap mem p l a -> lends_plain pl (p_cfg p) mo a ->
  ((exists p', parse_sample pl PB p = (Err e, p')) <->
   sample_part (pl_bits pl) (pl_host pl) o w fin l = Fault e).
Proof.
  intros pl S PB mo fin cap mem w p l a e o Hpl Hw Hu Hi Hcap Hs Ht.
  assert (Hb : bytes l) by (destruct Hs as (? & _ & _ & Hwf); apply Hwf).
  pose proof (sample_events pl mo a (mkEnv (p_cfg p) fin) l Ht) as Hev.
  pose proof (Lex_sample pl Hpl (mkEnv (p_cfg p) fin) w Hw Hu Hi l 0 Hb) as X. cbn [fe_fin fe_cfg] in X.
  destruct Hs as (rep & HC & Hr & Hwf).
  pose proof (Ref_sample pl PB mo fin cap mem rep a HC Hcap) as HR.
  destruct (f_sample pl (mkEnv (p_cfg p) fin) l 0) as [b l' k ev|e' l' k ev] eqn:E.
  - destruct X as (_ & n & X & _). fold o in X. rewrite X. split; [|discriminate].
    destruct (run_ok mo fin cap rep _ _ _ _ _ _ _ _ _ _ _ _ HR Hr Hwf E Hev) as (s & p' & Ep & _).
    intros (p'' & H). rewrite Ep in H. discriminate.
  - fold o in X. rewrite X.
    destruct (run_err mo fin cap rep _ _ _ _ _ _ _ _ _ _ _ _ HR Hr Hwf E Hev) as (p' & Ep & _). split.
    + intros (p'' & H). rewrite Ep in H. now injection H as <- _.
    + intros H. injection H as <-. now exists p'.
Qed.

Theorem C67_attr :
  forall pl S (PB : parsebuf S) mo fin cap mem p l a e,
  let o := order_of pl (c_endian (p_cfg p)) in
  pl_ok pl -> source PB mo fin cap mem p l a ->
  ((exists p', parse_attr pl PB p = (Err e, p')) <-> attr_part o fin l = Fault e).
Proof.
  intros pl S PB mo fin cap mem p l a e o Hpl Hs.
  assert (Hb : bytes l) by (destruct Hs as (? & _ & _ & Hwf); apply Hwf).
  pose proof (attr_run pl S PB mo fin cap mem p l a Hpl Hs) as R.
  pose proof (noev_attr pl (mkEnv (p_cfg p) fin) l 0) as Hn.
  pose proof (Lex_attr pl (mkEnv (p_cfg p) fin) l 0 Hb) as X. cbn [fe_fin fe_cfg] in X. fold o in X.
  destruct (f_attr pl (mkEnv (p_cfg p) fin) l 0) as [x l' k ev|e' l' k ev]; subst ev.
  - destruct X as (_ & n & -> & _). split; [|discriminate].
    destruct R as (p' & E & _). intros (p'' & H). rewrite E in H. discriminate.
  - rewrite X. destruct R as (p' & E & _). split.
    + intros (p'' & H). rewrite E in H. now injection H as <- _.
    + intros H. injection H as <-. now exists p'.
Qed.

Theorem C67_value :
  forall pl S (PB : parsebuf S) mo fin cap mem w p l a e,
  configured (p_cfg p) w -> source PB mo fin cap mem p l a ->
  ((exists p', parse_read_value pl PB p = (Err e, p')) <-> value_part w fin l = Fault e).
Proof.
  intros pl S PB mo fin cap mem w p l a e Hw Hs.
  assert (Hb : bytes l) by (destruct Hs as (? & _ & _ & Hwf); apply Hwf).
  pose proof (Lex_read_value pl (mkEnv (p_cfg p) fin) w Hw l 0 Hb) as X. cbn [fe_fin fe_cfg] in X.
  assert (Hev : match f_read_value pl (mkEnv (p_cfg p) fin) l 0 with
                | FOk _ _ _ ev | FErr _ _ _ ev => Forall (ev_ok mo a) ev end).
  { exact (evs_read_value pl (fun _ => True) (ev_ok mo a) (mkEnv (p_cfg p) fin) l 0 I). }
  destruct Hs as (rep & HC & Hr & Hwf).
  pose proof (Ref_read_value pl PB mo fin cap mem rep a HC) as HR.
  destruct (f_read_value pl (mkEnv (p_cfg p) fin) l 0) as [b l' k ev|e' l' k ev] eqn:E.
  - destruct X as (_ & n & X & _). rewrite X. split; [|discriminate].
    destruct (run_ok mo fin cap rep _ _ _ _ _ _ _ _ _ _ _ _ HR Hr Hwf E Hev) as (s & p' & Ep & _).
    intros (p'' & H). rewrite Ep in H. discriminate.
  - rewrite X.
    destruct (run_err mo fin cap rep _ _ _ _ _ _ _ _ _ _ _ _ HR Hr Hwf E Hev) as (p' & Ep & _). split.
    + intros (p'' & H). rewrite Ep in H. now injection H as <- _.
    + intros H. injection H as <-. now exists p'.
Qed.

(** Groups of counters: [tame] without what it says on STACK_USER. *)
Definition lends_words (pl : platform) (c : config) (mo : mode) (a : N) : Prop :=
  order_of pl (c_endian c) <> pl_host pl \/ mo = NoExt \/ ((mo = Whole \/ mo = Coh) /\ a mod word_align pl = 0).

Lemma group_events : forall pl mo a env l, lends_words pl (fe_cfg env) mo a ->
  match f_read_group pl env l 0 with FOk _ _ _ ev | FErr _ _ _ ev => Forall (ev_ok mo a) ev end.
Proof.
  intros pl mo a env l H.
  assert (G' : evs (fun _ => True) (owned pl) (f_read_group pl)).
  { apply evs_read_group. intros; apply evs_array_owned. }
  specialize (G' env l 0 I).
  destruct H as [H|[->|(Hm & Ha)]].
  - assert (G : evs (fun c => order_of pl (c_endian c) <> pl_host pl) (ev_ok mo a) (f_read_group pl)).
    { apply evs_read_group. intros B E n. now apply evs_array_foreign. }
    exact (G env l 0 H).
  - destruct (f_read_group pl env l 0); (eapply Forall_impl; [|exact G']);
      intros [al q|] Hq; [exact I|contradiction|exact I|contradiction].
  - assert (G : ale (fun _ => True) (f_read_group pl)) by (apply ale_al, al_read_group).
    specialize (G env l 0 I eq_refl).
    assert (Q : forall ev, Forall al_ev ev -> Forall (owned pl) ev -> Forall (ev_ok mo a) ev).
    { intros ev G1 G2. rewrite Forall_forall in *. intros v Hv. specialize (G1 v Hv). specialize (G2 v Hv).
      destruct v as [al q|]; [|contradiction]. cbn in G1, G2. subst al.
      destruct Hm as [-> | ->]; cbn [ev_ok]; now apply shift_align. }
    destruct (f_read_group pl env l 0); now apply Q.
Qed.

Theorem C67_group :
  forall pl S (PB : parsebuf S) mo fin cap mem w p l a e,
  let o := order_of pl (c_endian (p_cfg p)) in
  configured (p_cfg p) w -> cap <= isize_max pl -> source PB mo fin cap mem p l a -> lends_words pl (p_cfg p) mo a ->
  ((exists p', parse_read_group pl PB p = (Err e, p')) <->
   group_part (pl_bits pl) (pl_host pl) o w fin l = Fault e).
Proof.
  intros pl S PB mo fin cap mem w p l a e o Hw Hcap Hs Ht.
  assert (Hb : bytes l) by (destruct Hs as (? & _ & _ & Hwf); apply Hwf).
  pose proof (group_events pl mo a (mkEnv (p_cfg p) fin) l Ht) as Hev.
  pose proof (Lex_read_group pl (mkEnv (p_cfg p) fin) w Hw l 0 Hb) as X. cbn [fe_fin fe_cfg] in X.
  destruct Hs as (rep & HC & Hr & Hwf).
  pose proof (Ref_read_group pl PB mo fin cap mem rep a HC Hcap) as HR.
  destruct (f_read_group pl (mkEnv (p_cfg p) fin) l 0) as [b l' k ev|e' l' k ev] eqn:E.
  - destruct X as (_ & n & X & _). fold o in X. rewrite X. split; [|discriminate].
    destruct (run_ok mo fin cap rep _ _ _ _ _ _ _ _ _ _ _ _ HR Hr Hwf E Hev) as (s & p' & Ep & _).
    intros (p'' & H). rewrite Ep in H. discriminate.
  - fold o in X. rewrite X.
    destruct (run_err mo fin cap rep _ _ _ _ _ _ _ _ _ _ _ _ HR Hr Hwf E Hev) as (p' & Ep & _). split.
    + intros (p'' & H). rewrite Ep in H. now injection H as <- _.
    + intros H. injection H as <-. now exists p'.
Qed.

(** Complete records, each with something else wrong, and what they get. *)
Definition bad_cfg : config := mkConfig (cf_new 8 (2 ^ 1 + 2 ^ 2 + 2 ^ 6 + 2 ^ 13) true false 0) 0 0 Little.
Definition bad_set : settings := mkSettings (2 ^ 1 + 2 ^ 2 + 2 ^ 6 + 2 ^ 13) 8 true false 0 0.
Definition zeros (n : nat) : list N := repeat 0 n.

Definition bad_records : list (list N * perror) :=
  [ (* a header which says 7 bytes *)
    (w_header LE 2 0 7 ++ [1], wrong KInvalidRecord MsgHeaderTooSmall);
    (* 16 bytes, where a sample_id has 24 *)
    (w_header LE 2 0 24 ++ zeros 16, wrong KInvalidRecord MsgNoRoomForSampleId);
    (* a LOST record with 8 bytes for two numbers *)
    (w_header LE 2 0 40 ++ zeros 32, eof_error);
    (* a READ record, but counters are read in groups *)
    (w_header LE 8 0 40 ++ zeros 32, wrong KUnsupportedConfig MsgSingleReadGroup);
    (* a sample of whose 8 bytes of stack 9 are said to be used *)
    (w_header LE 9 0 56 ++ zeros 24 ++ w64 LE 8 ++ zeros 8 ++ w64 LE 9, wrong KInvalidRecord MsgDynSize);
    (* a MMAP2 record with a build id of 21 bytes *)
    (w_header LE 10 (2 ^ 14) 96 ++ zeros 32 ++ [21] ++ zeros 55, wrong KInvalidRecord (MsgBuildIdLen 21));
    (* more namespaces than there are addresses *)
    (w_header LE 16 0 48 ++ zeros 8 ++ w64 LE (2 ^ 60) ++ zeros 24, wrong KInvalidRecord MsgSliceTooLong) ].

Example C67_example :
  configured bad_cfg bad_set /\
  Forall (fun x => let '(l, e) := x in
    record_part 64 LE LE bad_set eof_error l = Fault e /\
    (forall cap mem, 16384 <= cap ->
       source bufreader_buf NoExt eof_error cap mem (reader_of [l] bad_cfg) l 0) /\
    tame pl64 bad_cfg NoExt 0 l /\
    exists p', gives pl64 bufreader_buf (reader_of [l] bad_cfg) (inl e) p') bad_records.
Proof.
  split; [repeat split|].
  assert (K : forall l, bytes l -> len l < 2 ^ 64 -> l <> [] -> forall cap mem, 16384 <= cap ->
                source bufreader_buf NoExt eof_error cap mem (reader_of [l] bad_cfg) l 0).
  { intros l Hb Hl Hn cap mem Hc. rewrite <- (app_nil_r l) at 2.
    apply (reader_source [] [l] None); [exact Hc| | |]; cbn [concat app]; rewrite ?app_nil_r; try assumption.
    now repeat constructor. }
  repeat (constructor; [split; [vm_compute; reflexivity|]; split;
    [apply K; [vm_compute; repeat constructor|vm_compute; reflexivity|discriminate]|]; split;
    [split; [vm_compute; discriminate|right; right; left; reflexivity]|];
    eexists; intros O V; rewrite record_eq; vm_compute; reflexivity|]).
  constructor.
Qed.

(** On their own: a sample which ends in its TIME, an attr of 65 bytes, an attr of 144 with
    something in what version 8 does not have, a group which is none. *)
Example C67_example_parts :
  sample_part 64 LE LE bad_set eof_error (zeros 15) = Fault eof_error /\
  fst (parse_sample pl64 slice_buf (on_slice 4096 (zeros 15) bad_cfg)) = Err eof_error /\
  attr_part LE eof_error (w32 LE 0 ++ w32 LE 65 ++ zeros 80) = Fault (wrong KInvalidRecord (MsgAttrSize 65)) /\
  fst (parse_attr pl64 slice_buf (on_slice 4096 (w32 LE 0 ++ w32 LE 65 ++ zeros 80) bad_cfg)) =
    Err (wrong KInvalidRecord (MsgAttrSize 65)) /\
  attr_part LE eof_error (w32 LE 0 ++ w32 LE 144 ++ zeros 130 ++ [1] ++ zeros 9) =
    Fault (wrong KUnsupportedData MsgAttrTail) /\
  fst (parse_attr pl64 slice_buf
         (on_slice 4096 (w32 LE 0 ++ w32 LE 144 ++ zeros 130 ++ [1] ++ zeros 9) bad_cfg)) =
    Err (wrong KUnsupportedData MsgAttrTail) /\
  value_part bad_set eof_error (zeros 80) = Fault (wrong KUnsupportedConfig MsgSingleReadGroup) /\
  fst (parse_read_value pl64 slice_buf (on_slice 4096 (zeros 80) bad_cfg)) =
    Err (wrong KUnsupportedConfig MsgSingleReadGroup) /\
  group_part 64 LE LE bad_set eof_error (w64 LE (2 ^ 61) ++ zeros 80) =
    Fault (wrong KInvalidRecord MsgSliceTooLong) /\
  fst (parse_read_group pl64 slice_buf (on_slice 4096 (w64 LE (2 ^ 61) ++ zeros 80) bad_cfg)) =
    Err (wrong KInvalidRecord MsgSliceTooLong) /\
  lends_plain pl64 bad_cfg Whole 4096 /\ lends_words pl64 bad_cfg Whole 4096 /\
  source slice_buf Whole eof_error 100 (memory_of 4096 (zeros 80)) (on_slice 4096 (zeros 80) bad_cfg)
    (zeros 80) 4096.
Proof.
  do 10 (split; [vm_compute; reflexivity|]).
  split; [right; right; split; [now left|split; vm_compute; reflexivity]|].
  split; [right; right; split; [now left|vm_compute; reflexivity]|].
  apply slice_source; [| | |apply memory_of_at]; try (vm_compute; congruence). repeat constructor.
Qed.

(** ** C68: is the error for the end of the data given if and only if the record is not
    all there? *)

(** The record [l] starts with is there to its end. *)
Definition all_there (o : order) (l : list N) : Prop :=
  8 <= len l /\ number o (part_of 6 2 l) <= len l.

(** If the data ends before the record, it is the error of the source, whichever that is. *)
Theorem C68_cut_short :
  forall pl S (PB : parsebuf S) mo fin cap mem w p l a,
  pl_ok pl -> configured (p_cfg p) w -> ws_regs_user w < 2 ^ 64 -> ws_regs_intr w < 2 ^ 64 ->
  source PB mo fin cap mem p l a -> tame pl (p_cfg p) mo a l ->
  ~ all_there (order_of pl (c_endian (p_cfg p))) l -> exists p', gives pl PB p (inl fin) p'.
Proof.
  intros pl S PB mo fin cap mem w p l a Hpl Hw Hu Hi Hs Ht Hn.
  apply (C67_record_partial pl S PB mo fin cap mem w p l a fin Hpl Hw Hu Hi Hs Ht). unfold record_part. cbv zeta.
  destruct (N.ltb_spec (len l) 8) as [H8|H8]; [reflexivity|].
  unfold all_there in Hn. destruct (N.ltb_spec (number (order_of pl (c_endian (p_cfg p))) (part_of 6 2 l)) 8); [lia|].
  destruct (N.ltb_spec (len l) (number (order_of pl (c_endian (p_cfg p))) (part_of 6 2 l))); [reflexivity|lia].
Qed.

(** Errors which can come out of a record that is there. *)
Definition about_record (e : perror) : Prop := e = eof_error \/ exists k m, e = wrong k m.

Definition honest (p : part) : Prop := forall e d e', p e d = Fault e' -> e' = e \/ exists k m, e' = wrong k m.

Lemma honest_nothing : honest nothing. Proof. discriminate. Qed.
Lemma honest_also : forall p q, honest p -> honest q -> honest (also p q).
Proof.
  intros p q Hp Hq e d e'. unfold also. specialize (Hp e d). destruct (p e d) as [n|e1]; [|exact (Hp e')].
  specialize (Hq e (drop n d)). destruct (q e (drop n d)) as [k|e2]; [discriminate|exact (Hq e')].
Qed.
Lemma honest_in_turn : forall ps, Forall honest ps -> honest (in_turn ps).
Proof.
  induction 1 as [|p ps Hp _ IH]; [exact honest_nothing|]. exact (honest_also _ _ Hp IH).
Qed.
Lemma honest_if : forall b p, honest p -> honest (if_ b p).
Proof. intros [] p Hp; [exact Hp|exact honest_nothing]. Qed.
Lemma honest_plain : forall n, honest (plain n).
Proof. intros n e d e'. unfold plain. destruct (len d <? n); [|discriminate]. intros H. injection H as <-. now left. Qed.
Lemma honest_rest : forall n, honest (and_rest n).
Proof. intros n e d e'. unfold and_rest. destruct (len d <=? n); [|discriminate]. intros H. injection H as <-. now left. Qed.
Lemma honest_refused : forall k m, honest (refused (wrong k m)).
Proof. intros k m e d e' H. injection H as <-. right. now exists k, m. Qed.
Lemma honest_items : forall bits host o n size, honest (items bits host o n size).
Proof.
  intros bits host o n size e d e'. unfold items. cbv zeta.
  destruct (_ && _); [intros H; injection H as <-; right; now eexists _, _|].
  destruct (_ && _); [intros H; injection H as <-; now left|]. apply honest_plain.
Qed.
Lemma honest_listed : forall bits host o head n size, honest (listed bits host o head n size).
Proof. intros bits host o head n size e d. apply honest_also; [apply honest_plain|apply honest_items]. Qed.
Lemma honest_chunk : forall n, honest (chunk n).
Proof.
  intros n e d e'. unfold chunk. destruct (_ =? _); [intros H; injection H as <-; now left|apply honest_plain].
Qed.

Ltac honest :=
  repeat first
    [ apply honest_also | apply honest_if | apply honest_plain | apply honest_rest | apply honest_refused
    | apply honest_items | apply honest_listed | apply honest_chunk | apply honest_nothing
    | apply honest_in_turn; repeat constructor
    | match goal with |- honest (if ?b then _ else _) => destruct b end ].

Lemma honest_check : forall (c : bool) k m, honest (fun _ _ => if c then Fault (wrong k m) else Takes 0).
Proof. intros [] k m e d e' H; [|discriminate]. injection H as <-. right. now exists k, m. Qed.

Lemma honest_value : forall w, honest (value_part w).
Proof. intros w. unfold value_part. honest. Qed.
Lemma honest_group : forall bits host o w, honest (group_part bits host o w).
Proof.
  intros bits host o w. unfold group_part. destruct (negb _); [honest|]. destruct (_ <=? _); [honest|].
  intros e d. cbv zeta. match goal with |- context [in_turn ?ps e d] => assert (H : honest (in_turn ps)) by honest end.
  exact (H e d).
Qed.
Lemma honest_sample : forall bits host o w, honest (sample_part bits host o w).
Proof.
  intros bits host o w. unfold sample_part. apply honest_in_turn.
  repeat (constructor; [first [apply honest_if, honest_plain|apply honest_if, honest_listed|apply honest_if]|]);
    [| | | |constructor].
  - unfold values_part. destruct (rbit w 3); [apply honest_group|apply honest_value].
  - intros e d. unfold raw_part. cbv zeta. apply honest_also; honest.
  - intros e d. unfold stack_part. cbv zeta. apply honest_also; [honest|apply honest_check].
  - intros e d. unfold aux_part. apply honest_also; honest.
Qed.
Lemma honest_build_id : forall o, honest (build_id_part o).
Proof. intros o e d. unfold build_id_part. apply honest_also; [honest|apply honest_check]. Qed.
Lemma honest_poke : forall o, honest (poke_part o).
Proof. intros o e d. unfold poke_part. cbv zeta. apply honest_also; honest. Qed.
Lemma honest_mmap2 : forall (b : bool) o,
  honest (in_turn [plain 32; if b then build_id_part o else plain 24; and_rest 8]).
Proof.
  intros b o. apply honest_in_turn.
  constructor; [apply honest_plain|]. constructor; [destruct b; [apply honest_build_id|apply honest_plain]|].
  constructor; [apply honest_rest|]. constructor.
Qed.
Lemma honest_read : forall w, honest (also (plain 8) (value_part w)).
Proof. intros w. apply honest_also; [apply honest_plain|apply honest_value]. Qed.
Lemma honest_body : forall bits host o w t m, honest (body_part bits host o w t m).
Proof.
  intros bits host o w t m. unfold body_part.
  repeat match goal with |- context [match ?x with _ => _ end] => is_var x; destruct x end;
    first [ apply honest_plain | apply honest_rest | apply honest_sample | apply honest_read
          | apply honest_mmap2 | apply honest_poke | apply honest_listed ].
Qed.

(** A source whose error could not come out of a record, as one which failed to read on,
    gives it if and only if the record is not all there. *)
Theorem C68_told_partial :
  forall pl S (PB : parsebuf S) mo fin cap mem w p l a,
  pl_ok pl -> configured (p_cfg p) w -> ws_regs_user w < 2 ^ 64 -> ws_regs_intr w < 2 ^ 64 ->
  source PB mo fin cap mem p l a -> tame pl (p_cfg p) mo a l -> ~ about_record fin ->
  ((exists p', gives pl PB p (inl fin) p') <-> ~ all_there (order_of pl (c_endian (p_cfg p))) l).
Proof.
  intros pl S PB mo fin cap mem w p l a Hpl Hw Hu Hi Hs Ht Hf.
  rewrite (C67_record_partial pl S PB mo fin cap mem w p l a fin Hpl Hw Hu Hi Hs Ht).
  set (o := order_of pl (c_endian (p_cfg p))). unfold record_part, all_there. cbv zeta.
  set (size := number o (part_of 6 2 l)). set (t := number o (part_of 0 4 l)).
  assert (K : forall k m, Fault (wrong k m) <> Fault fin).
  { intros k m E. injection E as <-. apply Hf. right. now exists k, m. }
  destruct (N.ltb_spec (len l) 8) as [H8|H8]; [split; [lia|reflexivity]|].
  destruct (N.ltb_spec size 8) as [Hz|Hz]; [split; [intros E; now apply K in E|lia]|].
  destruct (N.ltb_spec (len l) size) as [Hl|Hl]; [split; [lia|reflexivity]|].
  split; [|lia].
  destruct (_ <? _); [intros E; now apply K in E|].
  match goal with |- match ?b with _ => _ end = _ -> _ => destruct b as [n|e'] eqn:E end; [discriminate|].
  intros Ef. injection Ef as <-.
  apply honest_body in E. destruct Hf. destruct E as [->|E]; [now left|now right].
Qed.

(** What is said of a record that is all there does not change when there is more. *)
Lemma said_of_record : forall bits host o w fin fin' l x, all_there o l ->
  record_part bits host o w fin (l ++ x) = record_part bits host o w fin' l.
Proof.
  intros bits host o w fin fin' l x (H8 & Hl).
  assert (P : forall i n, i + n <= len l -> part_of i n (l ++ x) = part_of i n l).
  { intros i n H. unfold part_of. rewrite drop_app_le by lia. apply take_app_le. rewrite len_drop. lia. }
  unfold record_part. cbv zeta.
  rewrite (P 0 4), (P 4 2), (P 6 2) by lia. rewrite len_app.
  destruct (N.ltb_spec (len l + len x) 8); [lia|]. destruct (N.ltb_spec (len l) 8); [lia|].
  destruct (N.ltb_spec (number o (part_of 6 2 l)) 8) as [Hz|Hz]; [reflexivity|].
  destruct (N.ltb_spec (len l + len x) (number o (part_of 6 2 l))); [lia|].
  destruct (N.ltb_spec (len l) (number o (part_of 6 2 l))); [lia|].
  destruct (_ <? _); [reflexivity|]. rewrite P; [reflexivity|]. lia.
Qed.

Theorem C68_final :
  forall pl c w l x e fin1 fin2 S1 (PB1 : parsebuf S1) mo1 cap1 mem1 p1 a1 S2 (PB2 : parsebuf S2) mo2 cap2 mem2 p2 a2,
  pl_ok pl -> p_cfg p1 = c -> p_cfg p2 = c -> configured c w ->
  ws_regs_user w < 2 ^ 64 -> ws_regs_intr w < 2 ^ 64 ->
  source PB1 mo1 fin1 cap1 mem1 p1 l a1 -> source PB2 mo2 fin2 cap2 mem2 p2 (l ++ x) a2 ->
  tame pl c mo1 a1 l -> tame pl c mo2 a2 (l ++ x) ->
  all_there (order_of pl (c_endian c)) l ->
  ((exists p1', gives pl PB1 p1 (inl e) p1') <-> (exists p2', gives pl PB2 p2 (inl e) p2')).
Proof.
  intros pl c w l x e fin1 fin2 S1 PB1 mo1 cap1 mem1 p1 a1 S2 PB2 mo2 cap2 mem2 p2 a2 Hpl <- E2 Hw Hu Hi H1 H2 T1 T2 Ha.
  rewrite (C67_record_partial pl S1 PB1 mo1 fin1 cap1 mem1 w p1 l a1 e Hpl Hw Hu Hi H1 T1).
  rewrite <- E2 in Hw, T2.
  rewrite (C67_record_partial pl S2 PB2 mo2 fin2 cap2 mem2 w p2 (l ++ x) a2 e Hpl Hw Hu Hi H2 T2).
  rewrite E2, (said_of_record _ _ _ _ fin2 fin1) by exact Ha. reflexivity.
Qed.

(** An error other than that of the source stays, however much is still to come. *)
Theorem C68_stays :
  forall pl c w l x e fin fin2 S1 (PB1 : parsebuf S1) mo1 cap1 mem1 p1 p1' a1
    S2 (PB2 : parsebuf S2) mo2 cap2 mem2 p2 a2,
  pl_ok pl -> p_cfg p1 = c -> p_cfg p2 = c -> configured c w ->
  ws_regs_user w < 2 ^ 64 -> ws_regs_intr w < 2 ^ 64 ->
  source PB1 mo1 fin cap1 mem1 p1 l a1 -> source PB2 mo2 fin2 cap2 mem2 p2 (l ++ x) a2 ->
  tame pl c mo1 a1 l -> tame pl c mo2 a2 (l ++ x) ->
  gives pl PB1 p1 (inl e) p1' -> e <> fin -> exists p2', gives pl PB2 p2 (inl e) p2'.
Proof.
  intros pl c w l x e fin fin2 S1 PB1 mo1 cap1 mem1 p1 p1' a1 S2 PB2 mo2 cap2 mem2 p2 a2
    Hpl E1 E2 Hw Hu Hi H1 H2 T1 T2 G Hf.
  eapply (C68_final pl c w l x e fin fin2 S1 PB1 mo1 cap1 mem1 p1 a1 S2 PB2 mo2 cap2 mem2 p2 a2);
    try eassumption; [|now exists p1'].
  rewrite <- E1 in *. set (o := order_of pl (c_endian (p_cfg p1))) in *.
  assert (N : ~ ~ all_there o l).
  { intros D.
    destruct (C68_cut_short pl S1 PB1 mo1 fin cap1 mem1 w p1 l a1 Hpl Hw Hu Hi H1 T1 D) as (p' & G2).
    destruct (gives_once _ _ _ _ _ _ _ _ G G2) as [E _]. injection E as E. contradiction. }
  unfold all_there in *. lia.
Qed.

(** No, as bodies get an error like that for the end of the data when they are cut short. *)
Theorem C68_refuted : exists l,
  all_there LE l /\
  source slice_buf Whole eof_error 100 (memory_of 4096 l) (on_slice 4096 l ex_cfg0) l 4096 /\
  (forall x, bytes x -> len x < 2 ^ 60 ->
   exists p', gives pl64 slice_buf (on_slice 4096 (l ++ x) ex_cfg0) (inl eof_error) p').
Proof.
  exists (w_header LE 2 0 16 ++ w64 LE 7).
  split; [split; vm_compute; discriminate|]. split.
  { apply slice_source; [| | |apply memory_of_at]; try (vm_compute; congruence). repeat constructor. }
  intros x Hx Hl. set (l := w_header LE 2 0 16 ++ w64 LE 7).
  assert (L : len (l ++ x) = 16 + len x) by (rewrite len_app; reflexivity).
  apply (C67_record_partial pl64 _ slice_buf Whole eof_error (len (l ++ x)) (memory_of 4096 (l ++ x)) ex_set0 _ (l ++ x) 4096).
  - apply platforms_ok.
  - repeat split.
  - vm_compute; reflexivity.
  - vm_compute; reflexivity.
  - apply slice_source; [|lia|lia|apply memory_of_at].
    unfold bytes. apply Forall_app. split; [repeat constructor|exact Hx].
  - split; [|left]; change (from_order _ (take 4 (l ++ x))) with 2; [discriminate|split; discriminate].
  - change (order_of pl64 _) with LE.
    rewrite (said_of_record _ _ _ _ _ eof_error) by (split; vm_compute; discriminate).
    vm_compute. reflexivity.
Qed.

(** The first 20 bytes of a LOST record, from a file which then cannot be read any more, and
    the record above from there. *)
Example C68_example :
  let fin := reader_fin (Some (5, false)) in
  let cut := w_header LE 2 0 24 ++ zeros 12 in
  let short := w_header LE 2 0 16 ++ w64 LE 7 in
  let from l := new_parser (mkReader [] [l] (Some (5, false))) ex_cfg0 in
  ~ about_record fin /\ ~ all_there LE cut /\ all_there LE short /\
  (forall cap mem, 16384 <= cap -> source bufreader_buf NoExt fin cap mem (from cut) cut 0) /\
  (exists p', gives pl64 bufreader_buf (from cut) (inl fin) p') /\
  (exists p', gives pl64 bufreader_buf (from short) (inl eof_error) p').
Proof.
  cbv zeta. split; [|split; [|split; [|split; [|split]]]].
  - intros [H|(k & m & H)]; discriminate H.
  - intros [_ H]. vm_compute in H. now apply H.
  - split; vm_compute; discriminate.
  - intros cap mem Hc.
    apply (reader_source [] [w_header LE 2 0 24 ++ zeros 12] (Some (5, false)));
      [exact Hc| | |]; try (vm_compute; congruence); repeat constructor; discriminate.
  - eexists; intros O V; rewrite record_eq; vm_compute; reflexivity.
  - eexists; intros O V; rewrite record_eq; vm_compute; reflexivity.
Qed.

Print Assumptions C67_record_partial.
Print Assumptions C67_accepted_partial.
Print Assumptions C67_agree.
Print Assumptions C67_sample_partial.
Print Assumptions C67_attr.
Print Assumptions C67_value.
Print Assumptions C67_group.
Print Assumptions C68_cut_short.
Print Assumptions C68_told_partial.
Print Assumptions C68_final.
Print Assumptions C68_stays.
Print Assumptions C68_refuted.
