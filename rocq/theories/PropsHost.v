(** Theorems: the same recording read on different hosts (C74). *)
From Coq Require Import NArith List Bool Lia.
From Verif Require Import Base BaseFacts Types Platform Config Buf Parser Contract Flat Refine.
From Verif Require Import Instances Prims Slices Records Sample Record Attr Views RefRecords.
From Verif Require Import RefFrame RefTop Wire Codec Roundtrip ConfFacts Spec SameFacts.
From Verif Require Import AttrFacts Accept AcceptFacts AcceptRecord Hosts ExData.
From Verif Require Import AcceptAttr RoundFacts FrameFacts PropsFrame PropsSame PropsAttr PropsAccept.
Import ListNotations.
Open Scope N_scope.

(** The configurations on two hosts say the same: they are equal but for the byte order,
    and that is the same too though it may be named otherwise, as by [Native] on one and
    [Little] on the other. *)
Definition same_data (pl pl' : platform) (c c' : config) : Prop :=
  c_flags c = c_flags c' /\ c_regs_user c = c_regs_user c' /\ c_regs_intr c = c_regs_intr c' /\
  order_of pl (c_endian c) = order_of pl' (c_endian c').

(** The data is in the byte order of the host. *)
Definition at_home (pl : platform) (c : config) : Prop := order_of pl (c_endian c) = pl_host pl.

Lemma home_eqb : forall pl c, order_eqb (order_of pl (c_endian c)) (pl_host pl) = true <-> at_home pl c.
Proof. intros pl c. unfold at_home. destruct (order_of pl (c_endian c)), (pl_host pl); now split. Qed.

Lemma same_alike : forall pl pl' c c', same_data pl pl' c c' -> alike pl pl' (order_of pl (c_endian c)) c c'.
Proof. intros pl pl' c c' (H1 & H2 & H3 & H4). now repeat split. Qed.

Lemma same_configured : forall pl pl' c c' w, same_data pl pl' c c' -> configured c w -> configured c' w.
Proof.
  intros pl pl' c c' w (H1 & H2 & H3 & _). unfold configured, sample_type, read_format, sample_id_all, branch_hw_index.
  now rewrite H1, H2, H3.
Qed.

Lemma flat_elsewhere : forall pl pl' c c' fin l strict, pl_ok pl' -> bytes l -> same_data pl pl' c c' ->
  pl_bits pl' <= pl_bits pl -> (at_home pl' c' -> at_home pl c) ->
  (strict = true -> pl_bits pl = pl_bits pl' /\ (at_home pl c -> at_home pl' c')) ->
  match f_record pl (mkEnv c fin) l 0, f_record pl' (mkEnv c' fin) l 0 with
  | FOk x l1 k _, FOk y l2 k' _ => x = y /\ l1 = l2 /\ k = k'
  | FErr e l1 k _, FErr e' l2 k' _ => strict = true -> e = e' /\ l1 = l2 /\ k = k'
  | FErr _ _ _ _, FOk _ _ _ _ => strict = false
  | FOk _ _ _ _, FErr _ _ _ _ => False
  end.
Proof.
  intros pl pl' c c' fin l strict Hpl Hb Hc Hbits Hh Hs.
  pose proof (same_alike _ _ _ _ Hc) as Ha.
  assert (Ho : order_of pl' (c_endian c') = order_of pl (c_endian c)) by apply Ha.
  assert (N1 : order_eqb (order_of pl (c_endian c)) (pl_host pl') = true -> order_eqb (order_of pl (c_endian c)) (pl_host pl) = true).
  { intros E. apply home_eqb, Hh, home_eqb. now rewrite Ho. }
  assert (N2 : strict = true -> order_eqb (order_of pl (c_endian c)) (pl_host pl) = order_eqb (order_of pl (c_endian c)) (pl_host pl')
                                /\ pl_bits pl = pl_bits pl').
  { intros E. destruct (Hs E) as [E1 E2]. split; [|exact E1].
    destruct (order_eqb _ (pl_host pl)) eqn:E3.
    - symmetry. rewrite <- Ho. apply home_eqb, E2, home_eqb. exact E3.
    - destruct (order_eqb _ (pl_host pl')) eqn:E4; [|reflexivity]. discriminate (N1 eq_refl). }
  pose proof (near_record pl pl' (order_of pl (c_endian c)) strict (len l) Hpl N1 Hbits N2
                (mkEnv c fin) (mkEnv c' fin) l 0 (conj Ha eq_refl) Hb (N.le_refl _)) as H.
  destruct (f_record pl _ l 0), (f_record pl' _ l 0); try exact H. now destruct H as (? & ? & _ & _ & ?).
Qed.

(** ** C74, on hosts of the same width both of which, or neither, have the byte order of
    the data: everything is read alike, and refused for the same reason. *)
Theorem C74_same_kind :
  forall pl1 pl2 fin l S1 (PB1 : parsebuf S1) mo1 cap1 mem1 p1 a1 S2 (PB2 : parsebuf S2) mo2 cap2 mem2 p2 a2,
  pl_ok pl1 -> pl_ok pl2 -> pl_bits pl1 = pl_bits pl2 ->
  same_data pl1 pl2 (p_cfg p1) (p_cfg p2) -> (at_home pl1 (p_cfg p1) <-> at_home pl2 (p_cfg p2)) ->
  source PB1 mo1 fin cap1 mem1 p1 l a1 -> source PB2 mo2 fin cap2 mem2 p2 l a2 ->
  tame pl1 (p_cfg p1) mo1 a1 l -> tame pl2 (p_cfg p2) mo2 a2 l ->
  exists n r1 r2 p1' p2',
    gives pl1 PB1 p1 r1 p1' /\ gives pl2 PB2 p2 r2 p2' /\ same_result r1 r2 /\
    moved PB1 mo1 fin cap1 mem1 l a1 p1 n p1' /\ moved PB2 mo2 fin cap2 mem2 l a2 p2 n p2'.
Proof.
  intros pl1 pl2 fin l S1 PB1 mo1 cap1 mem1 p1 a1 S2 PB2 mo2 cap2 mem2 p2 a2 Hp1 Hp2 Eb Hc Hh H1 H2 T1 T2.
  pose proof (gives_flat pl1 S1 PB1 mo1 fin cap1 mem1 p1 l a1 Hp1 H1 T1) as G1.
  pose proof (gives_flat pl2 S2 PB2 mo2 fin cap2 mem2 p2 l a2 Hp2 H2 T2) as G2.
  assert (Hb : bytes l) by (destruct H1 as (? & _ & _ & Hwf); apply Hwf).
  pose proof (flat_elsewhere pl1 pl2 (p_cfg p1) (p_cfg p2) fin l true Hp2 Hb Hc ltac:(rewrite Eb; apply N.le_refl) (proj2 Hh)
                (fun _ => conj Eb (proj1 Hh))) as X.
  destruct (f_record pl1 _ l 0) as [[b md] l1 n ev|e l1 n ev], (f_record pl2 _ l 0) as [[b2 md2] l2 n2 ev2|e2 l2 n2 ev2];
    try discriminate X; try contradiction X.
  - destruct X as (E & _ & <-). injection E as <- <-.
    destruct G1 as (x1 & p1' & G1 & V1 & M1), G2 as (x2 & p2' & G2 & V2 & M2).
    exists n, (inr (x1, md)), (inr (x2, md)), p1', p2'. repeat split; try assumption; try apply M1; try apply M2. congruence.
  - destruct (X eq_refl) as (<- & _ & <-). destruct G1 as (p1' & G1 & M1), G2 as (p2' & G2 & M2).
    exists n, (inl e), (inl e), p1', p2'. now repeat split; try assumption; try apply M1; try apply M2.
Qed.

(** What a host with pointers at least as wide, and with the byte order of the data if the
    other one has it, reads, the other one reads alike.  In particular what a 64-bit host
    makes of data of its own byte order, every host makes of it.

    Full statement: the two hosts always read alike.  Missing: the cases in which the other
    host reads more; they are real, see the theorems below. *)
Theorem C74_elsewhere_partial :
  forall pl1 pl2 fin l S1 (PB1 : parsebuf S1) mo1 cap1 mem1 p1 a1 S2 (PB2 : parsebuf S2) mo2 cap2 mem2 p2 a2 b md p1',
  pl_ok pl1 -> pl_ok pl2 -> pl_bits pl2 <= pl_bits pl1 ->
  same_data pl1 pl2 (p_cfg p1) (p_cfg p2) -> (at_home pl2 (p_cfg p2) -> at_home pl1 (p_cfg p1)) ->
  source PB1 mo1 fin cap1 mem1 p1 l a1 -> source PB2 mo2 fin cap2 mem2 p2 l a2 ->
  tame pl1 (p_cfg p1) mo1 a1 l -> tame pl2 (p_cfg p2) mo2 a2 l ->
  gives pl1 PB1 p1 (inr (b, md)) p1' ->
  exists n b' p2', gives pl2 PB2 p2 (inr (b', md)) p2' /\ view_body b' = view_body b /\
    moved PB1 mo1 fin cap1 mem1 l a1 p1 n p1' /\ moved PB2 mo2 fin cap2 mem2 l a2 p2 n p2'.
Proof.
  intros pl1 pl2 fin l S1 PB1 mo1 cap1 mem1 p1 a1 S2 PB2 mo2 cap2 mem2 p2 a2 b md p1' Hp1 Hp2 Eb Hc Hh H1 H2 T1 T2 G.
  pose proof (gives_flat pl1 S1 PB1 mo1 fin cap1 mem1 p1 l a1 Hp1 H1 T1) as G1.
  pose proof (gives_flat pl2 S2 PB2 mo2 fin cap2 mem2 p2 l a2 Hp2 H2 T2) as G2.
  assert (Hb : bytes l) by (destruct H1 as (? & _ & _ & Hwf); apply Hwf).
  pose proof (flat_elsewhere pl1 pl2 (p_cfg p1) (p_cfg p2) fin l false Hp2 Hb Hc Eb Hh ltac:(discriminate)) as X.
  destruct (f_record pl1 _ l 0) as [[b1 md1] l1 n ev|e l1 n ev].
  - destruct G1 as (x1 & q1 & G1 & V1 & M1). destruct (gives_once _ _ _ _ _ _ _ _ G G1) as [E <-]. injection E as <- <-.
    destruct (f_record pl2 _ l 0) as [[b2 md2] l2 n2 ev2|e2 l2 n2 ev2]; [|contradiction].
    destruct X as (E & _ & <-). injection E as <- <-. destruct G2 as (x2 & p2' & G2 & V2 & M2).
    exists n, x2, p2'. repeat split; try assumption; try apply M1; try apply M2. congruence.
  - destruct G1 as (q1 & G1 & _). destruct (gives_once _ _ _ _ _ _ _ _ G G1) as [E _]. discriminate.
Qed.

(** The same of the layouts: bytes which are a record for the one host are it for the
    other. *)
Theorem C74_layout :
  forall pl1 pl2 c1 c2 w m si b bs,
  pl_ok pl1 -> pl_ok pl2 -> pl_bits pl2 <= pl_bits pl1 -> same_data pl1 pl2 c1 c2 ->
  (at_home pl2 c2 -> at_home pl1 c1) ->
  configured c1 w -> ws_regs_user w < 2 ^ 64 -> ws_regs_intr w < 2 ^ 64 -> bytes bs ->
  is_record (pl_bits pl1) (pl_host pl1) (order_of pl1 (c_endian c1)) w m si b bs ->
  exists b', w_type b' = w_type b /\ expected b' = expected b /\
    is_record (pl_bits pl2) (pl_host pl2) (order_of pl2 (c_endian c2)) w m si b' bs.
Proof.
  intros pl1 pl2 c1 c2 w m si b bs Hp1 Hp2 Eb Hc Hh Hw Hu Hi Hb Hr.
  destruct (record_here pl1 (mkEnv c1 eof_error) w bs m si b bs [] Hp1 Hw Hu Hi Hb (eq_sym (app_nil_r _)) Hr) as (ev & E).
  pose proof (flat_elsewhere pl1 pl2 c1 c2 eof_error bs false Hp2 Hb Hc Eb Hh ltac:(discriminate)) as X.
  rewrite E in X. destruct (f_record pl2 (mkEnv c2 eof_error) bs 0) as [y l2 k ev2|] eqn:E2; [|contradiction].
  destruct X as (<- & <- & <-).
  destruct (Snd_record pl2 Hp2 (mkEnv c2 eof_error) (len bs) w (same_configured _ _ _ _ _ Hc Hw) Hu Hi bs 0 _ _ _ _ Hb (N.le_refl _) E2)
    as (bs' & E3 & _ & m' & si' & b' & E4 & Hr').
  rewrite app_nil_r in E3. subst bs'. injection E4 as E5 E6 E7 E8. subst m' si'. exists b'. now repeat split.
Qed.

(** So whole recordings travel. *)
Lemma records_elsewhere : forall pl1 pl2 c1 c2 w vs bs,
  pl_ok pl1 -> pl_ok pl2 -> pl_bits pl2 <= pl_bits pl1 -> same_data pl1 pl2 c1 c2 ->
  (at_home pl2 c2 -> at_home pl1 c1) ->
  configured c1 w -> ws_regs_user w < 2 ^ 64 -> ws_regs_intr w < 2 ^ 64 -> bytes bs ->
  are_records (pl_bits pl1) (pl_host pl1) (order_of pl1 (c_endian c1)) w vs bs ->
  are_records (pl_bits pl2) (pl_host pl2) (order_of pl2 (c_endian c2)) w vs bs.
Proof.
  intros pl1 pl2 c1 c2 w vs bs Hp1 Hp2 Eb Hc Hh Hw Hu Hi Hb A.
  induction A as [|m si b vs b1 b2 Hr A IH]; [constructor|].
  unfold bytes in Hb. rewrite Forall_app in Hb. destruct Hb as [Hb1 Hb2].
  destruct (C74_layout pl1 pl2 c1 c2 w m si b b1 Hp1 Hp2 Eb Hc Hh Hw Hu Hi Hb1 Hr) as (b' & <- & <- & Hr').
  constructor; [exact Hr'|now apply IH].
Qed.

Theorem C74_stream_partial :
  forall pl1 pl2 fin1 fin2 w l S1 (PB1 : parsebuf S1) mo1 cap1 mem1 p1 a1 S2 (PB2 : parsebuf S2) mo2 cap2 mem2 p2 a2 xs p1' n,
  pl_ok pl1 -> pl_ok pl2 -> pl_bits pl2 <= pl_bits pl1 ->
  same_data pl1 pl2 (p_cfg p1) (p_cfg p2) -> (at_home pl2 (p_cfg p2) -> at_home pl1 (p_cfg p1)) ->
  configured (p_cfg p1) w -> ws_regs_user w < 2 ^ 64 -> ws_regs_intr w < 2 ^ 64 ->
  source PB1 mo1 fin1 cap1 mem1 p1 l a1 -> source PB2 mo2 fin2 cap2 mem2 p2 l a2 ->
  tame_all pl1 w (p_cfg p1) mo1 a1 l -> tame_all pl2 w (p_cfg p2) mo2 a2 l ->
  gives_all pl1 PB1 p1 xs p1' -> moved PB1 mo1 fin1 cap1 mem1 l a1 p1 n p1' ->
  exists ys p2', gives_all pl2 PB2 p2 ys p2' /\ map seen ys = map seen xs /\ moved PB2 mo2 fin2 cap2 mem2 l a2 p2 n p2'.
Proof.
  intros pl1 pl2 fin1 fin2 w l S1 PB1 mo1 cap1 mem1 p1 a1 S2 PB2 mo2 cap2 mem2 p2 a2 xs p1' n
    Hp1 Hp2 Eb Hc Hh Hw Hu Hi H1 H2 T1 T2 G M.
  destruct (proj1 (C65_stream_partial pl1 S1 PB1 mo1 fin1 cap1 mem1 w p1 l a1 (map seen xs) n Hp1 Hw Hu Hi H1 T1)) as [Hn A].
  { now exists xs, p1'. }
  assert (Hb : bytes l) by (destruct H1 as (? & _ & _ & Hwf); apply Hwf).
  apply (C65_stream_partial pl2 S2 PB2 mo2 fin2 cap2 mem2 w p2 l a2 (map seen xs) n Hp2 (same_configured _ _ _ _ _ Hc Hw) Hu Hi H2 T2).
  split; [exact Hn|]. apply (records_elsewhere pl1 pl2 (p_cfg p1) (p_cfg p2)); try assumption. now apply bytes_take.
Qed.

(** Records without arrays, that is all but SAMPLE and NAMESPACES, are read and refused
    alike on any two hosts. *)
Theorem C74_plain :
  forall pl1 pl2 fin l S1 (PB1 : parsebuf S1) mo1 cap1 mem1 p1 a1 S2 (PB2 : parsebuf S2) mo2 cap2 mem2 p2 a2,
  let t := from_order (order_of pl1 (c_endian (p_cfg p1))) (take 4 l) in
  pl_ok pl1 -> pl_ok pl2 -> same_data pl1 pl2 (p_cfg p1) (p_cfg p2) -> t <> 9 -> t <> 16 ->
  source PB1 mo1 fin cap1 mem1 p1 l a1 -> source PB2 mo2 fin cap2 mem2 p2 l a2 ->
  tame pl1 (p_cfg p1) mo1 a1 l -> tame pl2 (p_cfg p2) mo2 a2 l ->
  exists n r1 r2 p1' p2',
    gives pl1 PB1 p1 r1 p1' /\ gives pl2 PB2 p2 r2 p2' /\ same_result r1 r2 /\
    moved PB1 mo1 fin cap1 mem1 l a1 p1 n p1' /\ moved PB2 mo2 fin cap2 mem2 l a2 p2 n p2'.
Proof.
  intros pl1 pl2 fin l S1 PB1 mo1 cap1 mem1 p1 a1 S2 PB2 mo2 cap2 mem2 p2 a2 t Hp1 Hp2 Hc H9 H16 H1 H2 T1 T2.
  pose proof (gives_flat pl1 S1 PB1 mo1 fin cap1 mem1 p1 l a1 Hp1 H1 T1) as G1.
  pose proof (gives_flat pl2 S2 PB2 mo2 fin cap2 mem2 p2 l a2 Hp2 H2 T2) as G2.
  assert (Hb : bytes l) by (destruct H1 as (? & _ & _ & Hwf); apply Hwf).
  pose proof (same_alike _ _ _ _ Hc) as Ha. set (o := order_of pl1 (c_endian (p_cfg p1))) in *.
  assert (X : match f_record pl1 (mkEnv (p_cfg p1) fin) l 0, f_record pl2 (mkEnv (p_cfg p2) fin) l 0 with
              | FOk x l1 k _, FOk y l2 k' _ => l1 = l2 /\ k = k' /\ bytes l1 /\ len l1 <= len l /\ x = y
              | FErr e l1 k _, FErr e' l2 k' _ => true = true -> e = e' /\ l1 = l2 /\ k = k'
              | FErr _ _ _ _, FOk _ _ _ _ => true = false
              | FOk _ _ _ _, FErr _ _ _ _ => False
              end).
  { unfold f_record.
    pose proof (near_header pl1 pl2 o true (len l) (mkEnv (p_cfg p1) fin) (mkEnv (p_cfg p2) fin) l 0
                  (conj Ha eq_refl) Hb (N.le_refl _)) as X.
    unfold fbind.
    destruct (f_header pl1 (mkEnv (p_cfg p1) fin) l 0) as [h l1 k ev|e l1 k ev] eqn:E1,
      (f_header pl2 (mkEnv (p_cfg p2) fin) l 0) as [h2 l2 k2 ev2|e2 l2 k2 ev2]; try exact X; try contradiction; try discriminate.
    destruct X as (<- & <- & Hb1 & Hl1 & <-).
    assert (Et : h_type h = t).
    { revert E1. unfold f_header, f_uint, fbind, f_take, fcfg, fret, t. destruct l as [|x l]; [discriminate|].
      destruct (_ <? 4); [discriminate|]. fold o. cbn [fe_cfg].
      repeat match goal with |- context [match ?l with [] => _ | _ :: _ => _ end] => destruct l; [discriminate|] end.
      repeat match goal with |- context [if ?b then _ else _] => destruct b; [discriminate|] end.
      intros E. injection E as <- _ _ _. reflexivity. }
    rewrite <- Et in H9, H16.
    pose proof (near_plain_with_header pl1 pl2 o true (len l) h H9 H16 (mkEnv (p_cfg p1) fin) (mkEnv (p_cfg p2) fin) l1 k
                  (conj Ha eq_refl) Hb1 Hl1) as X.
    destruct (f_record_with_header pl1 h _ l1 k), (f_record_with_header pl2 h _ l1 k); exact X. }
  destruct (f_record pl1 _ l 0) as [[b md] l1 n ev|e l1 n ev], (f_record pl2 _ l 0) as [[b2 md2] l2 n2 ev2|e2 l2 n2 ev2];
    try discriminate X; try contradiction X.
  - destruct X as (_ & <- & _ & _ & E). injection E as <- <-.
    destruct G1 as (x1 & p1' & G1 & V1 & M1), G2 as (x2 & p2' & G2 & V2 & M2).
    exists n, (inr (x1, md)), (inr (x2, md)), p1', p2'. repeat split; try assumption; try apply M1; try apply M2. congruence.
  - destruct (X eq_refl) as (<- & _ & <-). destruct G1 as (p1' & G1 & M1), G2 as (p2' & G2 & M2).
    exists n, (inl e), (inl e), p1', p2'. now repeat split; try assumption; try apply M1; try apply M2.
Qed.

(** And so are attrs. *)
Theorem C74_attr :
  forall pl1 pl2 fin l S1 (PB1 : parsebuf S1) mo1 cap1 mem1 p1 a1 S2 (PB2 : parsebuf S2) mo2 cap2 mem2 p2 a2,
  pl_ok pl1 -> pl_ok pl2 -> same_data pl1 pl2 (p_cfg p1) (p_cfg p2) ->
  source PB1 mo1 fin cap1 mem1 p1 l a1 -> source PB2 mo2 fin cap2 mem2 p2 l a2 ->
  exists n l' p1' p2', fst (parse_attr pl1 PB1 p1) = fst (parse_attr pl2 PB2 p2) /\
    p1' = snd (parse_attr pl1 PB1 p1) /\ p2' = snd (parse_attr pl2 PB2 p2) /\
    after PB1 mo1 fin cap1 mem1 p1 n l' a1 p1' /\ after PB2 mo2 fin cap2 mem2 p2 n l' a2 p2'.
Proof.
  intros pl1 pl2 fin l S1 PB1 mo1 cap1 mem1 p1 a1 S2 PB2 mo2 cap2 mem2 p2 a2 Hp1 Hp2 Hc H1 H2.
  pose proof (attr_run pl1 S1 PB1 mo1 fin cap1 mem1 p1 l a1 Hp1 H1) as R1.
  pose proof (attr_run pl2 S2 PB2 mo2 fin cap2 mem2 p2 l a2 Hp2 H2) as R2.
  pose proof (noev_attr pl1 (mkEnv (p_cfg p1) fin) l 0) as N1.
  pose proof (noev_attr pl2 (mkEnv (p_cfg p2) fin) l 0) as N2.
  assert (Hb : bytes l) by (destruct H1 as (? & _ & _ & Hwf); apply Hwf).
  pose proof (near_attr pl1 pl2 (order_of pl1 (c_endian (p_cfg p1))) true (len l) (mkEnv (p_cfg p1) fin) (mkEnv (p_cfg p2) fin)
                l 0 (conj (same_alike _ _ _ _ Hc) eq_refl) Hb (N.le_refl _)) as X.
  destruct (f_attr pl1 _ l 0) as [x l1 n ev|e l1 n ev], (f_attr pl2 _ l 0) as [y l2 n2 ev2|e2 l2 n2 ev2];
    try discriminate X; try contradiction X; subst ev ev2; destruct R1 as (p1' & -> & A1), R2 as (p2' & -> & A2).
  - destruct X as (<- & <- & _ & _ & <-). now exists n, l1, p1', p2'.
  - destruct (X eq_refl) as (<- & <- & <-). now exists n, l1, p1', p2'.
Qed.

(** Where the full statement fails.  A sample which ends with an empty callchain is refused
    by a host of its byte order and read by one of the other. *)
Definition plbe : platform := mkPlatform BE 64 Align8.
Definition chain_cfg (e : endian) : config := mkConfig (cf_new 0 (2 ^ 5) false false 0) 0 0 e.
Definition chain_record (n : N) (l : list N) : list N := w_header LE 9 0 (16 + len l) ++ w64 LE n ++ l.

Lemma chain_source : forall e n l mem, len l <= 8 -> bytes l -> n < 2 ^ 64 ->
  source bufreader_buf NoExt eof_error 16384 mem (reader_of [chain_record n l] (chain_cfg e)) (chain_record n l) 0.
Proof.
  intros e n l mem Hl Hb Hn.
  pose proof (reader_source [] [chain_record n l] None (chain_cfg e) 16384 mem) as H. cbn [concat app] in H.
  rewrite app_nil_r in H. apply H; clear H.
  - apply N.le_refl.
  - unfold chain_record, bytes. unfold w_header. rewrite !Forall_app. repeat split; try exact Hb; apply enc_bytes.
  - unfold chain_record. rewrite !len_app, w_header_len, w64_len. lia.
  - repeat constructor. discriminate.
Qed.

Theorem C74_empty_refuted : exists l mem,
  same_data pl64 plbe (chain_cfg Native) (chain_cfg Little) /\
  source bufreader_buf NoExt eof_error 16384 mem (reader_of [l] (chain_cfg Native)) l 0 /\
  source bufreader_buf NoExt eof_error 16384 mem (reader_of [l] (chain_cfg Little)) l 0 /\
  fst (parse_record_enum pl64 bufreader_buf (reader_of [l] (chain_cfg Native))) = Err eof_error /\
  exists s, fst (parse_record_enum plbe bufreader_buf (reader_of [l] (chain_cfg Little))) = Ok (RBody (BSample s)) /\
    option_map cow_list (s_callchain s) = Some [].
Proof.
  exists (chain_record 0 []), (fun _ => 0).
  split; [repeat split|]. split; [apply chain_source; [cbn; lia|constructor|lia]|].
  split; [apply chain_source; [cbn; lia|constructor|lia]|].
  split; [vm_compute; reflexivity|]. eexists. split; vm_compute; reflexivity.
Qed.

(** A count of more than 32 bits is cut where pointers have 32 bits. *)
Theorem C74_width_refuted : exists l mem,
  same_data pl64 pl32 (chain_cfg Native) (chain_cfg Native) /\
  source bufreader_buf NoExt eof_error 16384 mem (reader_of [l] (chain_cfg Native)) l 0 /\
  fst (parse_record_enum pl64 bufreader_buf (reader_of [l] (chain_cfg Native))) = Err eof_error /\
  exists s, fst (parse_record_enum pl32 bufreader_buf (reader_of [l] (chain_cfg Native))) = Ok (RBody (BSample s)) /\
    option_map cow_list (s_callchain s) = Some [77].
Proof.
  exists (chain_record (2 ^ 32 + 1) (w64 LE 77)), (fun _ => 0).
  split; [repeat split|]. split; [apply chain_source; [rewrite w64_len; lia|apply enc_bytes|lia]|].
  split; [vm_compute; reflexivity|]. eexists. split; vm_compute; reflexivity.
Qed.

(** And where both refuse, the reasons may differ. *)
Theorem C74_reason_refuted : exists l mem,
  same_data pl64 plbe (chain_cfg Native) (chain_cfg Little) /\
  source bufreader_buf NoExt eof_error 16384 mem (reader_of [l] (chain_cfg Native)) l 0 /\
  source bufreader_buf NoExt eof_error 16384 mem (reader_of [l] (chain_cfg Little)) l 0 /\
  fst (parse_record_enum pl64 bufreader_buf (reader_of [l] (chain_cfg Native))) =
    Err (custom_error KInvalidRecord MsgSliceTooLong) /\
  fst (parse_record_enum plbe bufreader_buf (reader_of [l] (chain_cfg Little))) = Err eof_error.
Proof.
  exists (chain_record (2 ^ 61) (w64 LE 77)), (fun _ => 0).
  split; [repeat split|]. split; [apply chain_source; [rewrite w64_len; lia|apply enc_bytes|lia]|].
  split; [apply chain_source; [rewrite w64_len; lia|apply enc_bytes|lia]|].
  split; vm_compute; reflexivity.
Qed.

(** A sample with a callchain, read at home by a little-endian host and from a reader on a
    big-endian one. *)
Example C74_example :
  let l := chain_record 1 (w64 LE 77) in
  pl_ok pl64 /\ pl_ok plbe /\ same_data pl64 plbe (chain_cfg Native) (chain_cfg Little) /\
  at_home pl64 (chain_cfg Native) /\ ~ at_home plbe (chain_cfg Little) /\
  tame pl64 (chain_cfg Native) NoExt 0 l /\ tame plbe (chain_cfg Little) NoExt 0 l /\
  exists s, fst (parse_record_enum pl64 bufreader_buf (reader_of [l] (chain_cfg Native))) = Ok (RBody (BSample s)) /\
    fst (parse_record_enum plbe bufreader_buf (reader_of [l] (chain_cfg Little))) = Ok (RBody (BSample s)) /\
    option_map cow_list (s_callchain s) = Some [77].
Proof.
  cbv zeta. split; [now right|]. split; [now right|]. split; [repeat split|]. split; [reflexivity|].
  split; [discriminate|]. split; [split; [discriminate|right; right; now left]|].
  split; [split; [discriminate|right; right; now left]|].
  eexists. split; [vm_compute; reflexivity|]. split; vm_compute; reflexivity.
Qed.

Print Assumptions C74_same_kind.
Print Assumptions C74_elsewhere_partial.
Print Assumptions C74_layout.
Print Assumptions C74_stream_partial.
Print Assumptions C74_plain.
Print Assumptions C74_attr.
Print Assumptions C74_empty_refuted.
Print Assumptions C74_width_refuted.
Print Assumptions C74_reason_refuted.
