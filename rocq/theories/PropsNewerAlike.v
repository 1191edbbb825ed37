(** C90 between sources of one kind, which lend nothing or memory of one alignment: without the conditions of C03. *)
From Coq Require Import NArith List Bool Lia.
From Verif Require Import Base BaseFacts Types Platform Config Buf Parser Contract Flat Refine.
From Verif Require Import Instances Records Sample Record Views RefFrame RefTop Wire Codec Roundtrip RtRecord ConfFacts Spec SliceRecord SameFacts.
From Verif Require Import PokeFacts Copied Placed Slices ClientFacts ExData FrameFacts RoundFacts PropsFrame PropsSame PropsAttr PropsAccept PropsBorrow.
From Verif Require Import Matter PropsDepend Newer NewerFacts PropsNewer.
Import ListNotations.
Open Scope N_scope.

(** ** Where a parser stands does not matter *)
Definition even {B : Type} (x y : fout B) : Prop :=
  match x, y with
  | FOk b l _ _, FOk b' l' _ _ => b = b' /\ l = l'
  | FErr e l _ _, FErr e' l' _ _ => e = e' /\ l = l'
  | _, _ => False
  end.
Definition afloat {B : Type} (m : F B) : Prop := forall env l pos pos', even (m env l pos) (m env l pos').

Lemma afloat_bind : forall A B (m : F A) (k : A -> F B), afloat m -> (forall x, afloat (k x)) -> afloat (fbind m k).
Proof.
  intros A B m k Hm Hk env l pos pos'. unfold fbind. specialize (Hm env l pos pos').
  destruct (m env l pos) as [x l1 p1 e1|e l1 p1 e1], (m env l pos') as [y l2 p2 e2|e' l2 p2 e2]; cbn [even] in Hm; try contradiction.
  - destruct Hm as [-> ->]. specialize (Hk y env l2 p1 p2).
    destruct (k y env l2 p1), (k y env l2 p2); exact Hk.
  - exact Hm.
Qed.
Lemma afloat_ret : forall A (x : A), afloat (fret x).
Proof. intros A x env l pos pos'. split; reflexivity. Qed.
Lemma afloat_cfg : afloat fcfg.
Proof. intros env l pos pos'. split; reflexivity. Qed.
Lemma afloat_uint : forall pl n, afloat (f_uint pl n).
Proof.
  intros pl n. apply afloat_bind; [|intros; apply afloat_bind; [apply afloat_cfg|intros; apply afloat_ret]].
  intros env l pos pos'. unfold f_take. destruct l; [now split|]. destruct (_ <? n); now split.
Qed.
Lemma afloat_if : forall A b (m : F A), afloat m -> afloat (f_if b m).
Proof. intros A [] m H; [apply afloat_bind; [exact H|intros]|]; apply afloat_ret. Qed.
Lemma afloat_sample_id : forall pl, afloat (f_sample_id pl).
Proof.
  intros pl. unfold f_sample_id. apply afloat_bind; [apply afloat_cfg|]. intros c. cbv zeta.
  destruct (negb _); [apply afloat_ret|].
  repeat first [apply afloat_ret | apply afloat_if | apply afloat_uint | apply afloat_bind; [|intros]].
Qed.

(** ** Bodies with something appended *)
Lemma grows_poke : forall pl, grows (f_poke_raw pl).
Proof.
  intros pl. unfold f_poke_raw.
  repeat first [apply grows_uint | apply grows_take | apply grows_ret | apply grows_bind; [|intros]].
Qed.

Lemma grows_any_array : forall pl bad B (E : felem B) n, grows (g_array pl bad E n).
Proof.
  intros pl bad B E n c f1 f2 l x pos b' l' pos' ev H. unfold g_array in *. cbn [fe_cfg fe_fin] in *. cbv zeta in *.
  set (o := order_of pl (c_endian c)) in *. set (sz := n * fl_size E) in *.
  destruct (order_eqb o (pl_host pl) && (usize_max pl <? sz)); [discriminate|].
  destruct (order_eqb o (pl_host pl) && (len l =? 0)) eqn:E0; [discriminate|].
  replace (order_eqb o (pl_host pl) && (len (l ++ x) =? 0)) with false.
  2:{ symmetry. rewrite len_app. destruct (order_eqb o (pl_host pl)); [|reflexivity]. cbn [andb] in *.
      apply N.eqb_neq in E0. apply N.eqb_neq. lia. }
  rewrite len_app. destruct (N.ltb_spec (len l) sz) as [K|K]; [discriminate|].
  replace (len l + len x <? sz) with false by (symmetry; apply N.ltb_ge; lia).
  rewrite take_app_le, drop_app_le by lia.
  destruct (_ && bad pos); [|injection H as <- <- <- <-; reflexivity].
  rewrite len_app. destruct (N.ltb_spec (len (drop sz l)) sz) as [K2|K2]; [discriminate|].
  replace (len (drop sz l) + len x <? sz) with false by (symmetry; apply N.ltb_ge; lia).
  rewrite take_app_le, drop_app_le by lia. injection H as <- <- <- <-. reflexivity.
Qed.

Lemma grows_skip : forall n, grows (f_skip n).
Proof.
  intros n. unfold f_skip. destruct (n =? 0); [apply grows_ret|]. apply grows_bind; [apply grows_take|intros; apply grows_ret].
Qed.

Lemma grows_padded : forall B k (m : F B), grows m -> grows (f_padded k m).
Proof.
  intros B k m Hm c f1 f2 l x pos b' l' pos' ev H. unfold f_padded in *. unfold fbind at 1 in H. unfold fbind at 1.
  destruct (m (mkEnv c f1) l pos) as [b1 l1 pos1 ev1|] eqn:E1; [|discriminate].
  rewrite (Hm _ _ f2 _ x _ _ _ _ _ E1).
  destruct ((_ <~ f_skip _ ;; fret b1) (mkEnv c f1) l1 pos1) as [b2 l2 pos2 ev2|] eqn:E2; [|discriminate].
  assert (G : forall n, grows (_ <~ f_skip n ;; fret b1)) by (intros n; apply grows_bind; [apply grows_skip|intros; apply grows_ret]).
  rewrite (G _ _ _ f2 _ x _ _ _ _ _ E2). injection H as <- <- <- <-. reflexivity.
Qed.

Ltac grow := repeat first [apply grows_ret | apply grows_fail | apply grows_cfg | apply grows_uint | apply grows_take
  | apply grows_any_array | apply grows_padded | apply grows_if | apply grows_bind; [|intros] ].

Lemma grows_namespaces : forall pl bad, grows (g_namespaces pl bad).
Proof. intros. unfold g_namespaces. grow. Qed.
Lemma grows_values : forall pl bad, grows (g_sample_read pl bad).
Proof.
  intros. unfold g_sample_read, g_read_group, f_read_value. grow. cbv zeta.
  destruct (contains _ RF_GROUP); cbn [negb]; grow; cbv zeta; destruct (contains _ RF_GROUP); cbn [negb]; grow;
    (destruct (negb _); [apply grows_fail|]); grow; destruct (_ <? _); grow.
Qed.
Lemma grows_callchain : forall pl bad, grows (g_callchain pl bad).
Proof. intros. unfold g_callchain. grow. Qed.
Lemma grows_lbr : forall pl bad hw, grows (g_lbr pl bad hw).
Proof. intros. unfold g_lbr. grow. Qed.
Lemma grows_registers : forall pl bad mask, grows (g_registers pl bad mask).
Proof. intros. unfold g_registers. grow. Qed.
Lemma grows_raw : forall pl, grows (f_raw pl).
Proof. intros. unfold f_raw. grow. Qed.
Lemma grows_stack : forall pl, grows (f_stack_user pl).
Proof. intros. unfold f_stack_user. grow; [destruct (_ =? 0); grow|]. destruct (_ <? _); grow. Qed.
Lemma grows_sample_aux : forall pl, grows (f_sample_aux pl).
Proof. intros. unfold f_sample_aux. grow. Qed.

Lemma grows_sample : forall pl bad, grows (g_sample pl bad).
Proof.
  intros. unfold g_sample. apply grows_bind; [apply grows_cfg|]. intros c. cbv zeta.
  repeat (first [apply grows_ret | apply grows_bind; [apply grows_if;
    first [apply grows_values | apply grows_callchain | apply grows_lbr | apply grows_registers | apply grows_raw
      | apply grows_stack | apply grows_sample_aux | apply grows_uint | grow] | intros ?]]).
Qed.

(** ** Records with something appended *)
Lemma metadata_longer : forall pl c fin fin' t m core tail extra x1 x2 pos st md l1 n1 ev1, t <> 1 ->
  len tail = (if t =? 9 then 0 else estimate_len c) ->
  f_metadata_with_header pl (mkHeader t m (8 + len core + len tail)) (mkEnv c fin) (core ++ tail ++ x1) pos =
    FOk (st, md) l1 n1 ev1 ->
  st = (core, pos) /\
  exists l2 n2 ev2,
  f_metadata_with_header pl (mkHeader t m (8 + len core + len extra + len tail)) (mkEnv c fin') (core ++ extra ++ tail ++ x2) pos =
    FOk ((core ++ extra, pos), md) l2 n2 ev2.
Proof.
  intros pl c fin fin' t m core tail extra x1 x2 pos st md l1 n1 ev1 H1 Ht H. apply N.eqb_neq in H1.
  assert (K : forall core x fin0, f_metadata_with_header pl (mkHeader t m (8 + len core + len tail)) (mkEnv c fin0) (core ++ tail ++ x) pos =
    if t =? 9 then FOk ((core, pos), mkMeta t m sample_id_default) x (pos + (len core + len tail)) []
    else match f_sample_id pl (mkEnv c eof_error) tail (pos + len core) with
    | FOk si _ _ ev => FOk ((core, pos), mkMeta t m si) x (pos + (len core + len tail)) ev
    | FErr e _ _ ev => FErr e x (pos + (len core + len tail)) ev
    end).
  { clear - Ht H1. intros core x fin0. unfold f_metadata_with_header. cbn [h_size h_type h_misc].
    replace (8 + len core + len tail <? 8) with false by (symmetry; apply N.ltb_ge; lia).
    replace (8 + len core + len tail - 8) with (len core + len tail) by lia.
    unfold fbind at 1. rewrite (app_assoc core), split_app_1 by (rewrite len_app; lia).
    rewrite take_all, drop_all by (rewrite len_app; lia). cbn [app].
    rewrite H1. cbn [orb]. destruct (t =? 9).
    { apply len_0 in Ht. subst tail. rewrite app_nil_r. reflexivity. }
    unfold fbind at 1, fcfg. cbn [fe_cfg].
    replace (len core + len tail <? estimate_len c) with false by (symmetry; apply N.ltb_ge; lia).
    unfold fbind at 1, f_sub. cbn [fst snd].
    replace (len core + len tail - estimate_len c) with (len core) by lia.
    unfold fbind at 1. rewrite split_app_1 by lia.
    rewrite take_all, drop_all by lia. cbn [app]. unfold fbind at 1, fret.
    destruct (f_sample_id pl (mkEnv c eof_error) tail (pos + len core)); cbn [app fst snd]; rewrite ?app_nil_r; reflexivity. }
  rewrite K in H. specialize (K (core ++ extra) x2 fin'). rewrite len_app, N.add_assoc, <- app_assoc in K. rewrite K.
  destruct (t =? 9); [injection H as <- <- _ _ _; split; [reflexivity|]; do 3 eexists; reflexivity|].
  pose proof (afloat_sample_id pl (mkEnv c eof_error) tail (pos + len core) (pos + (len core + len extra))) as Hev.
  destruct (f_sample_id pl (mkEnv c eof_error) tail (pos + len core)) as [si l0 p0 e0|]; [|discriminate].
  injection H as <- <- _ _ _. split; [reflexivity|].
  destruct (f_sample_id pl (mkEnv c eof_error) tail (pos + (len core + len extra))); cbn [even] in Hev; [|contradiction].
  destruct Hev as [<- _]. do 3 eexists. reflexivity.
Qed.

Lemma with_header_longer : forall pl fb c fin fin' t m core tail extra x1 x2 pos v md l1 n1 ev1, t <> 1 -> grows (fb t) ->
  len tail = (if t =? 9 then 0 else estimate_len c) ->
  f_record_by pl fb (mkHeader t m (8 + len core + len tail)) (mkEnv c fin) (core ++ tail ++ x1) pos = FOk (v, md) l1 n1 ev1 ->
  (exists env l k l' k' ev, fb t env l k = FOk v l' k' ev) /\
  exists l2 n2 ev2,
  f_record_by pl fb (mkHeader t m (8 + len core + len extra + len tail)) (mkEnv c fin') (core ++ extra ++ tail ++ x2) pos =
    FOk (v, md) l2 n2 ev2.
Proof.
  intros pl fb c fin fin' t m core tail extra x1 x2 pos v md l1 n1 ev1 H1 Hg Ht H.
  unfold f_record_by in *. unfold fbind at 1 in H. unfold fbind at 1.
  destruct (f_metadata_with_header pl (mkHeader t m (8 + len core + len tail)) _ _ _) as [[st md0] l0 n0 ev0|] eqn:E; [|discriminate].
  destruct (metadata_longer _ _ _ fin' _ _ _ _ extra _ x2 _ _ _ _ _ _ H1 Ht E) as (-> & l2 & n2 & ev2 & E2). rewrite E2.
  unfold fbind at 1, fcfg in H. unfold fbind at 1, fcfg. cbn [fe_cfg fst snd h_type h_misc] in *.
  unfold fbind at 1, f_sub in H. unfold fbind at 1, f_sub. cbn [fst snd] in *.
  destruct (fb t (mkEnv (with_misc c m) eof_error) core pos) as [y l3 n3 ev3|] eqn:E3; [|discriminate].
  rewrite (Hg _ _ eof_error _ extra _ _ _ _ _ E3). unfold fret in *. injection H as <- <- _ _ _.
  split; [do 6 eexists; exact E3|]. do 3 eexists. reflexivity.
Qed.

Lemma tail_estimate : forall c w t, configured c w -> t <> 1 -> t <> 9 -> tail_len w t = estimate_len c.
Proof.
  intros c w t (Est & _ & Eall & _) H1 H9. rewrite estimate_len_bits, Est, Eall. unfold tail_len.
  replace (t =? 1) with false by (symmetry; now apply N.eqb_neq).
  replace (t =? 9) with false by (symmetry; now apply N.eqb_neq). cbn [orb].
  destruct (ws_id_all w); [|reflexivity]. cbn [negb filter]. unfold sbit.
  destruct (N.testbit _ 1), (N.testbit _ 2), (N.testbit _ 6), (N.testbit _ 7), (N.testbit _ 9), (N.testbit _ 16); reflexivity.
Qed.

(** Sources of one kind give what a parser of the bytes gives, whose bodies of type [t] do not look at the end. *)
Lemma appended_by : forall pl w (fb : N -> F (body list)) mo (P : N -> Prop) t m core tail extra f f' x1 x2
    S1 (PB1 : parsebuf S1) fin1 cap1 mem1 p1 a1 p1' b md S2 (PB2 : parsebuf S2) fin2 cap2 mem2 p2 a2,
  let o := order_of pl (c_endian (p_cfg p1)) in
  (forall S (PB : parsebuf S) fin cap mem p l a, P a -> source PB mo fin cap mem p l a ->
     match (h <~ f_header pl ;; f_record_by pl fb h) (mkEnv (p_cfg p) fin) l 0 with
     | FOk (b, md) _ n _ => exists bc p', gives pl PB p (inr (bc, md)) p' /\ view_body bc = b
     | FErr e _ n _ => exists p', gives pl PB p (inl e) p'
     end) ->
  grows (fb t) -> configured (p_cfg p1) w -> t <> 1 -> t < 2 ^ 32 -> m < 2 ^ 16 ->
  f = w_header o t m (8 + len core + len tail) ++ core ++ tail ->
  f' = w_header o t m (8 + len core + len extra + len tail) ++ core ++ extra ++ tail ->
  len tail = tail_len w t -> 8 + len core + len extra + len tail < 2 ^ 16 ->
  same_for pl t (p_cfg p1) (p_cfg p2) -> P a1 -> P a2 ->
  source PB1 mo fin1 cap1 mem1 p1 (f ++ x1) a1 -> source PB2 mo fin2 cap2 mem2 p2 (f' ++ x2) a2 ->
  gives pl PB1 p1 (inr (b, md)) p1' ->
  (exists env l k l' k' ev, fb t env l k = FOk (view_body b) l' k' ev) /\
  exists b' p2', gives pl PB2 p2 (inr (b', md)) p2' /\ view_body b' = view_body b /\
    after PB1 mo fin1 cap1 mem1 p1 (len f) x1 a1 p1' /\ after PB2 mo fin2 cap2 mem2 p2 (len f') x2 a2 p2'.
Proof.
  intros pl w fb mo P t m core tail extra f f' x1 x2 S1 PB1 fin1 cap1 mem1 p1 a1 p1' b md S2 PB2 fin2 cap2 mem2 p2 a2 o
    HG Hg Hw H1 Ht Hm Ef Ef' Htl Hz Hsame Pa1 Pa2 Hs1 Hs2 G1.
  assert (Ho : order_of pl (c_endian (p_cfg p2)) = o) by (symmetry; apply Hsame).
  assert (Lf : len f = 8 + len core + len tail) by (rewrite Ef, !len_app, w_header_len; lia).
  assert (Lf' : len f' = 8 + len core + len extra + len tail) by (rewrite Ef', !len_app, w_header_len; lia).
  assert (A1 : after PB1 mo fin1 cap1 mem1 p1 (len f) x1 a1 p1').
  { pose proof (C01_record_framing pl S1 PB1 mo fin1 cap1 mem1 _ record_visitor p1 t m (core ++ tail) x1 a1) as F.
    cbv zeta in F. fold o in F. rewrite (app_assoc (w_header o t m _)), len_app, N.add_assoc, <- Ef in F.
    specialize (F Ht Hm ltac:(lia) Hs1). specialize (G1 _ record_visitor). rewrite G1 in F. cbn [snd] in F.
    unfold after. rewrite Lf. exact F. }
  (* the second source, under the configuration of the first *)
  set (q := under (p_cfg p1) p2).
  assert (Hq : source PB2 mo fin2 cap2 mem2 q (f' ++ x2) a2) by exact Hs2.
  pose proof (HG S1 PB1 fin1 cap1 mem1 p1 _ a1 Pa1 Hs1) as C1.
  pose proof (HG S2 PB2 fin2 cap2 mem2 q _ a2 Pa2 Hq) as C2. cbn [q under p_cfg] in C2.
  assert (Hd : forall k s y z, s < 2 ^ 16 -> k = w_header o t m s ++ y ->
    (h <~ f_header pl ;; f_record_by pl fb h) (mkEnv (p_cfg p1) z) k 0 = f_record_by pl fb (mkHeader t m s) (mkEnv (p_cfg p1) z) y 8).
  { intros k s y z Hs ->. unfold fbind at 1, o.
    destruct (Rt_header pl 0 false (mkEnv (p_cfg p1) z) t m s y 0 Ht Hm Hs) as (ev0 & E & _).
    cbn [fe_cfg] in E. rewrite w_header_len, N.add_0_l in E.
    assert (ev0 = []) by (eapply noev_ok; [apply noev_header|exact E]). subst ev0. rewrite E.
    destruct (f_record_by _ _ _ _ _ _); reflexivity. }
  rewrite (Hd _ (8 + len core + len tail) (core ++ tail ++ x1)) in C1 by (try lia; rewrite Ef, <- !app_assoc; reflexivity).
  rewrite (Hd _ (8 + len core + len extra + len tail) (core ++ extra ++ tail ++ x2)) in C2
    by (try lia; rewrite Ef', <- !app_assoc; reflexivity).
  destruct (f_record_by pl fb _ _ (core ++ tail ++ x1) 8) as [[v md1] l1 n1 ev1|e l1 n1 ev1] eqn:E1.
  2:{ destruct C1 as (p' & C1). destruct (gives_once _ _ _ _ _ _ _ _ G1 C1) as [H _]. discriminate. }
  destruct C1 as (bc & p' & C1 & Ev). destruct (gives_once _ _ _ _ _ _ _ _ G1 C1) as [H _]. injection H as <- <-.
  assert (Htail : len tail = if t =? 9 then 0 else estimate_len (p_cfg p1)).
  { rewrite Htl. destruct (N.eqb_spec t 9) as [->|H9]; [reflexivity|]. now apply tail_estimate. }
  destruct (with_header_longer _ _ _ _ fin2 _ _ _ _ extra _ x2 _ _ _ _ _ _ H1 Hg Htail E1) as (Hex & l2 & n2 & ev2 & E2).
  rewrite E2 in C2. destruct C2 as (b' & q' & G2 & Ev').
  assert (Hz2 : 8 + len (core ++ extra ++ tail) < 2 ^ 16) by (rewrite !len_app; lia).
  assert (Hq2 : source PB2 mo fin2 cap2 mem2 q (w_header (order_of pl (c_endian (p_cfg q))) t m
    (8 + len (core ++ extra ++ tail)) ++ (core ++ extra ++ tail) ++ x2) a2).
  { cbn [q under p_cfg]. fold o. rewrite (app_assoc (w_header o t m _)), !len_app, !N.add_assoc, <- Ef'. exact Hs2. }
  assert (Gp : gives pl PB2 p2 (inr (b', md)) (under (p_cfg p2) q')).
  { intros O V. pose proof (C73_source pl S2 PB2 mo fin2 cap2 mem2 q t m _ _ a2 O V (p_cfg p2) Ht Hm Hz2 Hq2 Hsame) as H.
    unfold cannot_tell in H. rewrite (G2 O V) in H. destruct p2 as [c2 s2 o2 l2']. exact H. }
  split; [rewrite Ev; exact Hex|].
  exists b', (under (p_cfg p2) q'). split; [exact Gp|]. split; [congruence|]. split; [exact A1|].
  pose proof (C01_record_framing pl S2 PB2 mo fin2 cap2 mem2 _ record_visitor p2 t m (core ++ extra ++ tail) x2 a2) as F.
  cbv zeta in F. rewrite Ho, (app_assoc (w_header o t m _)), !len_app, !N.add_assoc, <- Ef' in F.
  specialize (F Ht Hm Hz Hs2). specialize (Gp _ record_visitor). rewrite Gp in F. cbn [snd] in F.
  unfold after. rewrite Lf', !N.add_assoc. exact F.
Qed.

Theorem C90_alike :
  forall pl w f f' extra x1 x2 t mo S1 (PB1 : parsebuf S1) fin1 cap1 mem1 p1 a1 p1' b md
    S2 (PB2 : parsebuf S2) fin2 cap2 mem2 p2 a2,
  let o := order_of pl (c_endian (p_cfg p1)) in
  pl_ok pl -> configured (p_cfg p1) w -> ws_regs_user w < 2 ^ 64 -> ws_regs_intr w < 2 ^ 64 ->
  longer o w f f' extra -> t = from_order o (take 4 f) -> same_for pl t (p_cfg p1) (p_cfg p2) ->
  mo = NoExt \/ (mo = Whole /\ a1 mod word_align pl = a2 mod word_align pl) ->
  source PB1 mo fin1 cap1 mem1 p1 (f ++ x1) a1 -> source PB2 mo fin2 cap2 mem2 p2 (f' ++ x2) a2 ->
  gives pl PB1 p1 (inr (b, md)) p1' ->
  exists b' p2', gives pl PB2 p2 (inr (b', md)) p2' /\ grown (view_body b) extra (view_body b') /\
    (forall s, name_of (view_body b) = Some s -> (view_body b' = view_body b <-> zero_bytes extra)) /\
    after PB1 mo fin1 cap1 mem1 p1 (len f) x1 a1 p1' /\ after PB2 mo fin2 cap2 mem2 p2 (len f') x2 a2 p2'.
Proof.
  intros pl w f f' extra x1 x2 t mo S1 PB1 fin1 cap1 mem1 p1 a1 p1' b md S2 PB2 fin2 cap2 mem2 p2 a2 o
    Hpl Hw Hu Hi HL Et Hsame Hmo Hs1 Hs2 G1.
  pose proof HL as (t0 & m & core & tail & Ht & Hm & Ef & Ef' & Htl & Hz).
  assert (Et0 : t = t0) by (rewrite Et, Ef; unfold o; apply type_of; [exact Ht|exact Hm|lia]).
  assert (Et' : from_order o (take 4 (f' ++ x2)) = t0)
    by (rewrite Ef', <- app_assoc; unfold o; apply type_of; [exact Ht|exact Hm|lia]).
  assert (Etf : from_order o (take 4 (f ++ x1)) = t0)
    by (rewrite Ef, <- app_assoc; unfold o; apply type_of; [exact Ht|exact Hm|lia]).
  assert (Ho : order_of pl (c_endian (p_cfg p2)) = o) by (symmetry; apply Hsame).
  destruct Hmo as [->|[-> Ha]].
  - destruct (N.eq_dec t0 20) as [E20|E20].
    2:{ apply (C90_appended_partial pl w f f' extra x1 x2 t S1 PB1 NoExt fin1 cap1 mem1 p1 a1 p1' b md S2 PB2 NoExt fin2 cap2 mem2 p2 a2);
          try assumption; (split; [|right; right; left; reflexivity]).
        - fold o. rewrite Etf. intros E. contradiction.
        - rewrite Ho, Et'. intros E. contradiction. }
    clear Et. rewrite Et0, E20 in Hsame. clear Et0 Et' Etf t. subst t0.
    destruct (appended_by pl w (f_body_copied pl) NoExt (fun _ => True) 20 m core tail extra f f' x1 x2 S1 PB1 fin1 cap1 mem1 p1 a1
      p1' b md S2 PB2 fin2 cap2 mem2 p2 a2) as ((env & l & k & l' & k' & ev & Hb) & b' & p2' & G2 & Ev & A1 & A2); try assumption;
      try exact Logic.I; try discriminate.
    { intros S PB fin cap mem p y a _ Hs. pose proof (gives_copied pl S PB fin cap mem p y a Hpl Hs) as G.
      change (h <~ f_header pl ;; f_record_by pl (f_body_copied pl) h) with (f_record_copied pl).
      destruct (f_record_copied pl _ y 0) as [[b0 md0] l0 n0 ev0|e0 l0 n0 ev0].
      - destruct G as (bc & p' & G & E & _). eauto.
      - destruct G as (p' & G & _). eauto. }
    { unfold f_body_copied. change (20 =? 20) with true. cbv iota. unfold f_poke_copied.
      apply grows_bind; [apply grows_bind; [apply grows_poke|]|]; intros; grow. }
    exists b', p2'. split; [exact G2|].
    assert (Hk : exists r, view_body b = BTextPoke r).
    { unfold f_body_copied in Hb. change (20 =? 20) with true in Hb. cbv iota in Hb. unfold fbind at 1 in Hb.
      destruct (f_poke_copied _ _ _ _); [|discriminate]. unfold fret in Hb. injection Hb as Hb _ _ _. eauto. }
    destruct Hk as (r & Hk). rewrite Ev, Hk. split; [reflexivity|]. split; [intros s Es; discriminate|]. now split.
  - destruct (N.eq_dec t0 9) as [E9|E9]; [|destruct (N.eq_dec t0 16) as [E16|E16]].
    3:{ apply (C90_appended_partial pl w f f' extra x1 x2 t S1 PB1 Whole fin1 cap1 mem1 p1 a1 p1' b md S2 PB2 Whole fin2 cap2 mem2 p2 a2);
          try assumption; (split; [intros _; now left|left]).
        - fold o. rewrite Etf. now split.
        - rewrite Ho, Et'. now split. }
    all: assert (HB : forall S (PB : parsebuf S) fin cap mem p l a, a mod word_align pl = a1 mod word_align pl -> source PB Whole fin cap mem p l a ->
     match (h <~ f_header pl ;; f_record_by pl (g_body pl (bad_at pl a1)) h) (mkEnv (p_cfg p) fin) l 0 with
     | FOk (b, md) _ n _ => exists bc p', gives pl PB p (inr (bc, md)) p' /\ view_body bc = b
     | FErr e _ n _ => exists p', gives pl PB p (inl e) p'
     end) by
      (intros S PB fin cap mem p y a Hmod Hs; pose proof (gives_whole pl S PB fin cap mem p y a a1 Hpl Hs (eq_sym Hmod)) as G;
       change (h <~ f_header pl ;; f_record_by pl (g_body pl (bad_at pl a1)) h) with (g_record pl (bad_at pl a1));
       destruct (g_record pl _ _ y 0) as [[b0 md0] l0 n0 ev0|e0 l0 n0 ev0];
       [destruct G as (bc & p' & G & E & _); eauto|destruct G as (p' & G & _); eauto]).
    all: clear Et; rewrite Et0 in Hsame; clear Et0 Et' Etf t; subst t0.
    all: edestruct (appended_by pl w (g_body pl (bad_at pl a1)) Whole (fun a => a mod word_align pl = a1 mod word_align pl))
      as ((env & l & k & l' & k' & ev & Hb) & b' & p2' & G2 & Ev & A1 & A2);
      [exact HB| |exact Hw| |exact Ht|exact Hm|exact Ef|exact Ef'|exact Htl|exact Hz|exact Hsame|exact (eq_refl (a1 mod word_align pl))|exact (eq_sym Ha)|exact Hs1|exact Hs2|exact G1|];
      try discriminate.
    + unfold g_body. change (9 =? 9) with true. cbv iota. apply grows_bind; [apply grows_sample|intros; apply grows_ret].
    + exists b', p2'. split; [exact G2|].
      assert (Hk : exists r, view_body b = BSample r).
      { unfold g_body in Hb. change (9 =? 9) with true in Hb. cbv iota in Hb. unfold fbind at 1 in Hb.
        destruct (g_sample _ _ _ _ _); [|discriminate]. unfold fret in Hb. injection Hb as Hb _ _ _. eauto. }
      destruct Hk as (r & Hk). rewrite Ev, Hk. split; [reflexivity|]. split; [intros s Es; discriminate|]. now split.
    + unfold g_body. change (16 =? 9) with false. change (16 =? 16) with true. cbv iota.
      apply grows_bind; [apply grows_namespaces|intros; apply grows_ret].
    + exists b', p2'. split; [exact G2|].
      assert (Hk : exists r, view_body b = BNamespaces r).
      { unfold g_body in Hb. change (16 =? 9) with false in Hb. change (16 =? 16) with true in Hb. cbv iota in Hb. unfold fbind at 1 in Hb.
        destruct (g_namespaces _ _ _ _ _); [|discriminate]. unfold fret in Hb. injection Hb as Hb _ _ _. eauto. }
      destruct Hk as (r & Hk). rewrite Ev, Hk. split; [reflexivity|]. split; [intros s Es; discriminate|]. now split.
Qed.

(** Recordings: in memory, when what is appended keeps the alignment, as the fields of the kernel do. *)
Theorem C90_recording_alike :
  forall pl w c c' mo gs fs x1 x2 S1 (PB1 : parsebuf S1) fin1 cap1 mem1 S2 (PB2 : parsebuf S2) fin2 cap2 mem2 p1 a1 p2 a2,
  let o := order_of pl (c_endian c) in
  let fs' := map fst gs in
  pl_ok pl -> configured c w -> ws_regs_user w < 2 ^ 64 -> ws_regs_intr w < 2 ^ 64 ->
  (forall t, same_for pl t c c') -> p_cfg p1 = c -> p_cfg p2 = c' ->
  Forall2 (fun f g => longer o w f (fst g) (snd g)) fs gs ->
  mo = NoExt \/ (mo = Whole /\ a1 mod word_align pl = a2 mod word_align pl /\
                 Forall (fun g => len (snd g) mod word_align pl = 0) gs) ->
  source PB1 mo fin1 cap1 mem1 p1 (concat fs ++ x1) a1 -> source PB2 mo fin2 cap2 mem2 p2 (concat fs' ++ x2) a2 ->
  exists rs1 p1' rs2 p2', run_gives pl PB1 p1 rs1 p1' /\ run_gives pl PB2 p2 rs2 p2' /\
    length rs1 = length fs /\ length rs2 = length fs /\ Forall2 reads_on rs1 (combine rs2 (map snd gs)) /\
    after PB1 mo fin1 cap1 mem1 p1 (len (concat fs)) x1 a1 p1' /\ after PB2 mo fin2 cap2 mem2 p2 (len (concat fs')) x2 a2 p2'.
Proof.
  intros pl w c c' mo gs. induction gs as [|[f' extra] gs IH];
    intros fs x1 x2 S1 PB1 fin1 cap1 mem1 S2 PB2 fin2 cap2 mem2 p1 a1 p2 a2 o fs' Hpl Hw Hu Hi Hsame E1 E2 HF Hmo Hs1 Hs2.
  - inversion HF; subst fs. exists [], p1, [], p2. cbn [run_gives map combine length concat].
    unfold fs' in *. cbn [map concat app] in Hs1, Hs2. change (len (@nil N)) with 0.
    do 4 (split; [reflexivity|]). split; [constructor|]. unfold after. rewrite !N.add_0_r.
    split; (split; [assumption|now split]).
  - inversion HF as [|f g fs0 gs0 HL HF']; subst fs g gs0. cbn [fst snd] in HL.
    unfold fs' in *. cbn [map fst concat] in *. rewrite <- app_assoc in Hs1, Hs2.
    subst c c'.
    assert (X : forall S (PB : parsebuf S) fin cap mem p l a, source PB mo fin cap mem p l a -> exists r p', gives pl PB p r p').
    { intros S PB fin cap mem p l a Hs. destruct Hmo as [->|[-> _]].
      - destruct (C03_copied pl (p_cfg p) l fin S PB cap mem p a S PB cap mem p a Hpl eq_refl eq_refl Hs Hs) as (n & r & _ & p' & _ & G & _).
        eauto.
      - destruct (C03_whole pl (p_cfg p) l fin S PB cap mem p a S PB cap mem p a Hpl eq_refl eq_refl eq_refl Hs Hs) as (n & r & _ & p' & _ & G & _).
        eauto. }
    destruct (X _ _ _ _ _ _ _ _ Hs1) as (r1 & p1' & G1), (X _ _ _ _ _ _ _ _ Hs2) as (r2 & p2' & G2). clear X.
    assert (Ho : order_of pl (c_endian (p_cfg p2)) = o) by (symmetry; apply (Hsame 0)).
    pose proof HL as (t & m & core & tail & Ht & Hm & Ef & Ef' & Htl & Hz).
    assert (Lf : len f = 8 + len core + len tail) by (rewrite Ef, !len_app, w_header_len; lia).
    assert (Lf' : len f' = 8 + len core + len extra + len tail) by (rewrite Ef', !len_app, w_header_len; lia).
    assert (A1 : after PB1 mo fin1 cap1 mem1 p1 (len f) (concat fs0 ++ x1) a1 p1').
    { pose proof (C01_record_framing pl S1 PB1 mo fin1 cap1 mem1 _ record_visitor p1 t m (core ++ tail) (concat fs0 ++ x1) a1) as F.
      cbv zeta in F. fold o in F. rewrite (app_assoc (w_header o t m _)), len_app, N.add_assoc, <- Ef in F.
      specialize (F Ht Hm ltac:(lia) Hs1). specialize (G1 _ record_visitor). rewrite G1 in F. cbn [snd] in F.
      unfold after. rewrite Lf. exact F. }
    assert (A2 : after PB2 mo fin2 cap2 mem2 p2 (len f') (concat (map fst gs) ++ x2) a2 p2').
    { pose proof (C01_record_framing pl S2 PB2 mo fin2 cap2 mem2 _ record_visitor p2 t m (core ++ extra ++ tail)
        (concat (map fst gs) ++ x2) a2) as F.
      cbv zeta in F. rewrite Ho, (app_assoc (w_header o t m _)), !len_app, !N.add_assoc, <- Ef' in F.
      specialize (F Ht Hm Hz Hs2). specialize (G2 _ record_visitor). rewrite G2 in F. cbn [snd] in F.
      unfold after. rewrite Lf', !N.add_assoc. exact F. }
    assert (R : reads_on r1 (r2, extra)).
    { destruct r1 as [e|[b md]]; [exact Logic.I|].
      assert (Hmo1 : mo = NoExt \/ (mo = Whole /\ a1 mod word_align pl = a2 mod word_align pl))
        by (clear - Hmo; destruct Hmo as [H|(H & K & _)]; [left|right]; auto).
      destruct (C90_alike pl w f f' extra _ _ _ mo S1 PB1 fin1 cap1 mem1 p1 a1 p1' b md S2 PB2 fin2 cap2 mem2 p2 a2
        Hpl Hw Hu Hi HL eq_refl (Hsame _) Hmo1 Hs1 Hs2 G1) as (b' & q & G2' & Hg & _).
      destruct (gives_once _ _ _ _ _ _ _ _ G2 G2') as [-> _]. now split. }
    assert (Hmo2 : mo = NoExt \/ (mo = Whole /\ (a1 + len f) mod word_align pl = (a2 + len f') mod word_align pl /\
                   Forall (fun g => len (snd g) mod word_align pl = 0) gs)).
    { destruct Hmo as [H|(H & K & HF2)]; [now left|right]. split; [exact H|].
      inversion HF2 as [|? ? H0 HF3]; subst. cbn [snd] in H0. split; [|exact HF3].
      rewrite Lf, Lf'. assert (Hp : word_align pl <> 0) by (unfold word_align; destruct (pl_align pl); discriminate).
      replace (a2 + (8 + len core + len extra + len tail)) with (a2 + (8 + len core + len tail) + len extra) by lia.
      rewrite (N.add_mod (a2 + _) (len extra)), H0, N.add_0_r, N.mod_mod by exact Hp.
      rewrite (N.add_mod a1), (N.add_mod a2), K by exact Hp. reflexivity. }
    destruct A1 as (A1s & A1c & A1o), A2 as (A2s & A2c & A2o).
    destruct (IH fs0 x1 x2 S1 PB1 fin1 cap1 mem1 S2 PB2 fin2 cap2 mem2 p1' (a1 + len f) p2' (a2 + len f') Hpl Hw Hu Hi Hsame A1c A2c
      HF' Hmo2 A1s A2s) as (rs1 & q1 & rs2 & q2 & R1 & R2 & L1 & L2 & HR & (B1s & B1c & B1o) & (B2s & B2c & B2o)).
    exists (r1 :: rs1), q1, (r2 :: rs2), q2.
    split; [exists p1'; now split|]. split; [exists p2'; now split|].
    split; [cbn; now rewrite L1|]. split; [cbn; now rewrite L2|].
    split; [cbn; constructor; assumption|].
    unfold after. rewrite !len_app, !N.add_assoc.
    split; (split; [assumption|]); split; congruence.
Qed.

(** TEXT_POKE without old bytes through readers, and NAMESPACES at an odd address of which the crate reads the second entry
    in place of the first: neither is tame, both stay as they are. *)
Definition long_poke : list N :=
  w_header LE 20 0 (8 + 24) ++ (w64 LE 0xABC ++ w16 LE 0 ++ w16 LE 4 ++ [1; 2; 3; 4]) ++ w64 LE 5.
Definition ns_two (extra : list N) : list N :=
  w_header LE 16 0 (8 + 48 + len extra) ++ (w32 LE 5 ++ w32 LE 6 ++ w64 LE 1 ++ w64 LE 77 ++ w64 LE 88 ++ w64 LE 99 ++ w64 LE 11) ++ extra.

Example C90_alike_example :
  longer LE ex_set0 poke_bytes long_poke (w64 LE 5) /\
  longer LE ex_set0 (ns_two []) (ns_two (w64 LE 5)) (w64 LE 5) /\
  configured ex_cfg0 ex_set0 /\ (forall t, same_for pl64 t ex_cfg0 ex_cfg0) /\
  ~ tame pl64 ex_cfg0 NoExt 0 poke_bytes /\ ~ tame pl64 ex_cfg0 Whole 4097 (ns_two []) /\
  (forall f cap mem, In f [poke_bytes; long_poke] -> 16384 <= cap ->
     source bufreader_buf NoExt eof_error cap mem (reader_of [f] ex_cfg0) (f ++ []) 0) /\
  (forall f p, In (f, p) [(poke_bytes, reader_of [poke_bytes] ex_cfg0); (long_poke, reader_of [long_poke] ex_cfg0)] ->
     exists b p', gives pl64 bufreader_buf p (inr (b, mkMeta 20 0 sample_id_default)) p' /\
       view_body b = BTextPoke (mkTextPoke 0xABC [1; 2; 3; 4] [])) /\
  (forall a f, In (a, f) [(4097, ns_two []); (8193, ns_two (w64 LE 5))] ->
     exists b p', gives pl64 slice_buf (on_slice a f ex_cfg0) (inr (b, mkMeta 16 0 sample_id_default)) p' /\
       view_body b = BNamespaces (mkNamespaces 5 6 [mkNs 99 11])).
Proof.
  split; [exists 20, 0, (w64 LE 0xABC ++ w16 LE 0 ++ w16 LE 4 ++ [1; 2; 3; 4]), []; vm_compute; repeat split|].
  split; [exists 16, 0, (w32 LE 5 ++ w32 LE 6 ++ w64 LE 1 ++ w64 LE 77 ++ w64 LE 88 ++ w64 LE 99 ++ w64 LE 11), []; vm_compute; repeat split|].
  split; [repeat split|]. split; [intros t; unfold same_for, same_order, same_sample, same_ids, same_flags, sample_flags, id_flags;
    repeat first [split | constructor | intros _ | reflexivity]|].
  split; [intros [H _]; destruct H as [H|H]; [reflexivity|discriminate|vm_compute in H; intuition congruence]|].
  split; [intros [_ [H|[H|[H|(_ & H & _)]]]]; [destruct H as [_ H]; now elim H|now elim H|discriminate|discriminate]|].
  split; [|split].
  - intros f cap mem Hf Hc. destruct Hf as [<-|[<-|[]]]; (apply (reader_source [] [_] None); [exact Hc| | |]; try (vm_compute; congruence);
      repeat constructor; discriminate).
  - intros f p [H|[H|[]]]; injection H as <- <-; (do 2 eexists; split; [apply collect_gives; vm_compute; reflexivity|reflexivity]).
  - intros a f [H|[H|[]]]; injection H as <- <-; (do 2 eexists; split; [apply collect_gives; vm_compute; reflexivity|reflexivity]).
Qed.

(** The second record of two in memory, one of them longer by eight bytes: the alignment is kept. *)
Example C90_recording_alike_example :
  let fs := [ns_two []; poke_bytes] in
  let gs := [(ns_two (w64 LE 5), w64 LE 5); (long_poke, w64 LE 5)] in
  Forall2 (fun f g => longer LE ex_set0 f (fst g) (snd g)) fs gs /\
  Forall (fun g => len (snd g) mod word_align pl64 = 0) gs /\ 4097 mod word_align pl64 = 8193 mod word_align pl64 /\
  exists b1 b2 p', run_gives pl64 slice_buf (on_slice 8193 (concat (map fst gs)) ex_cfg0)
    [inr (b1, mkMeta 16 0 sample_id_default); inr (b2, mkMeta 20 0 sample_id_default)] p' /\
    view_body b1 = BNamespaces (mkNamespaces 5 6 [mkNs 99 11]) /\ view_body b2 = BTextPoke (mkTextPoke 0xABC [] [1; 2; 3; 4]).
Proof.
  destruct C90_alike_example as (H1 & H2 & _). cbv zeta.
  split; [constructor; [exact H2|constructor; [exact H1|constructor]]|].
  split; [repeat constructor|]. split; [reflexivity|].
  do 3 eexists. split; [eexists; split; [apply collect_gives; vm_compute; reflexivity|];
    eexists; split; [apply collect_gives; vm_compute; reflexivity|reflexivity]|]. split; reflexivity.
Qed.

Print Assumptions C90_alike.
Print Assumptions C90_recording_alike.
