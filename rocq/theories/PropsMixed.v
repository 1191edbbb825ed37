(** C89: a recording of several events can be read, each record with the configuration of its event. *)
From Coq Require Import NArith List Bool Lia.
From Verif Require Import Base BaseFacts Types Platform Config Buf Parser Contract Flat Refine.
From Verif Require Import Instances Records Sample Record Views RefFrame RefTop Wire Codec Roundtrip RtRecord ConfFacts Spec.
From Verif Require Import SameFacts Copied Placed Accept AcceptFacts AcceptSample AcceptRecord Framing FramingFacts FrameFacts.
From Verif Require Import ExData RoundFacts ClientFacts PropsFrame PropsParts PropsSame PropsRound PropsSession PropsAccept.
From Verif Require Import PropsFollow Follow FollowFacts Mixed MixedFacts.
Import ListNotations.
Open Scope N_scope.

(** The identifier a client is told with a record. *)
Definition identifier (v : body list) (md : metadata) : option N :=
  match v with BSample s => s_id s | _ => si_id (md_sample_id md) end.

(** The settings of an event which put its identifier where it can be found without knowing them. *)
Definition identified (w : settings) : Prop := sbit w 16 = true /\ ws_id_all w = true.

(** A record of the event [id]. *)
Definition belongs (id : N) (i : item) : Prop :=
  match i_body i with WSample x => s_id (sw_sample x) | _ => si_id (i_id i) end = Some id.

(** Where the kernel writes the identifier, a client finds it, whatever else is set for the event. *)
Theorem C89_written : forall o w i id, identified w -> sample_id_ok w (i_id i) -> wbody_ok w (i_misc i) (i_body i) ->
  belongs id i -> whose o (encode o w i) = id.
Proof.
  intros o w [m si b] id [H16 Hall] Hsi Hb E. unfold encode, w_record. cbn [i_misc i_id i_body] in *.
  pose proof (w_type_small w m b Hb) as Ht.
  assert (K : w_type b <> 9 -> w_trailer o w b si = w_sample_id o w si -> si_id si = Some id ->
    whose o (w_header o (w_type b) m (8 + len (w_body o w b ++ w_trailer o w b si)) ++ w_body o w b ++ w_trailer o w b si) = id).
  { intros H9 Et Ei. destruct (sample_id_known w si Hall H16 Hsi) as (v & Ev & Hv). rewrite Ei in Ev. injection Ev as <-.
    rewrite Et. assert (exists x, w_sample_id o w si = x ++ w64 o id) as (x & ->).
    { unfold w_sample_id. rewrite Hall, H16, Ei. cbn [w_if val]. rewrite !app_assoc. eexists. reflexivity. }
    rewrite (app_assoc (w_body o w b)). now apply whose_other. }
  destruct b; try (apply K; [discriminate|reflexivity|exact E]).
  - cbn [w_body w_trailer]. unfold belongs in E. cbn [i_body] in E. rewrite app_nil_r. unfold w_sample, w_fields.
    cbn [map concat fst]. rewrite H16, E. cbn [w_if val].
    apply whose_sample; [reflexivity|reflexivity|].
    destruct Hb as (_ & _ & _ & _ & _ & Hf & _). rewrite E in Hf. apply Hf.
  - apply K; [|reflexivity|exact E]. cbn [w_type]. destruct Hb as (Hb & _). lia.
Qed.

(** Whatever the bytes: the identifier a client is told with a record is the word at that place.  Left out are the
    records of type MMAP, which come without a sample_id ([C89_mmap_refuted]), and settings with PERF_SAMPLE_ID
    too, since the word of that is told then ([C89_both_refuted]). *)
Theorem C89_place_partial : forall pl S (PB : parsebuf S) mo fin cap mem w p l a b md p',
  let o := order_of pl (c_endian (p_cfg p)) in
  pl_ok pl -> configured (p_cfg p) w -> ws_regs_user w < 2 ^ 64 -> ws_regs_intr w < 2 ^ 64 ->
  identified w -> sbit w 6 = false ->
  source PB mo fin cap mem p l a -> tame pl (p_cfg p) mo a l ->
  gives pl PB p (inr (b, md)) p' -> md_ty md <> 1 ->
  exists f rest, l = f ++ rest /\ frame o f /\ moved PB mo fin cap mem l a p (len f) p' /\
    identifier (view_body b) md = Some (whose o f).
Proof.
  intros pl S PB mo fin cap mem w p l a b md p' o Hpl Hw Hu Hi [H16 Hall] H6 Hs Ht G H1.
  assert (B : bytes l) by (destruct Hs as (? & _ & _ & [B _]); exact B).
  assert (M : exists n, moved PB mo fin cap mem l a p n p').
  { pose proof (gives_flat pl S PB mo fin cap mem p l a Hpl Hs Ht) as Gf.
    destruct (f_record pl (mkEnv (p_cfg p) fin) l 0) as [[v' md'] l' k ev|e l' k ev].
    - destruct Gf as (b' & p'' & G1 & G2 & G3). destruct (gives_once _ _ _ _ _ _ _ _ G G1) as [_ E]. subst p''. now exists k.
    - destruct Gf as (p'' & G1 & _). destruct (gives_once _ _ _ _ _ _ _ _ G G1) as [E _]. discriminate. }
  destruct M as (n & M).
  destruct (proj1 (C65_record_partial pl S PB mo fin cap mem w p l a (view_body b) md n Hpl Hw Hu Hi Hs Ht)) as (Hn & m & si & wb & Ev & Em & Hr).
  { now exists b, p'. }
  exists (take n l), (drop n l). assert (Ln : len (take n l) = n) by (rewrite len_take; lia).
  split; [symmetry; apply take_drop|]. fold o in Hr. rewrite Ln.
  destruct Hr as (body & unread & tail & Ef & Hsz & Hm & Hg & Hl & _ & Htl). cbv zeta in Ef, Hsz.
  pose proof (given_type w m wb Hg) as Hty. rewrite Ev. subst md. cbn [md_ty] in H1.
  split; [|split; [exact M|]].
  { split; [now apply bytes_take|]. rewrite Ln. rewrite <- Ln at 1. rewrite Ef at 2. unfold size_of.
    rewrite drop_app_le by (unfold w_header; rewrite !len_app, w32_len, !w16_len; lia).
    assert (E6 : drop 6 (w_header o (w_type wb) m (8 + len (body ++ unread ++ tail))) = w16 o (8 + len (body ++ unread ++ tail))).
    { unfold w_header. rewrite app_assoc. apply drop_app_exact. now rewrite len_app, w32_len, w16_len. }
    rewrite E6, take_app_exact by now rewrite w16_len. unfold w16. rewrite from_enc by exact Hsz.
    rewrite Ef. unfold w_header. rewrite !len_app, w32_len, !w16_len in *. lia. }
  rewrite Ef.
  assert (K : w_type wb <> 9 -> ends_in_id wb = true -> si_id si = Some (whose o (w_header o (w_type wb) m
    (8 + len (body ++ unread ++ tail)) ++ body ++ unread ++ tail))).
  { intros H9 E. rewrite E in Htl. destruct Htl as [Hsi Htl].
    destruct (sample_id_known w si Hall H16 Hsi) as (v & E1 & Hv).
    destruct (l_sample_id_last o w si tail Hall H16 H6 Htl) as (x & ->). rewrite E1. cbn [val]. f_equal.
    rewrite (app_assoc unread), (app_assoc body). symmetry. now apply whose_other. }
  destruct wb; try (apply K; [discriminate|reflexivity]); cbn [w_type] in *.
  - now contradict H1.
  - cbn [expected identifier]. cbn [l_body laid] in Hl. unfold l_sample in Hl.
    destruct Hl as (b1 & b2 & -> & Hf & _). unfold l_twice in Hf. rewrite H16, H6 in Hf. cbn [l_if] in Hf.
    apply fits_just in Hf. subst b1.
    assert (Hid : exists v, s_id (sw_sample x) = Some v /\ v < 2 ^ 64).
    { destruct Hg as (_ & _ & _ & _ & _ & Hf & _). eapply field_some; [exact Hf|]. rewrite H16. apply orb_true_r. }
    destruct Hid as (v & E1 & Hv). rewrite E1. cbn [val]. f_equal. rewrite <- !app_assoc. symmetry. now apply whose_sample.
  - apply K; [|reflexivity]. destruct Hg as (Hg & _). lia.
Qed.

Lemma size_header : forall o t m size x, size < 2 ^ 16 -> size_of o (w_header o t m size ++ x) = size.
Proof.
  intros o t m size x H. unfold size_of.
  rewrite drop_app_le by (unfold w_header; rewrite !len_app, w32_len, !w16_len; lia).
  assert (E6 : drop 6 (w_header o t m size) = w16 o size).
  { unfold w_header. rewrite app_assoc. apply drop_app_exact. now rewrite len_app, w32_len, w16_len. }
  rewrite E6, take_app_exact by now rewrite w16_len. unfold w16. now rewrite from_enc by exact H.
Qed.

(** So the metadata of a record can be read with the configuration of any of the events to learn which one it is of,
    if there is room for what that configuration asks for. *)
Theorem C89_metadata_partial : forall pl S (PB : parsebuf S) mo fin cap mem w p f rest a,
  let o := order_of pl (c_endian (p_cfg p)) in
  configured (p_cfg p) w -> identified w -> sbit w 6 = false ->
  frame o f -> from_order o (take 4 f) <> 1 -> from_order o (take 4 f) <> 9 -> 8 + estimate_len (p_cfg p) <= len f ->
  source PB mo fin cap mem p (f ++ rest) a ->
  exists q md p', parse_metadata pl PB p = (Ok (q, md), p') /\ si_id (md_sample_id md) = Some (whose o f) /\
    moved PB mo fin cap mem (f ++ rest) a p (len f) p'.
Proof.
  intros pl S PB mo fin cap mem w p f rest a o Hw [H16 Hall] H6 Hf H1 H9 He (rep & HC & Hr & Hwf).
  pose proof (frame_min _ _ Hf) as [H8 _].
  destruct (C01_headers_are_complete o f (proj1 Hf) H8) as (t & m & size & x & Ht & Hm & Hsz & Ef).
  assert (Es : size_of o f = size).
  { rewrite Ef. now apply size_header. }
  assert (Et : from_order o (take 4 f) = t).
  { rewrite Ef. rewrite take_app_le by (unfold w_header; rewrite !len_app, w32_len, !w16_len; lia).
    unfold w_header. rewrite take_app_exact by now rewrite w32_len. unfold w32. now rewrite from_enc by exact Ht. }
  assert (Lh : len (w_header o t m size) = 8) by (unfold w_header; rewrite !len_app, w32_len, !w16_len; reflexivity).
  assert (Lf : len f = 8 + len x) by (rewrite Ef, len_app, Lh; reflexivity).
  assert (H8e : 8 <= estimate_len (p_cfg p)).
  { rewrite estimate_len_bits. destruct Hw as (-> & _ & -> & _). rewrite Hall. unfold sbit in H16. rewrite H16. change (Bits.b2n true) with 1. lia. }
  assert (Ez : size = 8 + len x) by (destruct Hf as [_ Hl]; lia). clear Es. subst size.
  assert (HC' : contract PB mo fin (N.max cap 65536) mem rep) by (eapply contract_mono; [exact HC|lia]).
  assert (Hr0 : rep (p_buf p) (f ++ rest) (a + 0)) by now rewrite N.add_0_r.
  pose proof (RefC_metadata pl PB mo fin _ mem rep a HC' (N.le_max_r _ _) (p_cfg p) p (f ++ rest) 0 eq_refl Hr0 Hwf) as G.
  assert (Bx : bytes (x ++ rest)).
  { destruct Hwf as [B _]. rewrite Ef, <- app_assoc in B. now apply Forall_app in B. }
  rewrite Et in H1, H9.
  destruct (metadata_ok pl (mkEnv (p_cfg p) fin) t m x rest 0 w Hw Bx Ht Hm Hsz H1 H9)
    as (r & pos' & x' & tail & si & E & Ex & Em & Hsi & Hft); [cbn [fe_cfg]; lia|].
  cbn [fe_cfg] in E. fold o in E. 
  replace (f_metadata pl (mkEnv (p_cfg p) fin) (f ++ rest) 0) with (FOk r rest pos' ([] : list event)) in G
    by (rewrite <- E, Ef at 1; now rewrite <- app_assoc).
  destruct (G (Forall_nil _)) as ([q md] & p' & Ep & [Emd _] & Hst). cbn [snd] in Emd. subst md.
  exists q, (snd r), p'. split; [exact Ep|]. split.
  - rewrite Em. cbn [identifier md_sample_id].
    destruct (sample_id_known w si Hall H16 Hsi) as (v & E1 & Hv). rewrite E1. f_equal.
    destruct (l_sample_id_last o w si tail Hall H16 H6 Hft) as (z & ->). rewrite E1 in Ex. cbn [val] in Ex.
    rewrite Ef, Ex, (app_assoc x'). symmetry. now apply whose_other.
  - pose proof (step_moved _ _ _ _ _ _ _ _ _ _ _ _ _ _ HC Hwf Hst) as M.
    destruct (st_len _ _ _ _ _ _ _ _ _ Hst) as (k & Hk & El & En & _). rewrite N.add_0_l in En. subst k.
    assert (pos' = len f); [|now subst pos'].
    apply (f_equal len) in El. rewrite len_drop in El. rewrite len_app in El, Hk. lia.
Qed.

(** * Records of several events *)

(** One event: its identifier, how the kernel was asked to record it, and the configuration made for it. *)
Record tracked := mkTracked { t_id : N; t_set : settings; t_cfg : config }.

Definition tracked_ok (pl : platform) (o : order) (t : tracked) : Prop :=
  configured (t_cfg t) (t_set t) /\ identified (t_set t) /\ order_of pl (c_endian (t_cfg t)) = o.

(** What the client knows of the events. *)
Definition table (ts : list tracked) : list (N * config) := map (fun t => (t_id t, t_cfg t)) ts.

(** A record with the event it is of, as the kernel writes it. *)
Definition wrote (o : order) (x : tracked * item) : list N := encode o (t_set (fst x)) (snd x).

Fixpoint mixed_lends (pl : platform) (mo : mode) (o : order) (a : N) (xs : list (tracked * item)) : Prop :=
  match xs with
  | [] => True
  | x :: xs => lends_fine pl mo (t_cfg (fst x)) a (i_body (snd x)) /\ mixed_lends pl mo o (a + len (wrote o x)) xs
  end.

Lemma encode_size : forall o w i, len (encode o w i) < 2 ^ 16 -> len (encode o w i) = N.max 8 (size_of o (encode o w i)).
Proof.
  intros o w i H.
  assert (L : len (encode o w i) = 8 + len (w_body o w (i_body i) ++ w_trailer o w (i_body i) (i_id i))).
  { unfold encode, w_record, w_header. rewrite !len_app, w32_len, !w16_len. lia. }
  rewrite L in *. unfold encode, w_record. rewrite size_header by exact H. lia.
Qed.

(** There is a way of reading one record that depends on nothing but the configuration, the bytes of the record and
    its alignment if the source lends; parsers read recordings of one event that way, and the client above reads
    recordings of several that way, each record with the configuration of the event it finds in it.  For all bytes,
    so that events with other settings are covered, and damage. *)
Theorem C89_sorted : forall pl mo, pl_ok pl -> mo = NoExt \/ mo = Whole ->
  exists read : config -> N -> list N -> perror + (body list * metadata),
  (forall c S (PB : parsebuf S) fin cap mem p a fs tl,
    let o := order_of pl (c_endian c) in
    p_cfg p = c -> Forall (frame o) fs -> unfinished o tl ->
    source PB mo fin cap mem p (concat fs ++ tl) a ->
    exists rs p', run_gives pl PB p rs p' /\ map shown rs = placed (read c) a fs) /\
  (forall o events c0 base fs tl ds S (PB : parsebuf S) fin open O (V : visitor O),
    let whole := concat fs ++ tl in
    Forall (frame o) fs -> unfinished o tl -> concat ds = whole ->
    (forall c, In c (c0 :: map snd events) ->
      order_of pl (c_endian c) = o /\ opens pl PB mo fin c base whole (open c)) ->
    let F := follow (sort_out pl PB open o events c0 V) 0 [] ds in
    exists rs, concat (fst F) = map (told V) rs /\
      map shown rs = placed (fun a f => read (config_for events c0 (whose o f)) a f) base fs /\
      snd F = (len (concat fs), tl)).
Proof.
  intros pl mo Hpl Hmo. destruct (readings pl mo Hpl Hmo) as (read & Hread). exists read. split.
  - intros c S PB fin cap mem p a fs tl o Ec F U Hs. destruct (Hread c) as [_ H].
    destruct (H S PB fin cap mem p a fs tl 0%nat Ec F U Hs) as (rs & p' & R & M). exists rs, p'.
    split; [exact R|]. rewrite M. cbn [repeat]. apply app_nil_r.
  - exact (sorted pl mo read Hread).
Qed.

(** Records of any of the events in any order, each written with the settings of its event, are told as they were
    written, with their bytes in whatever pieces.  [item_ok] leaves out the same cases as C21. *)
Theorem C89_mixed_partial : forall pl S (PB : parsebuf S) mo fin c0 ts xs base ds open O (V : visitor O),
  let o := order_of pl (c_endian c0) in
  let whole := concat (map (wrote o) xs) in
  pl_ok pl -> mo = NoExt \/ mo = Whole -> Forall (tracked_ok pl o) ts -> NoDup (map t_id ts) ->
  Forall (fun x => In (fst x) ts /\ belongs (t_id (fst x)) (snd x) /\
    item_ok (pl_host pl) o (t_set (fst x)) mo (snd x)) xs ->
  mixed_lends pl mo o base xs -> concat ds = whole ->
  (forall c, In c (c0 :: map t_cfg ts) -> opens pl PB mo fin c base whole (open c)) ->
  let F := follow (sort_out pl PB open o (table ts) c0 V) 0 [] ds in
  exists rs, concat (fst F) = map (told V) rs /\
    map shown rs = map (fun x => inr (expected (i_body (snd x)), PropsSession.told (snd x))) xs /\
    snd F = (len whole, []).
Proof.
  intros pl S PB mo fin c0 ts xs base ds open O V o whole Hpl Hmo Hts Hnd Hxs Hl Hds Hop F.
  assert (Hop0 := Hop c0 (or_introl eq_refl)).
  assert (B : bytes whole).
  { destruct (Hop0 0 whole []) as (_ & cap & mem & a & _ & ? & _ & _ & [B _]); [now rewrite drop_0, app_nil_r|exact B]. }
  destruct (readings pl mo Hpl Hmo) as (read & Hread).
  assert (Hord : forall c, In c (c0 :: map t_cfg ts) -> order_of pl (c_endian c) = o).
  { intros c [<-|Hc]; [reflexivity|]. apply in_map_iff in Hc. destruct Hc as (t & <- & Ht).
    rewrite Forall_forall in Hts. apply (Hts t Ht). }
  assert (Hsnd : map snd (table ts) = map t_cfg ts) by (unfold table; now rewrite map_map).
  assert (Hfst : map fst (table ts) = map t_id ts) by (unfold table; now rewrite map_map).
  assert (Hfs : Forall (frame o) (map (wrote o) xs)).
  { clear - B Hxs Hpl. unfold whole in B. induction Hxs as [|x xs (_ & _ & Hx) Hxs IH]; [constructor|].
    cbn [map concat] in *. apply Forall_app in B. destruct B as [B1 B2]. constructor; [|now apply IH].
    split; [exact B1|]. destruct Hx as (_ & _ & _ & _ & Hlen). now apply encode_size. }
  destruct (sorted pl mo read Hread o (table ts) c0 base (map (wrote o) xs) [] ds S PB fin open O V) as (rs & E1 & E2 & E3);
    try rewrite app_nil_r; try assumption.
  { split; [constructor|]. left. reflexivity. }
  { rewrite Hsnd. intros c Hc. split; [now apply Hord|now apply Hop]. }
  exists rs. split; [exact E1|]. split; [|exact E3]. rewrite E2. clear E1 E2 E3 rs F.
  assert (G : forall pos ys, drop pos whole = concat (map (wrote o) ys) -> mixed_lends pl mo o (base + pos) ys ->
    Forall (frame o) (map (wrote o) ys) ->
    Forall (fun x => In (fst x) ts /\ belongs (t_id (fst x)) (snd x) /\
      item_ok (pl_host pl) o (t_set (fst x)) mo (snd x)) ys ->
    placed (fun a f => read (config_for (table ts) c0 (whose o f)) a f) (base + pos) (map (wrote o) ys) =
    map (fun x => inr (expected (i_body (snd x)), PropsSession.told (snd x))) ys).
  { intros pos ys. revert pos. induction ys as [|x ys IH]; intros pos Ep HL HF HX; [reflexivity|].
    cbn [map placed]. inversion HF as [|? ? F1 F2]; subst. inversion HX as [|? ? (X1 & X2 & X3) X4]; subst.
    destruct HL as [L1 L2]. cbn [map concat] in Ep. rewrite <- N.add_assoc in *.
    rewrite IH; try assumption.
    2: { rewrite <- drop_drop, Ep. now apply drop_app_exact. }
    f_equal. destruct X3 as (I1 & I2 & I3 & I4 & I5). pose proof X1 as X1'. rewrite Forall_forall in Hts. destruct (Hts _ X1') as (T1 & T2 & T3).
    assert (Ew : whose o (wrote o x) = t_id (fst x)) by now apply C89_written. rewrite Ew.
    assert (Ec : config_for (table ts) c0 (t_id (fst x)) = t_cfg (fst x)).
    { apply (config_for_event (table ts) c0 (t_id (fst x), t_cfg (fst x))); [now rewrite Hfst|].
      unfold table. now apply (in_map (fun t => (t_id t, t_cfg t))). }
    rewrite Ec. set (c := t_cfg (fst x)) in *.
    assert (Hc : In c (c0 :: map t_cfg ts)) by (right; now apply in_map).
    destruct (Hread c) as [Hal Hrd].
    destruct (opens_frame pl c mo (read c) Hal Hrd S PB fin base whole (open c) (Hop c Hc) pos (wrote o x)
      (concat (map (wrote o) ys)) []) as (r & p' & Gv & Sh); [now rewrite app_nil_r|now rewrite T3|].
    rewrite <- Sh.
    destruct (Hop c Hc pos (wrote o x ++ concat (map (wrote o) ys)) []) as (Ecfg & cap & mem & a & Ha & Hs); [now rewrite app_nil_r|].
    set (p := open c pos (wrote o x ++ concat (map (wrote o) ys))) in *.
    assert (La : lends_fine pl mo (p_cfg p) a (i_body (snd x))).
    { rewrite Ecfg. destruct L1 as [L1|L1]; [left|now right]. destruct Hmo as [-> | ->]; [exact L1|].
      unfold lends_aligned in *. rewrite (Ha eq_refl). exact L1. }
    assert (Eo : order_of pl (c_endian (p_cfg p)) = o) by now rewrite Ecfg.
    destruct (record_reads pl PB mo fin cap mem Hpl _ keep_visitor (t_set (fst x)) p (i_misc (snd x)) (i_id (snd x))
      (i_body (snd x)) (concat (map (wrote o) ys)) a) as (bc & p2 & E & Hv & _); try rewrite Eo; try assumption.
    { now rewrite Ecfg. }
    specialize (Gv _ keep_visitor). rewrite E in Gv. rewrite deliver_answer, keep_answer in Gv.
    destruct r as [e|[b md]]; [discriminate|]. rewrite keep_answer in Gv. injection Gv as -> <- _. cbn [shown].
    now rewrite Hv. }
  specialize (G 0 xs). rewrite N.add_0_r in G. apply G; try assumption. apply drop_0.
Qed.

(** * What is left out *)

(** Two events: IP | IDENTIFIER and TIME | IDENTIFIER. *)
Definition first_set : settings := mkSettings 0x10001 0 true false 0 0.
Definition first_cfg : config := mkConfig (cf_new 0 0x10001 true false 0) 0 0 Little.
Definition second_set : settings := mkSettings 0x10004 0 true false 0 0.
Definition second_cfg : config := mkConfig (cf_new 0 0x10004 true false 0) 0 0 Little.
Definition two : list tracked := [mkTracked 7 first_set first_cfg; mkTracked 9 second_set second_cfg].
Definition first_id : sample_id := mkSampleId None None None (Some 7) None None.
Definition long : list N := [97; 98; 99; 100; 101; 102; 103; 104; 105; 106].
Definition second_id : sample_id := mkSampleId None None (Some 99) (Some 9) None None.

(** The identifier is in a record of type MMAP as in others, and the client is not told. *)
Theorem C89_mmap_refuted : exists pl c w i fin cap mem a b md,
  let o := order_of pl (c_endian c) in
  let f := encode o w i in
  pl_ok pl /\ configured c w /\ identified w /\ sbit w 6 = false /\
  i_misc i < 2 ^ 16 /\ sample_id_ok w (i_id i) /\ wbody_ok w (i_misc i) (i_body i) /\ belongs 7 i /\
  source slice_buf Whole fin cap mem (on_slice a f c) f a /\
  fst (parse_record pl slice_buf keep_visitor (on_slice a f c)) = Ok (b, md) /\
  whose o f = 7 /\ identifier (view_body b) md = None.
Proof.
  exists pl64, first_cfg, first_set, (mkItem 0 first_id (WMmap (mkMmap 1 2 4096 8192 0 [97; 98; 99]) 5)), eof_error, 200,
    (memory_of 4096 (encode LE first_set (mkItem 0 first_id (WMmap (mkMmap 1 2 4096 8192 0 [97; 98; 99]) 5)))), 4096.
  do 2 eexists. cbv zeta.
  split; [now right|]. split; [repeat split|]. split; [repeat split|]. split; [reflexivity|]. split; [reflexivity|].
  split; [repeat split|]. split; [repeat first [constructor | reflexivity | discriminate]|]. split; [reflexivity|].
  split; [apply slice_source; [| | |apply memory_of_at]; try (vm_compute; congruence); vm_compute; repeat constructor|].
  split; [vm_compute; reflexivity|]. split; vm_compute; reflexivity.
Qed.

(** With PERF_SAMPLE_ID too, what the metadata says depends on which configuration it is read with: here that of an
    event with ID | CPU | IDENTIFIER for a record of another, where the pid and the tid in the record are
    taken for its identifier. *)
Theorem C89_both_refuted : exists pl c w w' i fin cap mem a md q p',
  let o := order_of pl (c_endian c) in
  let f := encode o w' i in
  pl_ok pl /\ configured c w /\ identified w /\ identified w' /\
  frame o f /\ from_order o (take 4 f) <> 1 /\ from_order o (take 4 f) <> 9 /\ 8 + estimate_len c <= len f /\
  sample_id_ok w' (i_id i) /\ wbody_ok w' (i_misc i) (i_body i) /\ belongs 7 i /\
  source slice_buf Whole fin cap mem (on_slice a f c) f a /\
  parse_metadata pl slice_buf (on_slice a f c) = (Ok (q, md), p') /\
  whose o f = 7 /\ identifier BSwitch md = Some (from_order o [1; 0; 0; 0; 2; 0; 0; 0]).
Proof.
  exists pl64, (mkConfig (cf_new 0 0x100C0 true false 0) 0 0 Little), (mkSettings 0x100C0 0 true false 0 0), first_set,
    (mkItem 0 first_id (WComm (mkComm 1 2 [97; 98; 99]) 5)), eof_error, 200,
    (memory_of 4096 (encode LE first_set (mkItem 0 first_id (WComm (mkComm 1 2 [97; 98; 99]) 5)))), 4096.
  do 3 eexists. cbv zeta.
  split; [now right|]. split; [repeat split|]. split; [repeat split|]. split; [repeat split|].
  split; [split; [vm_compute; repeat constructor|reflexivity]|]. split; [vm_compute; discriminate|].
  split; [vm_compute; discriminate|]. split; [vm_compute; discriminate|]. split; [repeat split|].
  split; [repeat first [constructor | reflexivity | discriminate]|]. split; [reflexivity|].
  split; [apply slice_source; [| | |apply memory_of_at]; try (vm_compute; congruence); vm_compute; repeat constructor|].
  split; [vm_compute; reflexivity|]. split; vm_compute; reflexivity.
Qed.

(** One configuration for all records will not do, though nothing is refused: the record of another event is read as
    one of the first, with part of its sample_id for the end of the name, or with the end of the name for part of
    the sample_id. *)
Theorem C89_one_refuted : exists pl c c' w w' i i' fin cap mem mem' a,
  let o := order_of pl (c_endian c) in
  pl_ok pl /\ tracked_ok pl o (mkTracked 7 w c) /\ tracked_ok pl o (mkTracked 9 w' c') /\
  belongs 7 i /\ item_ok (pl_host pl) o w Whole i /\ belongs 9 i' /\ item_ok (pl_host pl) o w' Whole i' /\
  source slice_buf Whole fin cap mem (on_slice a (encode o w i) c') (encode o w i) a /\
  source slice_buf Whole fin cap mem' (on_slice a (encode o w' i') c) (encode o w' i') a /\
  expected (i_body i) = BComm (mkComm 3 4 long) /\ expected (i_body i') = BComm (mkComm 3 4 long) /\
  (exists b md, fst (parse_record pl slice_buf keep_visitor (on_slice a (encode o w i) c')) = Ok (b, md) /\
    view_body b = BComm (mkComm 3 4 [97; 98; 99; 100; 101; 102; 103; 104]) /\ si_time (md_sample_id md) = Some (from_order o [105; 106; 0; 0; 0; 0; 0; 0])) /\
  (exists b md, fst (parse_record pl slice_buf keep_visitor (on_slice a (encode o w' i') c)) = Ok (b, md) /\
    view_body b = BComm (mkComm 3 4 (long ++ [0; 0; 0; 0; 0; 0] ++ [99]))).
Proof.
  exists pl64, first_cfg, second_cfg, first_set, second_set,
    (mkItem 0 first_id (WComm (mkComm 3 4 long) 6)), (mkItem 0 second_id (WComm (mkComm 3 4 long) 6)), eof_error, 200,
    (memory_of 4096 (encode LE first_set (mkItem 0 first_id (WComm (mkComm 3 4 long) 6)))),
    (memory_of 4096 (encode LE second_set (mkItem 0 second_id (WComm (mkComm 3 4 long) 6)))), 4096.
  cbv zeta. split; [now right|]. split; [repeat split|]. split; [repeat split|]. split; [reflexivity|].
  split; [repeat first [constructor | reflexivity | discriminate]|]. split; [reflexivity|].
  split; [repeat first [constructor | reflexivity | discriminate]|].
  split; [apply slice_source; [| | |apply memory_of_at]; try (vm_compute; congruence); vm_compute; repeat constructor|].
  split; [apply slice_source; [| | |apply memory_of_at]; try (vm_compute; congruence); vm_compute; repeat constructor|].
  split; [reflexivity|]. split; [reflexivity|]. split.
  - do 2 eexists. split; [vm_compute; reflexivity|]. split; vm_compute; reflexivity.
  - do 2 eexists. split; [vm_compute; reflexivity|]. vm_compute; reflexivity.
Qed.

(** * An example *)

Definition plain {F : Type -> Type} (ip time : option N) (id : N) : sample F :=
  mkSample ip None None time None (Some id) None None None None None None None None None None None None None None None
    None None None None.
Definition sampled (ip time : option N) (id : N) : wbody := WSample (mkSampleWire (plain ip time id) None []).

(** A sample and a name of each of the events. *)
Definition mix : list (tracked * item) :=
  let t1 := mkTracked 7 first_set first_cfg in
  let t2 := mkTracked 9 second_set second_cfg in
  [(t1, mkItem 2 first_id (sampled (Some 4096) None 7)); (t2, mkItem 0 second_id (WComm (mkComm 3 4 long) 6));
   (t2, mkItem 1 second_id (sampled None (Some 55) 9)); (t1, mkItem 0 first_id (WComm (mkComm 3 4 long) 6))].
Definition mix_bytes : list N := concat (map (wrote LE) mix).

Example C89_example :
  let open c pos l := on_slice (4096 + pos) l c in
  let ds := [take 30 mix_bytes; []; drop 30 mix_bytes] in
  Forall (tracked_ok pl64 LE) two /\ NoDup (map t_id two) /\ identified first_set /\ sbit first_set 6 = false /\
  Forall (fun x => In (fst x) two /\ belongs (t_id (fst x)) (snd x) /\
    item_ok (pl_host pl64) LE (t_set (fst x)) Whole (snd x)) mix /\
  mixed_lends pl64 Whole LE 4096 mix /\ concat ds = mix_bytes /\
  (forall c, In c (first_cfg :: map t_cfg two) -> opens pl64 slice_buf Whole eof_error c 4096 mix_bytes (open c)) /\
  follow (sort_out pl64 slice_buf open LE (table two) first_cfg keep_visitor) 0 [] ds =
  ([[Ok (BSample (plain (Some 4096) None 7), mkMeta 9 2 sample_id_default)]; [];
    [Ok (BComm (mkComm 3 4 (Borrowed 4136 long)), mkMeta 3 0 second_id);
     Ok (BSample (plain None (Some 55) 9), mkMeta 9 1 sample_id_default);
     Ok (BComm (mkComm 3 4 (Borrowed 4208 long)), mkMeta 3 0 first_id)]], (136, [])) /\
  map (fun x => whose LE (wrote LE x)) mix = [7; 9; 9; 7] /\
  (exists q p', parse_metadata pl64 slice_buf (open second_cfg 96 (drop 96 mix_bytes)) =
    (Ok (q, mkMeta 3 0 (mkSampleId None None (Some (from_order LE (take 8 (drop 8 long ++ [0; 0; 0; 0; 0; 0])))) (Some 7) None None)), p')).
Proof.
  intros open ds. split; [repeat constructor|]. split; [repeat constructor; cbn; intuition discriminate|].
  split; [repeat split|]. split; [reflexivity|]. split.
  { repeat apply Forall_cons; [..|apply Forall_nil].
    all: split; [first [left; reflexivity | right; left; reflexivity]|split; [reflexivity|]].
    all: repeat first [constructor | reflexivity | discriminate].
    all: vm_compute; try discriminate; try reflexivity. }
  split; [repeat split; left; vm_compute; reflexivity|]. split; [vm_compute; reflexivity|]. split.
  { intros c Hc. assert (B : bytes mix_bytes) by (vm_compute; repeat constructor).
    intros pos l y El. split; [reflexivity|]. exists 200, (memory_of (4096 + pos) l), (4096 + pos).
    split; [reflexivity|]. assert (Hl : len l <= 136).
    { apply (f_equal len) in El. rewrite len_drop, (len_app l y) in El. change (len mix_bytes) with 136 in El. lia. }
    apply slice_source; [|lia|lia|apply memory_of_at].
    apply (bytes_drop pos) in B. rewrite El in B. apply Forall_app in B. apply B. }
  split; [vm_compute; reflexivity|]. split; [vm_compute; reflexivity|]. do 2 eexists. vm_compute. reflexivity.
Qed.

Print Assumptions C89_written.
Print Assumptions C89_place_partial.
Print Assumptions C89_metadata_partial.
Print Assumptions C89_sorted.
Print Assumptions C89_mixed_partial.
Print Assumptions C89_mmap_refuted.
Print Assumptions C89_both_refuted.
Print Assumptions C89_one_refuted.
