(** C82: a recording can be followed while it is being written. *)
From Coq Require Import NArith List Bool Lia.
From Verif Require Import Base BaseFacts Types Platform Config Buf Parser Contract Flat Refine.
From Verif Require Import Instances Records Sample Record Views RefFrame RefTop Wire Spec SameFacts Copied Placed.
From Verif Require Import Framing FramingFacts ExData PropsFrame PropsSame PropsBorrow PropsFraming SizeTop Follow FollowFacts.
Import ListNotations.
Open Scope N_scope.

(** The parsers made for parts of the recording: each holds the bytes it was made for; if it lends memory, then
    aligned like the recording at [base]. *)
Definition opens (pl : platform) {S : Type} (PB : parsebuf S) (mo : mode) (fin : perror) (c : config) (base : N)
  (whole : list N) (open : N -> list N -> parser S) : Prop :=
  forall pos l y, drop pos whole = l ++ y ->
  p_cfg (open pos l) = c /\
  exists cap mem a, (mo = Whole -> a mod word_align pl = (base + pos) mod word_align pl) /\
    source PB mo fin cap mem (open pos l) l a.

Lemma reading : forall pl c mo, pl_ok pl -> mo = NoExt \/ mo = Whole ->
  exists read : N -> list N -> perror + (body list * metadata),
  (forall a b f, (mo = Whole -> a mod word_align pl = b mod word_align pl) -> read a f = read b f) /\
  forall S (PB : parsebuf S) fin cap mem p a fs tl k,
  let o := order_of pl (c_endian c) in
  p_cfg p = c -> Forall (frame o) fs -> unfinished o tl ->
  source PB mo fin cap mem p (concat fs ++ tl) a ->
  exists rs p', run_gives pl PB p rs p' /\ map shown rs = placed read a fs ++ repeat (inl fin) k.
Proof.
  intros pl c mo Hpl [-> | ->].
  - destruct (C78_copied pl c Hpl) as (read & H). exists (fun _ => read). split; [reflexivity|].
    intros S PB fin cap mem p a fs tl k o Ec F U Hs. rewrite placed_map. eapply H; eassumption.
  - destruct (C78_whole pl c Hpl) as (read & Hr & H). exists read. split; [|exact H]. intros a b f E. apply Hr, E. reflexivity.
Qed.

Section Reads.
Context (pl : platform) (c : config) (mo : mode) (read : N -> list N -> perror + (body list * metadata)).
Let o := order_of pl (c_endian c).
Context (Hal : forall a b f, (mo = Whole -> a mod word_align pl = b mod word_align pl) -> read a f = read b f).
Context (Hread : forall S (PB : parsebuf S) fin cap mem p a fs tl k, p_cfg p = c -> Forall (frame o) fs -> unfinished o tl ->
  source PB mo fin cap mem p (concat fs ++ tl) a ->
  exists rs p', run_gives pl PB p rs p' /\ map shown rs = placed read a fs ++ repeat (inl fin) k).

Lemma opens_frame : forall S (PB : parsebuf S) fin base whole open, opens pl PB mo fin c base whole open ->
  forall pos f x y, drop pos whole = f ++ x ++ y -> frame o f ->
  exists r p', gives pl PB (open pos (f ++ x)) r p' /\ shown r = read (base + pos) f.
Proof.
  intros S PB fin base whole open Ho pos f x y E Hf.
  destruct (Ho pos (f ++ x) y) as (Ec & cap & mem & a & Ha & Hs); [now rewrite <- app_assoc|].
  assert (B : bytes x) by (destruct Hs as (? & _ & _ & [B _]); apply Forall_app in B; apply B).
  destruct (frames_exist o (length x) x) as (fs & tl & -> & F & U); [unfold len; lia|exact B|].
  rewrite app_assoc in *. change (f ++ concat fs) with (concat (f :: fs)) in *.
  destruct (Hread S PB fin cap mem (open pos (concat (f :: fs) ++ tl)) a (f :: fs) tl 0 Ec) as (rs & p' & R & M); try assumption.
  { now constructor. }
  cbn [placed app] in M. destruct rs as [|r rs]; [discriminate|]. cbn [map] in M. injection M as M1 _.
  destruct R as (p1 & G & _). exists r, p1. split; [exact G|]. rewrite M1. now apply Hal.
Qed.

Lemma opens_cut : forall S (PB : parsebuf S) fin base whole open, pl_ok pl -> opens pl PB mo fin c base whole open ->
  is_eof fin = true -> forall pos l y, drop pos whole = l ++ y -> unfinished o l ->
  exists e p', gives pl PB (open pos l) (inl e) p' /\ is_eof e = true.
Proof.
  intros S PB fin base whole open Hpl Ho Hfin pos l y E U.
  destruct (Ho pos l y E) as (Ec & cap & mem & a & _ & Hs).
  destruct (gives_cut pl S PB mo fin cap mem (open pos l) l a Hpl Hs) as (p' & G & _).
  - now rewrite Ec.
  - now exists fin, p'.
Qed.
End Reads.

(** A client that goes by the sizes in the headers, told the bytes in any pieces [ds], tells its visitor of every
    record once, in order and as one parser over all of the recording would; at any time of all that are complete, so
    that the bytes it keeps are those of the last, unfinished one. *)
Theorem C82_follow : forall pl c mo base fs tl ds S (PB : parsebuf S) fin open O (V : visitor O)
    S2 (PB2 : parsebuf S2) fin2 cap2 mem2 p2,
  let o := order_of pl (c_endian c) in
  let whole := concat fs ++ tl in
  pl_ok pl -> mo = NoExt \/ mo = Whole ->
  Forall (frame o) fs -> unfinished o tl -> concat ds = whole ->
  opens pl PB mo fin c base whole open ->
  p_cfg p2 = c -> source PB2 mo fin2 cap2 mem2 p2 whole base ->
  let F := follow (drain pl PB open o V) 0 [] ds in
  exists rs p2' rs',
    run_gives pl PB2 p2 rs p2' /\ length rs = length fs /\
    concat (fst F) = map (told V) rs' /\ map shown rs' = map shown rs /\
    snd F = (len (concat fs), tl).
Proof.
  intros pl c mo base fs tl ds S PB fin open O V S2 PB2 fin2 cap2 mem2 p2 o whole Hpl Hmo F U Ed Ho Ec Hs.
  destruct (reading pl c mo Hpl Hmo) as (read & Hal & Hread).
  destruct (Hread _ _ _ _ _ _ _ fs tl 0%nat Ec F U Hs) as (rs & p2' & R & M).
  assert (B : bytes whole) by (destruct Hs as (? & _ & _ & [B _]); exact B).
  destruct (follow_is pl PB open o V read base whole) with (ds := ds) (fs := fs) (tl := tl) (pos := 0) (l := @nil N)
    as (rs' & R' & M' & St); try assumption.
  - exact (opens_frame pl c mo read Hal Hread S PB fin base whole open Ho).
  - rewrite drop_0. now rewrite Ed.
  - cbn [app]. now rewrite Ed.
  - split; [constructor|]. left. reflexivity.
  - exists rs, p2', rs'. cbn [repeat] in M. rewrite app_nil_r in M. rewrite N.add_0_r in M'.
    split; [exact R|]. split.
    { rewrite <- (map_length shown rs), M. clear. revert base. induction fs as [|f fs IH]; intros base; cbn; [|rewrite IH]; reflexivity. }
    split; [exact R'|]. split; [now rewrite M', M|]. exact St.
Qed.

(** What has been told is not taken back: with the theorem above for the pieces up to any time, every record is told
    with the piece that completes it. *)
Theorem C82_pieces : forall R (drain : nat -> N -> list N -> list R * (N * list N)) ds1 ds2 pos l,
  let F1 := follow drain pos l ds1 in
  let F2 := follow drain (fst (snd F1)) (snd (snd F1)) ds2 in
  follow drain pos l (ds1 ++ ds2) = (fst F1 ++ fst F2, snd F2) /\ length (fst F1) = length ds1.
Proof.
  intros R drain ds1. induction ds1 as [|d ds1 IH]; intros ds2 pos l; cbn [app follow].
  - cbn. now destruct (follow drain pos l ds2).
  - destruct (drain (length (l ++ d)) pos (l ++ d)) as [rs [pos' l']]. destruct (IH ds2 pos' l') as [E1 E2].
    rewrite E1. destruct (follow drain pos' l' ds1) as [rss [pos2 l2]]. cbn [fst snd length] in *.
    split; [reflexivity|now rewrite E2].
Qed.

(** A client that goes by errors of kind [Eof] instead gets as far as the first complete record that is refused with
    such an error, and no further however much comes. *)
Theorem C82_eof : forall pl c mo base fs tl ds S (PB : parsebuf S) fin open O (V : visitor O)
    S2 (PB2 : parsebuf S2) fin2 cap2 mem2 p2,
  let o := order_of pl (c_endian c) in
  let whole := concat fs ++ tl in
  pl_ok pl -> mo = NoExt \/ mo = Whole ->
  Forall (frame o) fs -> unfinished o tl -> concat ds = whole ->
  opens pl PB mo fin c base whole open -> is_eof fin = true -> (forall b md e, answer V b md <> Err e) ->
  p_cfg p2 = c -> source PB2 mo fin2 cap2 mem2 p2 whole base ->
  let F := follow (drain_eof pl PB open o V) 0 [] ds in
  exists rs1 rs2 p2' rs' n,
    run_gives pl PB2 p2 (rs1 ++ rs2) p2' /\ length (rs1 ++ rs2) = length fs /\
    (forall e, In (inl e) rs1 -> is_eof e = false) /\
    match rs2 with [] => True | r :: _ => exists e, r = inl e /\ is_eof e = true end /\
    concat (fst F) = map (told V) rs' /\ map shown rs' = map shown rs1 /\
    n = length rs1 /\ snd F = (len (concat (firstn n fs)), concat (skipn n fs) ++ tl).
Proof.
  intros pl c mo base fs tl ds S PB fin open O V S2 PB2 fin2 cap2 mem2 p2 o whole Hpl Hmo F U Ed Ho Hfin HV Ec Hs.
  destruct (reading pl c mo Hpl Hmo) as (read & Hal & Hread).
  destruct (Hread _ _ _ _ _ _ _ fs tl 0%nat Ec F U Hs) as (rs & p2' & R & M).
  cbn [repeat] in M. rewrite app_nil_r in M.
  assert (B : bytes whole) by (destruct Hs as (? & _ & _ & [B _]); exact B).
  assert (K : exists n rs1 rs2, rs = rs1 ++ rs2 /\ n = length rs1 /\ (forall e, In (inl e) rs1 -> is_eof e = false) /\
    match rs2 with [] => True | r :: _ => exists e, r = inl e /\ is_eof e = true end /\
    map shown rs1 = placed read base (firstn n fs) /\ goes read base (firstn n fs) /\
    length (rs1 ++ rs2) = length fs /\
    (skipn n fs = [] \/ exists f fs3, skipn n fs = f :: fs3 /\ eof_read read (base + len (concat (firstn n fs))) f)).
  { clear - M. revert rs base M. induction fs as [|f fs IH]; intros rs base M; cbn [placed] in M.
    - destruct rs; [|discriminate]. exists 0%nat, [], []. cbn. repeat split; auto. contradiction.
    - destruct rs as [|r rs]; [discriminate|]. cbn [map] in M. injection M as M1 M2.
      destruct (IH rs (base + len f) M2) as (n & rs1 & rs2 & -> & -> & H1 & H2 & H3 & H4 & H5 & H6).
      destruct (ended (told keeper r)) eqn:Er.
      + exists 0%nat, [], (r :: rs1 ++ rs2). split; [reflexivity|]. split; [reflexivity|]. split; [contradiction|].
        assert (X : exists e, r = inl e /\ is_eof e = true).
        { destruct r as [e|[b md]]; [now exists e|]. exfalso. cbn in Er. rewrite <- deliver_answer, keeper_keeps in Er. discriminate. }
        split; [exact X|]. split; [reflexivity|]. split; [exact I|]. split; [cbn; now rewrite H5|]. right.
        exists f, fs. split; [reflexivity|]. cbn. rewrite N.add_0_r. destruct X as (e & -> & He). exists e. now split.
      + exists (Datatypes.S (length rs1)), (r :: rs1), rs2. split; [reflexivity|]. split; [reflexivity|].
        split; [|split; [exact H2|]].
        { intros e [->|Hi]; [exact Er|now apply H1]. }
        cbn [firstn skipn placed goes map concat]. split; [now rewrite M1, H3|]. split; [split; [|exact H4]|].
        { intros (e & He & He'). rewrite <- M1 in He. destruct r as [e'|[b md]]; [|discriminate]. cbn in He. injection He as ->.
          cbn in Er. congruence. }
        split; [cbn; now rewrite H5|]. destruct H6 as [H6|(g & fs3 & H6 & H7)]; [now left|right].
        exists g, fs3. split; [exact H6|]. rewrite len_app, N.add_assoc. exact H7. }
  destruct K as (n & rs1 & rs2 & -> & En & H1 & H2 & H3 & H4 & H5 & H6).
  rewrite <- (firstn_skipn n fs) in F. apply Forall_app in F as [F1 F2].
  destruct (follow_eof_is pl PB open o V read base whole) with (ds := ds) (fs := firstn n fs) (fs2 := skipn n fs) (tl := tl)
    (pos := 0) (l := @nil N) as (rs' & R' & M' & St); try assumption.
  - exact (opens_frame pl c mo read Hal Hread S PB fin base whole open Ho).
  - exact (opens_cut pl c mo S PB fin base whole open Hpl Ho Hfin).
  - rewrite drop_0. now rewrite Ed.
  - cbn [app]. rewrite Ed. unfold whole. rewrite <- (firstn_skipn n fs) at 1. now rewrite concat_app, <- app_assoc.
  - cbn [app]. now rewrite Ed.
  - now rewrite N.add_0_r.
  - rewrite N.add_0_r. exact H6.
  - left. split; [constructor|]. left. reflexivity.
  - rewrite N.add_0_r in M'. exists rs1, rs2, p2', rs', n.
    split; [exact R|]. split; [exact H5|]. split; [exact H1|]. split; [exact H2|]. split; [exact R'|].
    split; [now rewrite M', H3|]. split; [exact En|exact St].
Qed.

(** Such a record: a LOST record of 12 bytes.  Whatever comes after it, the second client never tells anything. *)
Theorem C82_stall : exists f, frame LE f /\
  forall x ds, bytes x -> 12 + len x < 2 ^ 32 -> concat ds = f ++ x ->
  let open pos l := on_slice (4096 + pos) l ex_cfg0 in
  concat (fst (follow (drain_eof pl64 slice_buf open LE keeper) 0 [] ds)) = [] /\
  fst (snd (follow (drain_eof pl64 slice_buf open LE keeper) 0 [] ds)) = 0.
Proof.
  set (f := w_header LE 2 0 12 ++ [1; 2; 3; 4]). assert (Hf : frame LE f) by (split; [repeat constructor|reflexivity]).
  exists f. split; [exact Hf|]. intros x ds Hx Hl Ed open.
  destruct (frames_exist LE (length x) x) as (fs & tl & -> & F & U); [unfold len; lia|exact Hx|].
  assert (Hpl : pl_ok pl64) by (vm_compute; intuition discriminate).
  assert (B : bytes (f ++ concat fs ++ tl)) by (apply Forall_app; split; [repeat constructor|exact Hx]).
  assert (L : len (f ++ concat fs ++ tl) < 2 ^ 32) by (rewrite len_app; exact Hl).
  assert (Src : forall a l, bytes l -> len l < 2 ^ 32 ->
    source slice_buf Whole eof_error (2 ^ 32) (memory_of a l) (on_slice a l ex_cfg0) l a).
  { intros a l Hb Hl'. apply slice_source; [exact Hb|lia|lia|apply memory_of_at]. }
  destruct (C82_eof pl64 ex_cfg0 Whole 4096 (f :: fs) tl ds slice slice_buf eof_error open _ keeper slice slice_buf
    eof_error (2 ^ 32) (memory_of 4096 (f ++ concat fs ++ tl)) (on_slice 4096 (f ++ concat fs ++ tl) ex_cfg0))
    as (rs1 & rs2 & p2' & rs' & n & R & H5 & H1 & _ & E & M & -> & St).
  - exact Hpl.
  - now right.
  - now constructor.
  - exact U.
  - cbn [concat]. now rewrite <- app_assoc.
  - intros pos l y El. split; [reflexivity|]. exists (2 ^ 32), (memory_of (4096 + pos) l), (4096 + pos).
    split; [reflexivity|]. cbn [concat] in El. rewrite <- app_assoc in El.
    apply Src.
    + apply (bytes_drop pos) in B. rewrite El in B. apply Forall_app in B. apply B.
    + apply (f_equal len) in El. rewrite len_drop, (len_app l y) in El. lia.
  - reflexivity.
  - intros b md e. rewrite <- deliver_answer, keeper_keeps. discriminate.
  - reflexivity.
  - cbn [concat]. rewrite <- app_assoc. now apply Src.
  - cbn [c_endian order_of] in *. destruct rs1 as [|r rs1].
    { destruct rs'; [|discriminate]. split; [exact E|]. change LE with (order_of pl64 (c_endian ex_cfg0)). now rewrite St. }
    exfalso. destruct R as (p1 & G & _).
    destruct (reading pl64 ex_cfg0 Whole Hpl (or_intror eq_refl)) as (read & _ & Hread).
    pose proof (Src 4096 _ B L) as Sa.
    assert (Ea : f ++ concat fs ++ tl = concat (f :: fs) ++ tl) by (cbn [concat]; now rewrite <- app_assoc).
    rewrite Ea in Sa.
    destruct (Hread _ _ _ _ _ (on_slice _ _ ex_cfg0) _ (f :: fs) tl 0%nat eq_refl (Forall_cons _ Hf F) U Sa) as (ra & pa & Ra & Ma).
    assert (Bf : bytes f) by repeat constructor.
    assert (U0 : unfinished LE []) by (split; [constructor|left; reflexivity]).
    destruct (Hread _ _ _ _ _ (on_slice _ _ ex_cfg0) _ [f] [] 0%nat eq_refl (Forall_cons _ Hf (Forall_nil _)) U0 (Src 4096 f Bf eq_refl))
      as (rb & pb & Rb & Mb).
    rewrite <- Ea in Ra.
    destruct ra as [|ra ras]; [discriminate|]. destruct rb as [|rb rbs]; [discriminate|].
    cbn [map placed app] in Ma, Mb. injection Ma as Ma _. injection Mb as Mb _.
    destruct Ra as (p3 & Ga & _). destruct Rb as (p4 & Gb & _).
    specialize (Gb _ keeper). rewrite record_eq in Gb. vm_compute in Gb. destruct rb as [e|[b md]].
    2:{ destruct b; discriminate. }
    injection Gb as <- _. unfold shown at 1 in Mb. rewrite <- Mb in Ma.
    destruct ra as [e|[b md]]; [|discriminate]. cbn in Ma. injection Ma as ->.
    specialize (Ga _ keeper). specialize (G _ keeper). rewrite Ga in G.
    destruct r as [e|[b md]]; [|rewrite <- deliver_answer in G; destruct b; discriminate].
    injection G as <- _. specialize (H1 _ (or_introl eq_refl)). discriminate.
Qed.

(** ** Examples *)

(** [mixed] (PropsFraming.v) as it comes in five pieces: what each client tells after each of them, and keeps. *)
Definition comes : list (list N) :=
  let l := concat mixed ++ mixed_tail in [take 5 l; take 40 (drop 5 l); []; take 30 (drop 45 l); drop 75 l].

Example C82_example :
  let open pos l := on_slice (4096 + pos) l ex_cfg in
  Forall (frame LE) mixed /\ unfinished LE mixed_tail /\ concat comes = concat mixed ++ mixed_tail /\
  opens pl64 slice_buf Whole eof_error ex_cfg 4096 (concat mixed ++ mixed_tail) open /\
  follow (drain pl64 slice_buf open LE keeper) 0 [] comes =
  ([[]; [Ok (BLost (mkLost 7 9), mkMeta 2 1 ex_id)]; [];
    [Err (custom_error KInvalidRecord MsgHeaderTooSmall); Err (custom_error KInvalidRecord MsgNoRoomForSampleId)];
    [Ok (BLost (mkLost 7 9), mkMeta 2 1 ex_id)]], (100, mixed_tail)) /\
  follow (drain_eof pl64 slice_buf open LE keeper) 0 [] comes = follow (drain pl64 slice_buf open LE keeper) 0 [] comes.
Proof.
  intros open. split; [unfold mixed; repeat constructor|]. split; [split; [repeat constructor|right; reflexivity]|].
  split; [reflexivity|]. split.
  { assert (B : bytes (concat mixed ++ mixed_tail)) by (vm_compute; repeat constructor).
    intros pos l y El. split; [reflexivity|]. exists 200, (memory_of (4096 + pos) l), (4096 + pos).
    split; [reflexivity|]. assert (Hl : len l <= 111).
    { apply (f_equal len) in El. rewrite len_drop, (len_app l y) in El. change (len (concat mixed ++ mixed_tail)) with 111 in El. lia. }
    apply slice_source; [|lia|lia|apply memory_of_at].
    apply (bytes_drop pos) in B. rewrite El in B. apply Forall_app in B. apply B. }
  split; vm_compute; reflexivity.
Qed.

(** The record of [C82_stall] and an intact one. *)
Example C82_example_stall :
  let open pos l := on_slice (4096 + pos) l ex_cfg0 in
  let f := w_header LE 2 0 12 ++ [1; 2; 3; 4] in
  let g := w_record LE ex_set0 1 sample_id_default (WLost (mkLost 7 9)) in
  frame LE f /\ frame LE g /\
  follow (drain pl64 slice_buf open LE keeper) 0 [] [f; g] =
    ([[Err eof_error]; [Ok (BLost (mkLost 7 9), mkMeta 2 1 sample_id_default)]], (len f + len g, [])) /\
  follow (drain_eof pl64 slice_buf open LE keeper) 0 [] [f; g] = ([[]; []], (0, f ++ g)).
Proof.
  repeat split; try (repeat constructor; fail); vm_compute; reflexivity.
Qed.

Print Assumptions C82_follow.
Print Assumptions C82_pieces.
Print Assumptions C82_eof.
Print Assumptions C82_stall.
