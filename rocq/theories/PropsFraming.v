(** C78: a recording is read record by record, and each record is read alike whatever is around it. *)
From Coq Require Import NArith List Bool Permutation Lia.
From Verif Require Import Base BaseFacts Types Platform Config Buf Parser Contract Flat Refine.
From Verif Require Import Instances Records Sample Record Views RefFrame RefTop Wire Spec SameFacts Copied Placed.
From Verif Require Import Framing FramingFacts ExData PropsFrame PropsSame PropsBorrow.
Import ListNotations.
Open Scope N_scope.

(** Every byte string falls into frames and a rest which is too short, in one way. *)
Theorem C78_frames : forall o l, bytes l ->
  (exists fs tl, l = concat fs ++ tl /\ Forall (frame o) fs /\ unfinished o tl) /\
  forall fs1 tl1 fs2 tl2, l = concat fs1 ++ tl1 -> l = concat fs2 ++ tl2 ->
    Forall (frame o) fs1 -> unfinished o tl1 -> Forall (frame o) fs2 -> unfinished o tl2 ->
    fs1 = fs2 /\ tl1 = tl2.
Proof.
  intros o l Hb. split.
  - apply (frames_exist o (length l)); [unfold len; lia|exact Hb].
  - intros fs1 tl1 fs2 tl2 E1 E2. apply frames_unique. congruence.
Qed.

(** Sources which never lend memory: there is a function from frames to results, for the configuration and the
    host, which says what is read; then comes the end of the data, as often as it is asked for. *)
Theorem C78_copied : forall pl c, pl_ok pl ->
  exists read : list N -> perror + (body list * metadata),
  forall S (PB : parsebuf S) fin cap mem p a fs tl k,
  let o := order_of pl (c_endian c) in
  p_cfg p = c -> Forall (frame o) fs -> unfinished o tl ->
  source PB NoExt fin cap mem p (concat fs ++ tl) a ->
  exists rs p', run_gives pl PB p rs p' /\ map shown rs = map read fs ++ repeat (inl fin) k.
Proof.
  intros pl c Hpl. exists (fun f => outcome (by_record pl (f_body_copied pl) (mkEnv c eof_error) f 0)).
  intros S PB fin cap mem p a fs tl k o Ec Hf Hu Hs.
  destruct (recording_by pl S PB NoExt fin cap mem c (fun _ => f_body_copied pl) (fun _ _ => True) Hpl) with
    (k := k) (fs := fs) (tl := tl) (p := p) (a := a) as (rs & p' & R & E); try assumption.
  - intros q l b Eq _ Hq. rewrite <- Eq. exact (gives_copied pl S PB fin cap mem q l b Hpl Hq).
  - auto.
  - exists rs, p'. split; [exact R|]. now rewrite E, placed_map.
Qed.

(** Memory: likewise, but for the alignment of the records. *)
Theorem C78_whole : forall pl c, pl_ok pl ->
  exists read : N -> list N -> perror + (body list * metadata),
  (forall a b f, a mod word_align pl = b mod word_align pl -> read a f = read b f) /\
  forall S (PB : parsebuf S) fin cap mem p a fs tl k,
  let o := order_of pl (c_endian c) in
  p_cfg p = c -> Forall (frame o) fs -> unfinished o tl ->
  source PB Whole fin cap mem p (concat fs ++ tl) a ->
  exists rs p', run_gives pl PB p rs p' /\ map shown rs = placed read a fs ++ repeat (inl fin) k.
Proof.
  intros pl c Hpl. set (w := word_align pl).
  exists (fun a f => outcome (by_record pl (g_body pl (bad_at pl (a mod w))) (mkEnv c eof_error) f 0)).
  split; [intros a b f H; now rewrite H|].
  intros S PB fin cap mem p a fs tl k o Ec Hf Hu Hs.
  apply (recording_by pl S PB Whole fin cap mem c (fun a => g_body pl (bad_at pl (a mod w))) (fun _ _ => True) Hpl) with
    (tl := tl); try assumption; [|auto].
  intros q l b Eq _ Hq. rewrite <- Eq. apply (gives_whole pl S PB fin cap mem q l b (b mod w) Hpl Hq).
  apply N.mod_mod. unfold w, word_align. now destruct (pl_align pl).
Qed.

(** Any source, for records that are read alike from all (C03). *)
(** Full statement: without [tame]; see C78_pieces_refuted below. *)
Theorem C78_any_partial : forall pl c, pl_ok pl ->
  exists read : list N -> perror + (body list * metadata),
  forall S (PB : parsebuf S) mo fin cap mem p a fs tl k,
  let o := order_of pl (c_endian c) in
  p_cfg p = c -> Forall (frame o) fs -> unfinished o tl ->
  source PB mo fin cap mem p (concat fs ++ tl) a ->
  (forall fs1 f fs2, fs = fs1 ++ f :: fs2 -> tame pl c mo (a + len (concat fs1)) (f ++ concat fs2 ++ tl)) ->
  exists rs p', run_gives pl PB p rs p' /\ map shown rs = map read fs ++ repeat (inl fin) k.
Proof.
  intros pl c Hpl. exists (fun f => outcome (by_record pl (f_body pl) (mkEnv c eof_error) f 0)).
  intros S PB mo fin cap mem p a fs tl k o Ec Hf Hu Hs Ht.
  destruct (recording_by pl S PB mo fin cap mem c (fun _ => f_body pl) (tame pl c mo) Hpl) with
    (k := k) (fs := fs) (tl := tl) (p := p) (a := a) as (rs & p' & R & E); try assumption.
  - intros q l b Eq Hq1 Hq. rewrite <- Eq in *. exact (gives_flat pl S PB mo fin cap mem q l b Hpl Hq Hq1).
  - exists rs, p'. split; [exact R|]. now rewrite E, placed_map.
Qed.

(** ** What follows from it. *)

(** A byte changed in one record, but for its size, changes what is read of no other. *)
Theorem C78_damage : forall pl c mo fin fs1 f fs2 tl i x k S1 (PB1 : parsebuf S1) cap1 mem1 p1
    S2 (PB2 : parsebuf S2) cap2 mem2 p2 a,
  let o := order_of pl (c_endian c) in
  pl_ok pl -> mo = NoExt \/ mo = Whole -> p_cfg p1 = c -> p_cfg p2 = c ->
  Forall (frame o) (fs1 ++ f :: fs2) -> unfinished o tl ->
  (i < length f)%nat -> i <> 6%nat -> i <> 7%nat -> x < 256 ->
  source PB1 mo fin cap1 mem1 p1 (concat (fs1 ++ f :: fs2) ++ tl) a ->
  source PB2 mo fin cap2 mem2 p2 (concat (fs1 ++ change i x f :: fs2) ++ tl) a ->
  exists rs1 p1' rs2 p2' xs y1 y2 zs,
    run_gives pl PB1 p1 rs1 p1' /\ run_gives pl PB2 p2 rs2 p2' /\
    map shown rs1 = xs ++ y1 :: zs /\ map shown rs2 = xs ++ y2 :: zs /\
    length xs = length fs1 /\ length zs = (length fs2 + k)%nat.
Proof.
  intros pl c mo fin fs1 f fs2 tl i x k S1 PB1 cap1 mem1 p1 S2 PB2 cap2 mem2 p2 a o Hpl Hmo E1 E2 Hf Hu Hi H6 H7 Hx Hs1 Hs2.
  assert (Hg : Forall (frame o) (fs1 ++ change i x f :: fs2)).
  { apply Forall_app in Hf as [F1 F2]. inversion F2; subst. apply Forall_app. split; [exact F1|].
    constructor; [now apply change_frame|assumption]. }
  assert (L : len (change i x f) = len f) by now apply change_len.
  assert (P : forall (R : Type) (read : N -> list N -> R) b, length (placed read b fs1) = length fs1 /\ 
                length (placed read b fs2) = length fs2).
  { intros R read. assert (G : forall fs b, length (placed read b fs) = length fs).
    { induction fs as [|y fs IH]; intros b; cbn; [|rewrite IH]; reflexivity. }
    split; apply G. }
  destruct Hmo as [-> | ->].
  - destruct (C78_copied pl c Hpl) as (read & H).
    destruct (H _ _ _ _ _ _ _ _ _ k E1 Hf Hu Hs1) as (rs1 & p1' & R1 & M1).
    destruct (H _ _ _ _ _ _ _ _ _ k E2 Hg Hu Hs2) as (rs2 & p2' & R2 & M2).
    rewrite map_app in M1, M2. cbn [map] in M1, M2. rewrite <- app_assoc in M1, M2.
    exists rs1, p1', rs2, p2', (map read fs1), (read f), (read (change i x f)), (map read fs2 ++ repeat (inl fin) k).
    split; [exact R1|]. split; [exact R2|]. split; [exact M1|]. split; [exact M2|].
    now rewrite app_length, !map_length, repeat_length.
  - destruct (C78_whole pl c Hpl) as (read & _ & H).
    destruct (H _ _ _ _ _ _ _ _ _ k E1 Hf Hu Hs1) as (rs1 & p1' & R1 & M1).
    destruct (H _ _ _ _ _ _ _ _ _ k E2 Hg Hu Hs2) as (rs2 & p2' & R2 & M2).
    rewrite placed_app in M1, M2. cbn [placed] in M1, M2. rewrite L in M2. rewrite <- app_assoc in M1, M2.
    exists rs1, p1', rs2, p2', (placed read a fs1), (read (a + len (concat fs1)) f),
      (read (a + len (concat fs1)) (change i x f)),
      (placed read (a + len (concat fs1) + len f) fs2 ++ repeat (inl fin) k).
    split; [exact R1|]. split; [exact R2|]. split; [exact M1|]. split; [exact M2|].
    rewrite app_length, repeat_length. destruct (P _ read a) as [-> _]. split; [reflexivity|].
    destruct (P _ read (a + len (concat fs1) + len f)) as [_ ->]. reflexivity.
Qed.

(** A recording cut between records can be read by several parsers. *)
Theorem C78_parts : forall pl c fin fs1 fs2 tl k S (PB : parsebuf S) cap mem p a
    S1 (PB1 : parsebuf S1) fin1 cap1 mem1 p1 a1 S2 (PB2 : parsebuf S2) cap2 mem2 p2 a2,
  let o := order_of pl (c_endian c) in
  pl_ok pl -> p_cfg p = c -> p_cfg p1 = c -> p_cfg p2 = c ->
  Forall (frame o) fs1 -> Forall (frame o) fs2 -> unfinished o tl ->
  source PB NoExt fin cap mem p (concat (fs1 ++ fs2) ++ tl) a ->
  source PB1 NoExt fin1 cap1 mem1 p1 (concat fs1) a1 ->
  source PB2 NoExt fin cap2 mem2 p2 (concat fs2 ++ tl) a2 ->
  exists rs p' rs1 p1' rs2 p2',
    run_gives pl PB p rs p' /\ run_gives pl PB1 p1 rs1 p1' /\ run_gives pl PB2 p2 rs2 p2' /\
    map shown rs = map shown rs1 ++ map shown rs2 /\
    length rs1 = length fs1 /\ length rs2 = (length fs2 + k)%nat.
Proof.
  intros pl c fin fs1 fs2 tl k S PB cap mem p a S1 PB1 fin1 cap1 mem1 p1 a1 S2 PB2 cap2 mem2 p2 a2 o Hpl E E1 E2 F1 F2 Hu
    Hs Hs1 Hs2.
  destruct (C78_copied pl c Hpl) as (read & H).
  destruct (H _ _ _ _ _ _ _ (fs1 ++ fs2) tl k E (proj2 (Forall_app _ _ _) (conj F1 F2)) Hu Hs) as (rs & p' & R & M).
  destruct (H _ PB1 fin1 cap1 mem1 _ a1 fs1 [] 0%nat E1 F1) as (rs1 & p1' & R1 & M1).
  { split; [constructor|]. left. reflexivity. }
  { now rewrite app_nil_r. }
  destruct (H _ _ _ _ _ _ _ _ _ k E2 F2 Hu Hs2) as (rs2 & p2' & R2 & M2).
  cbn [repeat] in M1. rewrite app_nil_r in M1.
  exists rs, p', rs1, p1', rs2, p2'. split; [exact R|]. split; [exact R1|]. split; [exact R2|].
  split; [rewrite M, M1, M2, map_app; apply app_assoc_reverse|].
  rewrite <- (map_length shown rs1), <- (map_length shown rs2), M1, M2.
  now rewrite app_length, !map_length, repeat_length.
Qed.

(** Records in another order are read alike, in that order. *)
Theorem C78_order : forall pl c fin fs1 fs2 tl k S1 (PB1 : parsebuf S1) cap1 mem1 p1 a1 S2 (PB2 : parsebuf S2) cap2 mem2 p2 a2,
  let o := order_of pl (c_endian c) in
  pl_ok pl -> p_cfg p1 = c -> p_cfg p2 = c -> Permutation fs1 fs2 -> Forall (frame o) fs1 -> unfinished o tl ->
  source PB1 NoExt fin cap1 mem1 p1 (concat fs1 ++ tl) a1 -> source PB2 NoExt fin cap2 mem2 p2 (concat fs2 ++ tl) a2 ->
  exists rs1 p1' rs2 p2', run_gives pl PB1 p1 rs1 p1' /\ run_gives pl PB2 p2 rs2 p2' /\
    length rs1 = (length fs1 + k)%nat /\
    Permutation (combine (fs1 ++ repeat [] k) (map shown rs1)) (combine (fs2 ++ repeat [] k) (map shown rs2)).
Proof.
  intros pl c fin fs1 fs2 tl k S1 PB1 cap1 mem1 p1 a1 S2 PB2 cap2 mem2 p2 a2 o Hpl E1 E2 HP F1 Hu Hs1 Hs2.
  assert (F2 : Forall (frame o) fs2).
  { rewrite Forall_forall in *. intros x Hx. apply F1. now apply Permutation_sym in HP; apply (Permutation_in x HP). }
  destruct (C78_copied pl c Hpl) as (read & H).
  destruct (H _ _ _ _ _ _ _ _ _ k E1 F1 Hu Hs1) as (rs1 & p1' & R1 & M1).
  destruct (H _ _ _ _ _ _ _ _ _ k E2 F2 Hu Hs2) as (rs2 & p2' & R2 & M2).
  exists rs1, p1', rs2, p2'. split; [exact R1|]. split; [exact R2|].
  split; [rewrite <- (map_length shown rs1), M1; now rewrite app_length, map_length, repeat_length|].
  rewrite M1, M2. assert (K : forall fs : list (list N), combine (fs ++ repeat [] k) (map read fs ++ repeat (inl fin) k) =
    map (fun f => (f, read f)) fs ++ combine (repeat [] k) (repeat (inl fin) k)).
  { induction fs as [|f fs IH]; cbn; [reflexivity|now rewrite IH]. }
  rewrite !K. apply Permutation_app_tail. now apply Permutation_map.
Qed.

(** ** Examples: a LOST record, a header whose size is too small, a COMM record which has no room for its sample_id,
    another LOST record, and the beginning of a third. *)
Definition mixed : list (list N) :=
  [ex_lost; w_header LE 7 0 3; w_header LE 3 0 12 ++ [65; 66; 0; 0]; ex_lost].
Definition mixed_tail : list N := firstn 11 ex_lost.
Definition mixed_pieces : list (list N) := [firstn 50 (concat mixed); skipn 50 (concat mixed) ++ mixed_tail].

Example C78_example :
  Forall (frame LE) mixed /\ unfinished LE mixed_tail /\
  (forall cap mem, 16384 <= cap ->
     source bufreader_buf NoExt eof_error cap mem (reader_of mixed_pieces ex_cfg) (concat mixed ++ mixed_tail) 0) /\
  source slice_buf Whole eof_error 200 (memory_of 4096 (concat mixed ++ mixed_tail))
    (on_slice 4096 (concat mixed ++ mixed_tail) ex_cfg) (concat mixed ++ mixed_tail) 4096 /\
  exists rs p', run_gives pl64 bufreader_buf (reader_of mixed_pieces ex_cfg) rs p' /\
  map shown rs =
    [inr (BLost (mkLost 7 9), mkMeta 2 1 ex_id); inl (custom_error KInvalidRecord MsgHeaderTooSmall);
     inl (custom_error KInvalidRecord MsgNoRoomForSampleId); inr (BLost (mkLost 7 9), mkMeta 2 1 ex_id);
     inl eof_error; inl eof_error].
Proof.
  assert (B : bytes (concat mixed ++ mixed_tail)) by (vm_compute; repeat constructor).
  split; [unfold mixed; repeat constructor|]. split; [split; [repeat constructor|right; reflexivity]|]. split.
  { intros cap mem Hc. change (concat mixed ++ mixed_tail) with ([] ++ concat mixed_pieces).
    apply (reader_source [] mixed_pieces None); [exact Hc|exact B|reflexivity|]. repeat constructor; discriminate. }
  split.
  { apply slice_source; [exact B|reflexivity|vm_compute; discriminate|apply memory_of_at]. }
  eexists [inr _; inl _; inl _; inr _; inl _; inl _], _. split.
  { eexists. split; [apply collect_gives; vm_compute; reflexivity|].
    eexists. split; [intros O V; rewrite record_eq; vm_compute; reflexivity|].
    eexists. split; [intros O V; rewrite record_eq; vm_compute; reflexivity|].
    eexists. split; [apply collect_gives; vm_compute; reflexivity|].
    eexists. split; [intros O V; rewrite record_eq; vm_compute; reflexivity|].
    eexists. split; [intros O V; rewrite record_eq; vm_compute; reflexivity|]. reflexivity. }
  reflexivity.
Qed.

(** With the number of lost records of the last one changed. *)
Example C78_example_damage :
  concat (firstn 3 mixed ++ change 16 200 ex_lost :: []) <> concat mixed /\
  exists p', run_gives pl64 slice_buf (on_slice 4096 (concat (firstn 3 mixed ++ [change 16 200 ex_lost])) ex_cfg)
    [inr (BLost (mkLost 7 9), mkMeta 2 1 ex_id); inl (custom_error KInvalidRecord MsgHeaderTooSmall);
     inl (custom_error KInvalidRecord MsgNoRoomForSampleId); inr (BLost (mkLost 7 200), mkMeta 2 1 ex_id)] p' /\
  p_off p' = 100.
Proof.
  split; [discriminate|]. eexists. split.
  { eexists. split; [apply collect_gives; vm_compute; reflexivity|].
    eexists. split; [intros O V; rewrite record_eq; vm_compute; reflexivity|].
    eexists. split; [intros O V; rewrite record_eq; vm_compute; reflexivity|].
    eexists. split; [apply collect_gives; vm_compute; reflexivity|]. reflexivity. }
  reflexivity.
Qed.

(** Memory lent in several pieces is another matter: of two equal frames the second, which is cut,
    is read differently, though the pieces lie side by side in memory. *)
Definition poked_twice : list chunk :=
  let d := poke_bytes ++ poke_bytes in [External 4096 (take 46 d); External (4096 + 46) (drop 46 d)].

Theorem C78_pieces_refuted :
  let c := mkConfig 0 0 0 Little in
  let d := poke_bytes ++ poke_bytes in
  frame LE poke_bytes /\
  source chunklist_buf AnyExt eof_error 16384 (memory_of 4096 d) (new_parser poked_twice c) d 0 /\
  exists r1 p1 r2 p2,
    gives pl64 chunklist_buf (new_parser poked_twice c) r1 p1 /\ gives pl64 chunklist_buf p1 r2 p2 /\
    shown r1 <> shown r2.
Proof.
  cbv zeta. split; [split; [vm_compute; repeat constructor|reflexivity]|]. split.
  { apply (chunks_source poked_twice).
    - reflexivity.
    - vm_compute. repeat constructor.
    - reflexivity.
    - assert (M : mem_at (memory_of 4096 (poke_bytes ++ poke_bytes)) 4096 (poke_bytes ++ poke_bytes))
        by apply memory_of_at.
      unfold poked_twice. cbv zeta. cbn [list_ok]. split; [discriminate|]. split; [|split; [discriminate|]].
      + split; [|exact Logic.I]. now apply mem_at_take.
      + split; [|exact Logic.I]. split; [now apply mem_at_drop|exact Logic.I]. }
  eexists. eexists. eexists. eexists.
  split; [apply collect_gives; vm_compute; reflexivity|].
  split; [apply collect_gives; vm_compute; reflexivity|]. discriminate.
Qed.

Print Assumptions C78_frames.
Print Assumptions C78_copied.
Print Assumptions C78_whole.
Print Assumptions C78_any_partial.
Print Assumptions C78_damage.
Print Assumptions C78_parts.
Print Assumptions C78_order.
Print Assumptions C78_pieces_refuted.
