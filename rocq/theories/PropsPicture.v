(** C77: nothing of a record is lost but what Picture.v leaves open. *)
From Coq Require Import NArith List Bool Lia.
From Verif Require Import Base BaseFacts Types Platform Config Buf Parser Contract Flat Refine.
From Verif Require Import Instances Prims Slices Records Sample Record Attr Views RefRecords.
From Verif Require Import RefFrame RefTop Wire Codec Roundtrip ConfFacts Spec SameFacts.
From Verif Require Import Accept AcceptFacts AcceptRecord ExData Picture PictureFacts.
From Verif Require Import PropsFrame PropsSame PropsBorrow PropsAccept.
Import ListNotations.
Open Scope N_scope.

(** [p] reads a record [v] with [md], and takes [n] bytes. *)
Definition reads (pl : platform) {S : Type} (PB : parsebuf S) (mo : mode) (fin : perror) (cap : N) (mem : memory)
  (p : parser S) (l : list N) (a : N) (v : body list) (md : metadata) (n : N) : Prop :=
  exists b p', gives pl PB p (inr (b, md)) p' /\ view_body b = v /\ moved PB mo fin cap mem l a p n p'.

(** The bytes of a record have the layout drawn from what was read; and whatever has that layout
    is read as the same record, from any source with this configuration. *)
(** Full statement: without [tame]; see C77_reader_refuted below. *)
Theorem C77_record_partial : forall pl S (PB : parsebuf S) mo fin cap mem w p l a v md n,
  let o := order_of pl (c_endian (p_cfg p)) in
  pl_ok pl -> configured (p_cfg p) w -> ws_regs_user w < 2 ^ 64 -> ws_regs_intr w < 2 ^ 64 ->
  source PB mo fin cap mem p l a -> tame pl (p_cfg p) mo a l ->
  reads pl PB mo fin cap mem p l a v md n ->
  exists t, let q := picture (pl_bits pl) o w v md n t in
  fits q (take n l) /\
  forall S2 (PB2 : parsebuf S2) mo2 fin2 cap2 mem2 p2 l2 a2,
  p_cfg p2 = p_cfg p -> source PB2 mo2 fin2 cap2 mem2 p2 l2 a2 -> tame pl (p_cfg p2) mo2 a2 l2 ->
  n <= len l2 -> fits q (take n l2) ->
  reads pl PB2 mo2 fin2 cap2 mem2 p2 l2 a2 v md n.
Proof.
  intros pl S PB mo fin cap mem w p l a v md n o Hpl Hw Hu Hi Hs Ht Hr.
  destruct (proj1 (C65_record_partial pl S PB mo fin cap mem w p l a v md n Hpl Hw Hu Hi Hs Ht) Hr)
    as (Hn & m & si & b & -> & -> & Hb).
  destruct (record_picture _ _ _ _ _ _ _ _ Hb) as (t & F & G). exists t. cbv zeta in *.
  rewrite len_take, N.min_l in F, G by exact Hn. split; [exact F|].
  intros S2 PB2 mo2 fin2 cap2 mem2 p2 l2 a2 Ec Hs2 Ht2 Hn2 F2.
  destruct (G _ F2) as (b2 & T2 & E2 & Hb2).
  apply (C65_record_partial pl S2 PB2 mo2 fin2 cap2 mem2 w p2 l2 a2 _ _ n Hpl); try assumption; try (now rewrite Ec).
  split; [exact Hn2|]. exists m, si, b2. rewrite T2, E2, Ec. auto.
Qed.

(** ** Two records read alike, of the same size. *)

(** A sample with a user stack does not tell how long the stack was. *)
Definition no_stack (v : body list) : Prop :=
  match v with BSample s => s_stack_user s = None | _ => True end.

Lemma no_stack_same : forall bits o w v md n t t', no_stack v ->
  picture bits o w v md n t = picture bits o w v md n t'.
Proof.
  intros bits o w v md n t t' H. unfold picture. cbv zeta.
  assert (E : forall ty room, p_body bits o w ty v room t = p_body bits o w ty v room t').
  { intros ty room. destruct v; try reflexivity. cbn [p_body no_stack] in *. unfold p_sample. now rewrite H. }
  now rewrite E.
Qed.

Lemma fits_nth : forall q bs i x, fits q bs -> nth_error q i = Some (Some x) -> nth_error bs i = Some x.
Proof.
  intros q bs i x H. revert i. induction H as [|y b q bs Hy H IH]; intros [|i] E; cbn in *; try discriminate.
  - injection E as ->. destruct Hy as [Hy|Hy]; [discriminate|]. now injection Hy as ->.
  - now apply IH.
Qed.

(** They are the same bytes, but for those left open. *)
(** Full statement: without [tame]. *)
Theorem C77_agree_partial : forall pl c w v md n S1 (PB1 : parsebuf S1) mo1 fin1 cap1 mem1 p1 l1 a1
    S2 (PB2 : parsebuf S2) mo2 fin2 cap2 mem2 p2 l2 a2,
  let q := picture (pl_bits pl) (order_of pl (c_endian c)) w v md n 0 in
  pl_ok pl -> configured c w -> ws_regs_user w < 2 ^ 64 -> ws_regs_intr w < 2 ^ 64 -> no_stack v ->
  p_cfg p1 = c -> source PB1 mo1 fin1 cap1 mem1 p1 l1 a1 -> tame pl c mo1 a1 l1 ->
  p_cfg p2 = c -> source PB2 mo2 fin2 cap2 mem2 p2 l2 a2 -> tame pl c mo2 a2 l2 ->
  reads pl PB1 mo1 fin1 cap1 mem1 p1 l1 a1 v md n -> reads pl PB2 mo2 fin2 cap2 mem2 p2 l2 a2 v md n ->
  len q = n /\
  forall i x, nth_error q i = Some (Some x) ->
    nth_error (take n l1) i = Some x /\ nth_error (take n l2) i = Some x.
Proof.
  intros pl c w v md n S1 PB1 mo1 fin1 cap1 mem1 p1 l1 a1 S2 PB2 mo2 fin2 cap2 mem2 p2 l2 a2 q
    Hpl Hw Hu Hi Hv E1 Hs1 Ht1 E2 Hs2 Ht2 R1 R2. subst c.
  destruct (C77_record_partial pl S1 PB1 mo1 fin1 cap1 mem1 w p1 l1 a1 v md n Hpl Hw Hu Hi Hs1 Ht1 R1) as (t1 & F1 & _).
  rewrite <- E2 in Hw, Ht2.
  destruct (C77_record_partial pl S2 PB2 mo2 fin2 cap2 mem2 w p2 l2 a2 v md n Hpl Hw Hu Hi Hs2 Ht2 R2) as (t2 & F2 & _).
  cbv zeta in F1, F2. rewrite (no_stack_same _ _ _ _ _ _ t1 0 Hv) in F1.
  rewrite (no_stack_same _ _ _ _ _ _ t2 0 Hv), E2 in F2. fold q in F1, F2. split.
  - rewrite (fits_len _ _ F1), len_take. destruct R1 as (b & p' & _ & _ & Hn & _). lia.
  - intros i x H. split; eapply fits_nth; eassumption.
Qed.

(** If nothing is left open, the record can be written back byte for byte. *)
(** Full statement: without [tame]. *)
Theorem C77_exact_partial : forall pl S (PB : parsebuf S) mo fin cap mem w p l a v md n,
  let q := picture (pl_bits pl) (order_of pl (c_endian (p_cfg p))) w v md n 0 in
  pl_ok pl -> configured (p_cfg p) w -> ws_regs_user w < 2 ^ 64 -> ws_regs_intr w < 2 ^ 64 -> no_stack v ->
  source PB mo fin cap mem p l a -> tame pl (p_cfg p) mo a l ->
  reads pl PB mo fin cap mem p l a v md n -> filled q ->
  just (take n l) = q.
Proof.
  intros pl S PB mo fin cap mem w p l a v md n q Hpl Hw Hu Hi Hv Hs Ht R Hf.
  destruct (C77_record_partial pl S PB mo fin cap mem w p l a v md n Hpl Hw Hu Hi Hs Ht R) as (t & F & _).
  cbv zeta in F. rewrite (no_stack_same _ _ _ _ _ _ t 0 Hv) in F. fold q in F. revert F. generalize (take n l).
  clear - Hf. induction Hf as [|x q Hx Hf IH]; intros bs F; inversion F as [|? b ? bs' Hb F']; subst; [reflexivity|].
  cbn [just map]. f_equal; [|now apply IH]. destruct Hb as [Hb|Hb]; [contradiction|now symmetry].
Qed.

(** ** Writing back. *)

(** Zeros where something is open. *)
Definition fill (q : layout) : list N := map (fun x => match x with Some b => b | None => 0 end) q.

Lemma fill_fits : forall q, fits q (fill q).
Proof. induction q as [|[x|] q IH]; constructor; auto. Qed.

Fixpoint pictures (bits : N) (o : order) (w : settings) (vs : list (body list * metadata)) (ns : list (N * N)) : layout :=
  match vs, ns with
  | (v, md) :: vs, (n, t) :: ns => picture bits o w v md n t ++ pictures bits o w vs ns
  | _, _ => []
  end.

Lemma records_pictures : forall bits host o w vs bs, are_records bits host o w vs bs ->
  exists ns, length ns = length vs /\ fits (pictures bits o w vs ns) bs /\
  forall bs2, fits (pictures bits o w vs ns) bs2 -> are_records bits host o w vs bs2.
Proof.
  intros bits host o w vs bs H. induction H as [|m si b vs b1 b2 Hr _ (ns & En & F & G)].
  - exists []. split; [reflexivity|]. split; [constructor|]. intros bs2 F. inversion F. constructor.
  - destruct (record_picture _ _ _ _ _ _ _ _ Hr) as (t & F1 & G1). exists ((len b1, t) :: ns). cbv zeta in *.
    split; [cbn [length]; now f_equal|]. cbn [pictures]. split; [now apply fits_app_intro|].
    intros bs2 F2. apply fits_app in F2 as (c1 & c2 & -> & F3 & F4). destruct (G1 _ F3) as (b' & T & E & Hr').
    rewrite <- T, <- E. constructor; [exact Hr'|now apply G].
Qed.

(** A recording can be written anew from what was read of it, the sizes of the records, and the lengths of the
    stacks.  It has the same bytes but for those left open, and the same is read from it. *)
(** Full statement: without [tame_all]. *)
Theorem C77_stream_partial : forall pl S (PB : parsebuf S) mo fin cap mem w p l a vs n,
  let o := order_of pl (c_endian (p_cfg p)) in
  pl_ok pl -> configured (p_cfg p) w -> ws_regs_user w < 2 ^ 64 -> ws_regs_intr w < 2 ^ 64 ->
  source PB mo fin cap mem p l a -> tame_all pl w (p_cfg p) mo a l ->
  (exists xs p', gives_all pl PB p xs p' /\ map seen xs = vs /\ moved PB mo fin cap mem l a p n p') ->
  exists ns, length ns = length vs /\
  let q := pictures (pl_bits pl) o w vs ns in
  fits q (take n l) /\
  forall S2 (PB2 : parsebuf S2) mo2 fin2 cap2 mem2 p2 a2,
  p_cfg p2 = p_cfg p -> source PB2 mo2 fin2 cap2 mem2 p2 (fill q) a2 -> tame_all pl w (p_cfg p2) mo2 a2 (fill q) ->
  exists xs2 p2', gives_all pl PB2 p2 xs2 p2' /\ map seen xs2 = vs /\
    moved PB2 mo2 fin2 cap2 mem2 (fill q) a2 p2 n p2'.
Proof.
  intros pl S PB mo fin cap mem w p l a vs n o Hpl Hw Hu Hi Hs Ht Hr.
  apply (C65_stream_partial pl S PB mo fin cap mem w p l a vs n Hpl Hw Hu Hi Hs Ht) in Hr as [Hn Hr]. fold o in Hr.
  destruct (records_pictures _ _ _ _ _ _ Hr) as (ns & En & F & G). exists ns. split; [exact En|]. cbv zeta.
  split; [exact F|]. intros S2 PB2 mo2 fin2 cap2 mem2 p2 a2 Ec Hs2 Ht2.
  set (q := pictures (pl_bits pl) o w vs ns) in *.
  assert (L : len (fill q) = n).
  { rewrite <- (fits_len _ _ (fill_fits q)), (fits_len _ _ F), len_take. lia. }
  apply (C65_stream_partial pl S2 PB2 mo2 fin2 cap2 mem2 w p2 (fill q) a2 vs n Hpl); try assumption; [now rewrite Ec|].
  split; [lia|]. rewrite Ec. fold o. rewrite <- L, take_all by lia. apply G, fill_fits.
Qed.

(** Sources that copy lose the old bytes of a TEXT_POKE record with nothing new and no padding
    (C35): two such records which differ in all four of them are read alike, and told apart in
    memory.  So the condition [tame] is needed. *)
Definition wiped (old : list N) : wbody := WTextPoke (mkTextPoke 77 old []).
Definition wiped_bytes (old : list N) : list N := w_record LE ex_set0 1 sample_id_default (wiped old).

Theorem C77_reader_refuted : exists old1 old2 v,
  let md := mkMeta 20 1 sample_id_default in
  let l1 := wiped_bytes old1 in
  let l2 := wiped_bytes old2 in
  Forall2 (fun x y => x <> y) old1 old2 /\ old1 <> [] /\ configured ex_cfg0 ex_set0 /\
  (forall cap mem, 16384 <= cap ->
     source bufreader_buf NoExt eof_error cap mem (reader_of [l1] ex_cfg0) l1 0 /\
     source bufreader_buf NoExt eof_error cap mem (reader_of [l2] ex_cfg0) l2 0) /\
  (exists b p', gives pl64 bufreader_buf (reader_of [l1] ex_cfg0) (inr (b, md)) p' /\ view_body b = v) /\
  (exists b p', gives pl64 bufreader_buf (reader_of [l2] ex_cfg0) (inr (b, md)) p' /\ view_body b = v) /\
  (exists b p', gives pl64 slice_buf (on_slice 4096 l1 ex_cfg0) (inr (b, md)) p' /\
     view_body b = expected (wiped old1)) /\
  (exists b p', gives pl64 slice_buf (on_slice 4096 l2 ex_cfg0) (inr (b, md)) p' /\
     view_body b = expected (wiped old2)).
Proof.
  exists [1; 2; 3; 4], [5; 6; 7; 8], (BTextPoke (mkTextPoke 77 [] [])). cbv zeta.
  split; [repeat (constructor; [discriminate|]); constructor|]. split; [discriminate|].
  split; [repeat split|]. split.
  { intros cap mem Hc. split; [apply (reader_source [] [wiped_bytes [1; 2; 3; 4]] None)
                             |apply (reader_source [] [wiped_bytes [5; 6; 7; 8]] None)];
    try exact Hc; try (vm_compute; congruence); repeat constructor; discriminate. }
  repeat split; (eexists; eexists; split; [apply collect_gives; vm_compute; reflexivity|reflexivity]).
Qed.

(** ** Examples *)

(** LOST without a sample_id leaves nothing open, and is written back as it was. *)
Example C77_example :
  let l := w_record LE ex_set0 1 sample_id_default (WLost (mkLost 7 9)) in
  let q := picture 64 LE ex_set0 (BLost (mkLost 7 9)) (mkMeta 2 1 sample_id_default) 24 0 in
  configured ex_cfg0 ex_set0 /\
  source slice_buf Whole eof_error (len l) (memory_of 4096 l) (on_slice 4096 l ex_cfg0) l 4096 /\
  tame pl64 ex_cfg0 Whole 4096 l /\
  (exists p', gives pl64 slice_buf (on_slice 4096 l ex_cfg0) (inr (BLost (mkLost 7 9), mkMeta 2 1 sample_id_default)) p') /\
  filled q /\ just l = q.
Proof.
  cbv zeta. split; [repeat split|]. split.
  { apply slice_source; [vm_compute; repeat constructor|reflexivity|apply N.le_refl|apply memory_of_at]. }
  split; [split; [discriminate|now left; split]|]. split.
  { eexists. apply collect_gives. vm_compute. reflexivity. }
  split; [vm_compute; repeat constructor; discriminate|vm_compute; reflexivity].
Qed.

(** The reserved half of the cpu number and three bytes nobody asked for are open in this one (PropsAccept.v). *)
Example C77_example_open :
  let q := picture 64 LE odd_set (BLost (mkLost 7 9)) (mkMeta 2 5 odd_id) 35 0 in
  q = just (w_header LE 2 5 35 ++ w64 LE 7 ++ w64 LE 9) ++ any 3 ++ just (w32 LE 3) ++ any 4 /\
  fits q odd_lost /\
  exists p', gives pl64 bufreader_buf (reader_of [fill q] odd_cfg) (inr (BLost (mkLost 7 9), mkMeta 2 5 odd_id)) p'.
Proof.
  cbv zeta. split; [reflexivity|]. split.
  { vm_compute. repeat (constructor; [first [left; reflexivity|right; reflexivity]|]). constructor. }
  eexists. apply collect_gives. vm_compute. reflexivity.
Qed.

(** A sample with a cpu number, padded raw data and a stack of which two bytes of four are in use. *)
Definition open_set : settings := mkSettings (2 ^ 7 + 2 ^ 10 + 2 ^ 13) 0 false false 0 0.
Definition open_cfg : config := mkConfig (cf_new 0 (2 ^ 7 + 2 ^ 10 + 2 ^ 13) false false 0) 0 0 Little.
Definition open_sample : list N :=
  w_header LE 9 2 44 ++ w32 LE 3 ++ [1; 2; 3; 4] ++ w32 LE 2 ++ [70; 71; 5; 6] ++
  w64 LE 4 ++ [80; 81; 7; 8] ++ w64 LE 2.
Definition open_value : sample list :=
  mkSample None None None None None None None (Some 3) None None None (Some [70; 71])
    None None None (Some [80; 81]) None None None None None None None None None.

Example C77_example_sample :
  let md := mkMeta 9 2 sample_id_default in
  let q := picture 64 LE open_set (BSample open_value) md 44 2 in
  configured open_cfg open_set /\
  (forall cap mem, 16384 <= cap ->
     source bufreader_buf NoExt eof_error cap mem (reader_of [open_sample] open_cfg) open_sample 0) /\
  tame pl64 open_cfg NoExt 0 open_sample /\
  (exists b p', gives pl64 bufreader_buf (reader_of [open_sample] open_cfg) (inr (b, md)) p' /\
     view_body b = BSample open_value) /\
  q = just (w_header LE 9 2 44 ++ w32 LE 3) ++ any 4 ++ just (w32 LE 2 ++ [70; 71]) ++ any 2 ++
      just (w64 LE 4 ++ [80; 81]) ++ any 2 ++ just (w64 LE 2) /\
  fits q open_sample /\
  exists b p', gives pl64 bufreader_buf (reader_of [fill q] open_cfg) (inr (b, md)) p' /\
     view_body b = BSample open_value.
Proof.
  cbv zeta. split; [repeat split|]. split.
  { intros cap mem Hc. apply (reader_source [] [open_sample] None); [exact Hc| | |]; try (vm_compute; congruence);
    repeat constructor; discriminate. }
  split; [split; [discriminate|right; right; now left]|]. split.
  { eexists. eexists. split; [apply collect_gives; vm_compute; reflexivity|reflexivity]. }
  split; [reflexivity|]. split.
  { vm_compute. repeat (constructor; [first [left; reflexivity|right; reflexivity]|]). constructor. }
  eexists. eexists. split; [apply collect_gives; vm_compute; reflexivity|reflexivity].
Qed.

Print Assumptions C77_record_partial.
Print Assumptions C77_agree_partial.
Print Assumptions C77_exact_partial.
Print Assumptions C77_stream_partial.
Print Assumptions C77_reader_refuted.
