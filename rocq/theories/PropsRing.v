(** C84: records are read rightly from a ring buffer while the kernel writes it. *)
From Coq Require Import NArith List Bool Lia.
From Verif Require Import Base BaseFacts Types Platform Config Buf Parser Contract Flat Refine.
From Verif Require Import Instances Records Sample Record Views RefFrame RefTop Wire Spec SameFacts.
From Verif Require Import Framing FramingFacts ExData PropsFrame PropsSame PropsBorrow Ring RingFacts.
Import ListNotations.
Open Scope N_scope.

(** Whatever the kernel writes meanwhile, the ring is a source of what was in it when the reader looked at
    [data_head], lent where it is. *)
Theorem C84_source : forall pl c s q ws, laid_out s -> holds s q -> Forall (calm pl c) q ->
  source ring_buf Coh eof_error (sh_size s) (sh_mem s) (new_parser (open_ring s ws) c) (concat q) (sh_base s + sh_tail s).
Proof.
  intros pl c s q ws (L1 & L2 & L3 & _) Hh Hq. exists (ring_rep s ws).
  split; [apply ring_contract; try assumption; [apply Hh|reflexivity]|]. split; [now apply opened|].
  split; [now apply calm_bytes in Hq|]. destruct Hh as ((_ & _ & G) & E & _). clear - L3 G E. lia.
Qed.

(** A session, however writing and reading go together, is one with a queue: records come once, in order, those
    for which there was no room are missing, and each is read as from any other source. *)
Theorem C84_session : forall pl c, pl_ok pl ->
  exists read : list N -> perror + (body list * metadata),
  (forall S (PB : parsebuf S) mo fin cap mem p f rest a,
    p_cfg p = c -> frame (order_of pl (c_endian c)) f -> tame pl c mo a (f ++ rest) ->
    source PB mo fin cap mem p (f ++ rest) a ->
    exists r p', gives pl PB p r p' /\ shown r = read f) /\
  forall s es, laid_out s -> sh_size s <> 0 -> sh_put s = sh_tail s -> Forall (calm pl c) (written es) ->
  exists rs, session pl c s es rs /\
    map (map shown) rs =
    map (map (fun o => match o with Some f => read f | None => inl eof_error end)) (served (sh_size s) [] es).
Proof.
  intros pl c Hpl. exists (reading pl c). split.
  - intros S PB mo fin cap mem p f rest a Ec Hf Ht Hs.
    destruct (stream_by pl S PB mo fin cap mem c (fun _ => f_body pl) (tame pl c mo)) with
      (fs := [f]) (tl := rest) (p := p) (a := a) as (rs & p' & R & E & _); try assumption.
    + intros p1 l b E1 Hq1 Hq. rewrite <- E1 in *. exact (gives_flat pl S PB mo fin cap mem p1 l b Hpl Hq Hq1).
    + now constructor.
    + cbn [concat]. now rewrite app_nil_r.
    + intros [|g fs1] h fs2 E; cbn in E.
      * injection E as <- <-. cbn [concat app]. change (len (@nil N)) with 0. now rewrite N.add_0_r.
      * destruct fs1; discriminate.
    + destruct rs as [|r [|? ?]]; try discriminate. destruct R as (p1 & G & _). exists r, p1. split; [exact G|].
      cbn [map placed] in E. injection E as E. exact E.
  - intros s es Hl Hz Hp Hw. apply session_served; try assumption; [|constructor].
    split; [split; [exact Hz|lia]|]. cbn. split; [lia|reflexivity].
Qed.

(** Until they are released the bytes a record borrows stay as they are, whatever the kernel writes. *)
Theorem C84_held : forall pl c s q k ws, pl_ok pl -> laid_out s -> holds s q -> Forall (calm pl c) q ->
  exists xs p', length xs = k /\ run_gives pl ring_buf (new_parser (open_ring s ws) c) xs p' /\
    forall more b md, In (inr (b, md)) xs ->
      ok_body Coh (sh_mem (fold_left write more (rd_shared (p_buf p')))) pl b.
Proof.
  intros pl c s q k ws Hpl (L1 & L2 & L3 & L4) Hh Hq.
  assert (Hwf : wf (concat q)).
  { split; [now apply calm_bytes in Hq|]. destruct Hh as ((_ & _ & G) & E & _). clear - L3 G E. lia. }
  assert (Ha : (sh_base s + sh_tail s) mod 8 = 0) by (rewrite N.add_mod, L1, L4 by discriminate; reflexivity).
  destruct (ring_run pl c s ws Hpl (proj1 Hh) L1 L2 k q (new_parser (open_ring s ws) c) (sh_base s + sh_tail s) eq_refl
    (opened s ws q Hh) Hwf Ha Hq) as (xs & p' & E1 & E2 & _ & E4 & ((gone & _ & E5) & _) & _).
  exists xs, p'. split; [exact E1|]. split; [exact E2|]. intros more b md Hin. rewrite Forall_forall in E4.
  apply (E4 _ Hin). rewrite E5, <- fold_left_app. destruct (writes_keep (concat gone ++ more) s (proj1 Hh)) as (_ & _ & _ & _ & _ & M). exact M.
Qed.

(** ** Examples *)

(** A ring of 96 bytes, empty, at a position 16 bytes before its end. *)
Definition small : shared := mkShared 4096 96 (fun _ => 0) 176 176.

(** LOST without a sample_id. *)
Definition short_lost : list N := w_record LE ex_set0 1 sample_id_default (WLost (mkLost 7 9)).

(** Records nobody knows with 8 bytes [b]. *)
Definition eight (b : N) : list N := w_header LE 99 0 16 ++ repeat b 8.

Example C84_small : laid_out small /\ sh_size small <> 0 /\ sh_put small = sh_tail small.
Proof. split; [repeat split|]. split; [discriminate|reflexivity]. Qed.

Lemma calm_lost : calm pl64 ex_cfg0 short_lost.
Proof.
  split; [split; [vm_compute; repeat constructor|reflexivity]|]. split; [reflexivity|].
  split; intros E; vm_compute in E; discriminate.
Qed.

Lemma calm_eight : forall b, b < 256 -> calm pl64 ex_cfg0 (eight b).
Proof.
  intros b Hb. split; [split|].
  - unfold eight, bytes. apply Forall_app. split; [vm_compute; repeat constructor|repeat constructor; exact Hb].
  - reflexivity.
  - split; [reflexivity|]. split; intros E; vm_compute in E; discriminate.
Qed.

(** LOST around the end of the ring; then, while one record is read, four more are written: three fit beside the two that
    were there and one does not, since nothing is released yet.  They are read in order, then there is an end. *)
Definition story : list deed :=
  [Write short_lost; Write (eight 1); Reads 1 [[short_lost]; [eight 2]; [eight 3; eight 4]]; Write (eight 5); Reads 6 [[eight 6]]; Write (eight 7);
   Reads 1 []].

Example C84_example :
  Forall (calm pl64 ex_cfg0) (written story) /\
  served (sh_size small) [] story =
    [[Some short_lost];
     [Some (eight 1); Some short_lost; Some (eight 2); Some (eight 3); Some (eight 5); None];
     [Some (eight 7)]].
Proof.
  split; [|vm_compute; reflexivity].
  repeat (constructor; [first [exact calm_lost|apply calm_eight; reflexivity]|]). constructor.
Qed.

(** The results of the session are those of the records. *)
Example C84_example_results : exists rs, session pl64 ex_cfg0 small story rs /\
  map (map (fun r => match r with inr (b, _) => Some (view_body b) | inl _ => None end)) rs =
  [[Some (BLost (mkLost 7 9))];
   [Some (BUnknown (repeat 1 8)); Some (BLost (mkLost 7 9)); Some (BUnknown (repeat 2 8));
    Some (BUnknown (repeat 3 8)); Some (BUnknown (repeat 5 8)); None];
   [Some (BUnknown (repeat 7 8))]].
Proof.
  destruct C84_small as (H1 & H2 & H3). destruct C84_example as (H4 & H5).
  destruct (session_served pl64 ex_cfg0 story small [] (proj1 platforms_ok)) as (rs & R1 & R2); try assumption.
  - repeat split; vm_compute; discriminate.
  - constructor.
  - exists rs. split; [exact R1|]. rewrite H5 in R2. clear - R2.
    apply (f_equal (map (map (fun r : perror + (body list * metadata) => match r with inr (b, _) => Some b | inl _ => None end)))) in R2.
    rewrite map_map in R2. erewrite map_ext in R2 by (intros; apply map_map).
    match type of R2 with _ = ?v => assert (E : v = _) by (vm_compute; reflexivity) end. rewrite E in R2. clear E.
    eapply eq_trans; [|eapply eq_trans; [exact R2|reflexivity]].
    apply map_ext. intros l. apply map_ext. intros [e|[b md]]; reflexivity.
Qed.

(** After they are released they may be overwritten. *)
Theorem C84_released_refuted :
  ~ (forall pl c s q ws xs p' more b md, pl_ok pl -> laid_out s -> holds s q -> Forall (calm pl c) q ->
     run_gives pl ring_buf (new_parser (open_ring s ws) c) xs p' -> In (inr (b, md)) xs ->
     ok_body Coh (sh_mem (fold_left write more (close_ring (p_buf p')))) pl b).
Proof.
  intros H. set (s := write (mkShared 4096 16 (fun _ => 0) 0 0) (eight 1)).
  assert (G : exists b md p', gives pl64 ring_buf (new_parser (open_ring s []) ex_cfg0) (inr (b, md)) p' /\
    ~ ok_body Coh (sh_mem (fold_left write [eight 2] (close_ring (p_buf p')))) pl64 b).
  { do 3 eexists. split; [apply collect_gives; vm_compute; reflexivity|].
    vm_compute. intros K. discriminate (K 0 _ eq_refl). }
  destruct G as (b & md & p' & G & K). apply K. eapply (H pl64 ex_cfg0 s [eight 1] [] [inr (b, md)] p').
  - apply platforms_ok.
  - repeat split.
  - apply write_holds with (q := []). repeat split; discriminate.
  - constructor; [apply calm_eight; reflexivity|constructor].
  - exists p'. now split.
  - now left.
Qed.

(** What C84_held is about: a record which borrows. *)
Example C84_held_example : exists b md p', gives pl64 ring_buf
    (new_parser (open_ring (write small (eight 1)) [[eight 2]]) ex_cfg0) (inr (BUnknown (Borrowed b (repeat 1 8)), md)) p' /\
    rd_shared (p_buf p') <> write small (eight 1).
Proof.
  do 3 eexists. split; [apply collect_gives; vm_compute; reflexivity|].
  intros E. apply (f_equal sh_put) in E. vm_compute in E. discriminate.
Qed.

Print Assumptions C84_source.
Print Assumptions C84_session.
Print Assumptions C84_held.
Print Assumptions C84_released_refuted.
