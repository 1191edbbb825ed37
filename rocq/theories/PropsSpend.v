(** C83: refusing a record costs no more memory than twice the record. *)
From Coq Require Import NArith List Bool Lia.
From Verif Require Import Base BaseFacts Types Platform Config Buf Parser Contract Refine.
From Verif Require Import Instances Records Sample Record RefFrame Wire Spec Size SizeFacts SizeTop SpendFacts SpendTop.
From Verif Require Import ExData PropsFrame PropsSafe PropsSame PropsBorrow PropsSize.
Import ListNotations.
Open Scope N_scope.

(** The body of a record of any type, whatever comes of it. *)
Theorem C83_body : forall pl S (PB : parsebuf S) mo fin cap mem O (V : visitor O) md p l a n,
  source PB mo fin cap mem p l a -> reserved_since p (snd (dispatch pl PB V md p)) n -> n <= len l + cap.
Proof.
  intros pl S PB mo fin cap mem O V md p l a n (rep & HC & Hr & Hw). unfold reserved_since. rewrite dispatch_eq.
  pose proof (body_spends pl S PB mo fin cap mem rep (md_ty md) p l a HC Hr) as H. unfold bind.
  destruct (parse_body pl PB (md_ty md) p) as [[b|e| |] p']; cbn [snd lift]; intros E; lia.
Qed.

(** From memory no more than is there. *)
Theorem C83_memory : forall pl O (V : visitor O) md p n,
  reserved_since p (snd (dispatch pl slice_buf V md p)) n -> n <= len (sl_data (p_buf p)).
Proof.
  intros pl O V md p n. unfold reserved_since. rewrite dispatch_eq.
  pose proof (slice_body_spends pl (md_ty md) p) as H. unfold bind.
  destruct (parse_body pl slice_buf (md_ty md) p) as [[b|e| |] p']; cbn [snd lift]; intros E; lia.
Qed.

(** A record with [k] bytes taken for it, the eight of its header among them. *)
Theorem C83_record : forall pl S (PB : parsebuf S) mo fin cap mem O (V : visitor O) p l a n,
  source PB mo fin cap mem p l a ->
  let p' := snd (parse_record pl PB V p) in
  reserved_since p p' n ->
  exists k, p_off p' = p_off p + k /\
    (n = 0 \/ (16 + n <= 2 * k /\ (mo = Whole -> 8 + n <= k))).
Proof.
  intros pl S PB mo fin cap mem O V p l a n (rep & HC & Hr & Hw) p' Hn.
  destruct (collect_spends pl S PB mo fin cap mem rep p l a HC Hr Hw) as (k & m & Ho & Hl & Hs).
  assert (E : snd (collect pl PB p) = p').
  { unfold p'. rewrite record_eq. unfold bind, lift. destruct (collect pl PB p) as [[x|e| |] q]; reflexivity. }
  rewrite E in *. unfold reserved_since in Hn. assert (m = n) by lia. subst m. exists k. split; [exact Ho|].
  destruct Hs as [Hs|Hs]; [now left|right]. destruct mo; cbn [factor] in Hs; (split; [lia|]); intros; try discriminate; lia.
Qed.

(** A whole recording, with all that is wrong with it. *)
Theorem C83_recording : forall pl S (PB : parsebuf S) mo fin cap mem rs p l a p' n,
  pl_ok pl -> source PB mo fin cap mem p l a -> run_gives pl PB p rs p' -> reserved_since p p' n ->
  n <= 2 * len l /\ (mo = Whole -> n <= len l).
Proof.
  intros pl S PB mo fin cap mem rs.
  assert (H : forall p l a p', pl_ok pl -> source PB mo fin cap mem p l a -> run_gives pl PB p rs p' ->
    exists m, total (p_log p') = total (p_log p) + m /\ m <= 2 * len l /\ (mo = Whole -> m <= len l)).
  { induction rs as [|r rs IH]; intros p l a p' Hpl Hs R; cbn [run_gives] in R.
    - subst p'. exists 0. lia.
    - destruct R as (p1 & G & R).
      destruct (C04_record pl S PB mo fin cap mem _ keeper p l a Hpl Hs) as [_ (k & Hk & Hs1 & _ & Ho)].
      destruct Hs as (rep & HC & Hr & Hw).
      destruct (collect_spends pl S PB mo fin cap mem rep p l a HC Hr Hw) as (k2 & m2 & Ho2 & Hl2 & Hsp).
      pose proof (G _ keeper) as GV.
      assert (E : snd (collect pl PB p) = p1).
      { change p1 with (snd (match r with inl e => Err e | inr (b, md) => answer keeper b md end, p1)). rewrite <- GV, record_eq.
        unfold bind, lift. destruct (collect pl PB p) as [[x|e| |] q]; reflexivity. }
      rewrite GV in Hs1, Ho. cbn [snd] in Hs1, Ho. rewrite E in *.
      destruct (IH p1 _ _ p' Hpl Hs1 R) as (m & Hm & H1 & H2). rewrite len_drop in H1, H2.
      exists (m2 + m). destruct Hsp as [->|Hsp].
      + split; [lia|]. split; [lia|]. intros W. specialize (H2 W). lia.
      + split; [lia|]. split; [destruct mo; cbn [factor] in Hsp; lia|]. intros W. specialize (H2 W). subst mo. cbn [factor] in Hsp. lia. }
  intros p l a p' n Hpl Hs R Hn. destruct (H p l a p' Hpl Hs R) as (m & Hm & Hb). unfold reserved_since in Hn.
  assert (m = n) by lia. now subst m.
Qed.

(** A sample with forty callers, then branches: more of them than could be. *)
Definition greedy_cfg : config := mkConfig (cf_new 0 0x820 false false 0) 0 0 Little.
Definition greedy : list N :=
  w_header LE 9 0 352 ++ w64 LE 40 ++ concat (map (w64 LE) (map N.of_nat (seq 1 40))) ++ w64 LE 0xffffffffffff ++ w64 LE 0.

(** Once the size of the record is not enough: the cursor's hint does not go down as it is read
    (src/parsebuf.rs:231-250), so after most of a record was stored its size is reserved once more. *)
Theorem C83_once_refuted : ~ (forall pl S (PB : parsebuf S) mo fin cap mem O (V : visitor O) p l a n,
  pl_ok pl -> source PB mo fin cap mem p l a ->
  let p' := snd (parse_record pl PB V p) in
  reserved_since p p' n -> p_off p + n <= p_off p').
Proof.
  intros H.
  specialize (H pl64 _ bufreader_buf NoExt eof_error 16384 (fun _ => 0) _ keeper (reader_of [greedy] greedy_cfg) greedy 0 656).
  cbv zeta in H.
  assert (G : p_off (reader_of [greedy] greedy_cfg) + 656 <=
    p_off (snd (parse_record pl64 bufreader_buf keeper (reader_of [greedy] greedy_cfg)))).
  { apply H.
    - exact (proj1 platforms_ok).
    - change greedy with ([] ++ concat [greedy]).
      apply (reader_source [] [greedy] None); [reflexivity || (vm_compute; discriminate)|vm_compute; repeat constructor|reflexivity|].
      repeat constructor; discriminate.
    - unfold reserved_since. rewrite record_eq. vm_compute. reflexivity. }
  rewrite record_eq in G. vm_compute in G. now apply G.
Qed.

(** The same, from a machine of the other byte order. *)
Definition greedy_be_cfg : config := mkConfig (cf_new 0 0x820 false false 0) 0 0 Big.
Definition greedy_be : list N :=
  w_header BE 9 0 352 ++ w64 BE 40 ++ concat (map (w64 BE) (map N.of_nat (seq 1 40))) ++ w64 BE 0xffffffffffff ++ w64 BE 0.

Example C83_example :
  (forall cap mem, 16384 <= cap ->
     source bufreader_buf NoExt eof_error cap mem (reader_of [greedy] greedy_cfg) greedy 0) /\
  (exists p', gives pl64 bufreader_buf (reader_of [greedy] greedy_cfg) (inl eof_error) p' /\
    p_off p' = 352 /\ p_log p' = [336; 320] /\ reserved_since (reader_of [greedy] greedy_cfg) p' 656) /\
  (exists p', gives pl64 slice_buf (on_slice 4096 greedy_be greedy_be_cfg) (inl eof_error) p' /\
    p_off p' = 352 /\ p_log p' = [0; 320] /\ reserved_since (on_slice 4096 greedy_be greedy_be_cfg) p' 320).
Proof.
  split; [|split].
  - intros cap mem Hc. change greedy with ([] ++ concat [greedy]).
    apply (reader_source [] [greedy] None); [exact Hc|vm_compute; repeat constructor|reflexivity|].
    repeat constructor; discriminate.
  - eexists. split; [intros O V; rewrite record_eq; vm_compute; reflexivity|]. vm_compute. auto.
  - eexists. split; [intros O V; rewrite record_eq; vm_compute; reflexivity|]. vm_compute. auto.
Qed.

Print Assumptions C83_body.
Print Assumptions C83_memory.
Print Assumptions C83_record.
Print Assumptions C83_recording.
Print Assumptions C83_once_refuted.
