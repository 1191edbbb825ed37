(** Theorems: byte fields are borrowed from contiguous input, at the right place (C09). *)
From Coq Require Import NArith List Bool Lia.
From Verif Require Import Base BaseFacts Types Platform Config Buf Parser Contract Flat Refine RefTop.
From Verif Require Import Records Sample Record Wire Codec ConfFacts RefFrame Spec FrameFacts SliceExact.
From Verif Require Import Bits Roundtrip RtRecord SliceRecord ExData PropsFrame PropsPrim PropsSame.
Import ListNotations.
Open Scope N_scope.

(** The words.  The body [d] of the record is at address [a]. *)

(** [x] is a borrow of the [n] bytes at offset [k]. *)
Definition bytes_at (a : N) (d : list N) (x : cow N) (k n : N) : Prop :=
  exists pre s post, d = pre ++ s ++ post /\ len pre = k /\ len s = n /\ x = Borrowed (a + k) s.

(** [x] is a borrow of what is at offset [k] and goes up to the padding of NUL
    bytes at the end. *)
Definition string_at (a : N) (d : list N) (x : cow N) (k : N) : Prop :=
  exists pre s z, d = pre ++ s ++ repeat 0 z /\ len pre = k /\ last s 1 <> 0 /\ x = Borrowed (a + k) s.

(** [x] is a borrow of bytes whose number is in the [w] bytes before them. *)
Definition counted_at (pl : platform) (o : order) (a : N) (d : list N) (x : cow N) (w : nat) : Prop :=
  exists pre v s post, d = pre ++ enc o w v ++ s ++ post /\ v < 256 ^ N.of_nat w /\
    len s = v mod 2 ^ pl_bits pl /\ x = Borrowed (a + len pre + N.of_nat w) s.

(** The stack: size of the dump, dump, number of bytes of it that are in use. *)
Definition stack_at (pl : platform) (o : order) (a : N) (d : list N) (x : cow N) : Prop :=
  exists pre v s unused post, v < 2 ^ 64 /\
    len (s ++ unused) = v mod 2 ^ pl_bits pl /\ x = Borrowed (a + len pre + 8) s /\
    ((s = [] /\ unused = [] /\ d = pre ++ w64 o v ++ post) \/
     exists u, u < 2 ^ 64 /\ len s = u mod 2 ^ pl_bits pl /\
       d = pre ++ w64 o v ++ s ++ unused ++ w64 o u ++ post).

(** The offsets of the fields come from the kernel's description of the records
    (include/uapi/linux/perf_event.h). *)
Definition fields_borrowed (pl : platform) (o : order) (a : N) (d : list N) (b : body cow) : Prop :=
  match b with
  | BMmap r => string_at a d (mm_filename r) 32
  | BMmap2 r => string_at a d (m2_filename r) 64
  | BComm r => string_at a d (cm_comm r) 8
  | BKsymbol r => string_at a d (ks_name r) 16
  | BCgroup r => string_at a d (cg_path r) 8
  | BTextPoke r => exists ol nl, ol < 2 ^ 16 /\ nl < 2 ^ 16 /\
      take 4 (drop 8 d) = w16 o ol ++ w16 o nl /\
      bytes_at a d (tp_old r) 12 ol /\ bytes_at a d (tp_new r) (12 + ol) nl
  | BUnknown x => x = Borrowed a d
  | BSample s =>
      (forall x, s_raw s = Some x -> counted_at pl o a d x 4) /\
      (forall x, s_stack_user s = Some x -> stack_at pl o a d x) /\
      (forall x, s_aux s = Some x -> counted_at pl o a d x 8)
  | _ => True
  end.

(** Records without arrays: not NAMESPACES, and not samples with READ, CALLCHAIN,
    BRANCH_STACK, REGS_USER or REGS_INTR. *)
Definition without_arrays (w : settings) (t : N) : Prop :=
  t <> 16 /\ (t = 9 -> Forall (fun k => N.testbit (ws_sample_type w) k = false) [4; 5; 11; 12; 18]).

Lemma string_located : forall a d x k, k < len d -> x = Borrowed (a + k) (strip (drop k d)) ->
  string_at a d x k.
Proof.
  intros a d x k Hk ->. destruct (strip_spec (drop k d)) as (z & E & Hl).
  exists (take k d), (strip (drop k d)), z. split; [|split; [|split; [exact Hl|reflexivity]]].
  - rewrite <- E. symmetry. apply take_drop.
  - rewrite len_take. lia.
Qed.

Lemma bytes_located : forall a d x k n, k + n <= len d -> x = Borrowed (a + k) (take n (drop k d)) ->
  bytes_at a d x k n.
Proof.
  intros a d x k n Hk ->. exists (take k d), (take n (drop k d)), (drop n (drop k d)).
  rewrite take_drop. split; [now rewrite take_drop|]. rewrite !len_take, len_drop. repeat split; lia.
Qed.

Lemma enc_take : forall o n d k, bytes d -> k + N.of_nat n <= len d ->
  take (N.of_nat n) (drop k d) = enc o n (from_order o (take (N.of_nat n) (drop k d))).
Proof.
  intros o n d k Hb Hk. symmetry. apply enc_from.
  - now apply bytes_take, bytes_drop.
  - apply Nat2N.inj. change (len (take (N.of_nat n) (drop k d)) = N.of_nat n). rewrite len_take, len_drop. lia.
Qed.

Lemma from_take_lt : forall o n d k, bytes d -> k + N.of_nat n <= len d ->
  from_order o (take (N.of_nat n) (drop k d)) < 256 ^ N.of_nat n.
Proof.
  intros o n d k Hb Hk.
  pose proof (from_order_bound o (take (N.of_nat n) (drop k d))) as H.
  rewrite len_take, len_drop, N.min_l in H by lia. apply H. now apply bytes_take, bytes_drop.
Qed.

Lemma take_add : forall m n (l : list N), take (m + n) l = take m l ++ take n (drop m l).
Proof.
  intros m n l. rewrite <- (take_drop m l) at 1. rewrite take_app, take_take, N.min_r by lia.
  destruct (N.leb_spec m (len l)).
  - rewrite len_take, N.min_l by lia. do 2 f_equal. lia.
  - rewrite drop_all by lia. now rewrite !take_nil.
Qed.

Lemma record_answer_inj : forall b md b' md',
  answer record_visitor b md = answer record_visitor b' md' -> b = b'.
Proof. intros b md b' md' H. destruct b, b'; cbn in H; congruence. Qed.

Lemma record_answer_ok : forall b md, exists x, answer record_visitor b md = Ok x.
Proof. intros b md. destruct b; cbn; eauto. Qed.

Lemma counted_located : forall pl c a d x w k n, bytes d -> counted pl c a d (N.of_nat w) k n x ->
  counted_at pl (order_of pl (c_endian c)) a d x w.
Proof.
  intros pl c a d x w k n Hb (H1 & H2 & En & ->). set (o := order_of pl (c_endian c)) in *.
  set (j := k - N.of_nat w) in *.
  exists (take j d), (from_order o (take (N.of_nat w) (drop j d))), (take n (drop k d)), (drop n (drop k d)).
  assert (Ek : k = j + N.of_nat w) by (unfold j; lia).
  split; [|split; [apply from_take_lt; [exact Hb|lia]|split]].
  - rewrite <- enc_take by (assumption || lia). rewrite take_drop, Ek, <- drop_drop, take_drop, take_drop.
    reflexivity.
  - rewrite len_take, len_drop. rewrite En at 1. unfold as_usize in En |- *. lia.
  - rewrite len_take, N.min_l by lia. f_equal. lia.
Qed.

Lemma stack_located : forall pl c a d x k n z j, bytes d -> counted pl c a d 8 k n z -> j <= n ->
  x = Borrowed (a + k) (take j (drop k d)) ->
  j = (if n =? 0 then 0 else
       as_usize pl (from_order (order_of pl (c_endian c)) (take 8 (drop (k + n) d)))) ->
  (n <> 0 -> k + n + 8 <= len d) -> stack_at pl (order_of pl (c_endian c)) a d x.
Proof.
  intros pl c a d x k n z j Hb (H1 & H2 & En & _) Hj -> Ej H3. set (o := order_of pl (c_endian c)) in *.
  set (i := k - 8) in *. assert (Ek : k = i + 8) by (unfold i; lia).
  exists (take i d), (from_order o (take 8 (drop i d))), (take j (drop k d)), (take (n - j) (drop (k + j) d)).
  assert (Ew : take 8 (drop i d) = w64 o (from_order o (take 8 (drop i d)))) by (apply (enc_take o 8); [exact Hb|lia]).
  assert (El : len (take j (drop k d) ++ take (n - j) (drop (k + j) d)) = n).
  { rewrite len_app, !len_take, !len_drop. lia. }
  destruct (N.eqb_spec n 0) as [E0|E0].
  - exists (drop k d). split; [exact (from_take_lt o 8 d i Hb ltac:(lia))|]. split; [rewrite El; exact En|].
    split; [rewrite len_take, N.min_l by lia; f_equal; lia|]. left.
    subst j. rewrite E0, take_0, N.sub_diag, take_0. split; [reflexivity|]. split; [reflexivity|].
    rewrite <- Ew. rewrite Ek, <- drop_drop, take_drop, take_drop. reflexivity.
  - exists (drop (k + n + 8) d). split; [exact (from_take_lt o 8 d i Hb ltac:(lia))|].
    split; [rewrite El; exact En|]. split; [rewrite len_take, N.min_l by lia; f_equal; lia|]. right.
    specialize (H3 E0).
    exists (from_order o (take 8 (drop (k + n) d))). split; [exact (from_take_lt o 8 d (k + n) Hb ltac:(lia))|].
    split; [rewrite len_take, len_drop, N.min_l by lia; exact Ej|].
    rewrite <- Ew.
    replace (w64 o (from_order o (take 8 (drop (k + n) d)))) with (take 8 (drop (k + n) d))
      by (apply (enc_take o 8); [exact Hb|lia]).
    rewrite <- (drop_drop 8 (k + n)), take_drop.
    replace (drop (k + n) d) with (drop (n - j) (drop (k + j) d)) by (rewrite drop_drop; f_equal; lia).
    rewrite take_drop. rewrite <- (drop_drop j k), take_drop. rewrite Ek, <- (drop_drop 8 i), take_drop, take_drop.
    reflexivity.
Qed.

Lemma body_located : forall pl c a d b, bytes d -> located pl c a d b ->
  fields_borrowed pl (order_of pl (c_endian c)) a d b.
Proof.
  intros pl c a d b Hb H. set (o := order_of pl (c_endian c)) in *.
  destruct b; try exact I; cbn [located fields_borrowed] in *; fold o in H;
    try (apply string_located; apply H).
  - destruct H as (k' & Hk & H1 & H2 & H3). split; [|split].
    + intros x E. destruct (H1 x E) as (k & n & G). exact (counted_located pl c a d x 4 k n Hb G).
    + intros x E. destruct (H2 x E) as (k & n & z & j & G & Hj & Ex & _ & Ej & En).
      exact (stack_located pl c a d x k n z j Hb G Hj Ex Ej En).
    + intros x E. destruct (H3 x E) as (k & n & G & _). exact (counted_located pl c a d x 8 k n Hb G).
  - destruct H as (H1 & H2 & H3).
    exists (from_order o (take 2 (drop 8 d))), (from_order o (take 2 (drop 10 d))).
    split; [exact (from_take_lt o 2 d 8 Hb ltac:(lia))|]. split; [exact (from_take_lt o 2 d 10 Hb ltac:(lia))|].
    split; [|split; apply bytes_located; try assumption; try lia].
    + unfold w16. rewrite <- (enc_take o 2), <- (enc_take o 2) by (assumption || (cbn; lia)).
      change (N.of_nat 2) with 2. change 10 with (8 + 2). rewrite <- drop_drop.
      change 4 with (2 + 2). rewrite take_add. reflexivity.
    + rewrite H3. f_equal. lia.
  - exact H.
Qed.

(** ** C09 *)

(** [tr] is the trailer of the record; its length is that of a sample_id.  Nothing
    is asked of the address. *)
Theorem C09_fields_are_borrowed :
  forall pl c w a t m body tr rest si b md p',
  let o := order_of pl (c_endian c) in
  let size := 8 + len body + len tr in
  configured c w -> t < 2 ^ 32 -> m < 2 ^ 16 -> size < 2 ^ 16 -> bytes body -> body <> [] ->
  len tr = (if (t =? 1) || (t =? 9) then 0 else len (w_sample_id o w si)) ->
  gives pl slice_buf (on_slice a (w_header o t m size ++ body ++ tr ++ rest) c) (inr (b, md)) p' ->
  fields_borrowed pl o (a + 8) body b /\ (without_arrays w t -> p_log p' = []).
Proof.
  intros pl c w a t m body tr rest si b md p' o size Hcf Ht Hm Hz Hb Hne Htr G.
  set (d := w_header o t m size ++ body ++ tr ++ rest) in *.
  assert (Eh : head_of pl c d = mkHeader t m size) by (now apply head_of_header).
  assert (Ld : len d = size + len rest) by (unfold d; rewrite !len_app, w_header_len; unfold size; lia).
  assert (Hnb : 0 < len body) by (destruct body; [contradiction|rewrite len_cons; lia]).
  assert (Etr : trailer c t = len tr).
  { unfold trailer. rewrite Htr. destruct (_ || _); [reflexivity|]. symmetry. now apply sample_id_len. }
  pose proof (collect_slice pl c a d) as C. cbv zeta in C. rewrite Eh in C. cbn [h_size] in C.
  specialize (C ltac:(unfold size in *; lia)).
  assert (Edata : take (size - 8) (drop 8 d) = body ++ tr).
  { unfold d. rewrite drop_app_exact by now rewrite w_header_len. rewrite app_assoc.
    apply take_app_exact. rewrite len_app. unfold size. lia. }
  rewrite Edata in C.
  pose proof (wp_finish pl c (a + 8) (mkHeader t m size) (body ++ tr) slice
    (mkParser c (mkSlice (a + size) (drop size d)) size [])) as W.
  cbv zeta in W. cbn [h_size h_type h_misc p_log] in W. rewrite Etr, len_app in W.
  specialize (W ltac:(unfold size; lia) ltac:(lia)). unfold wp in W. rewrite <- C in W.
  replace (take (len body + len tr - len tr) (body ++ tr)) with body in W
    by (rewrite take_app_exact; [reflexivity|lia]).
  specialize (G _ record_visitor). rewrite record_eq in G. unfold bind, on_slice in G.
  destruct (collect pl slice_buf (new_parser (mkSlice a d) c)) as [[[b1 md1]|e| |] p1];
    try (destruct (record_answer_ok b md) as (x & Ex); rewrite Ex in G; discriminate).
  cbn [fst snd] in *. rewrite deliver_answer in G. unfold lift in G.
  injection G as G1 <-.
  assert (Eb : b1 = b) by (exact (record_answer_inj _ _ _ _ G1)). subst b1.
  destruct W as [W1 W2]. split.
  - assert (E2 : c_endian (with_misc c m) = c_endian c) by reflexivity.
    pose proof (body_located pl (with_misc c m) (a + 8) body b Hb W1) as R. rewrite E2 in R. exact R.
  - intros (N1 & N2). apply W2. split; [exact N1|]. intros E9. specialize (N2 E9).
    rewrite with_misc_sample_type. destruct Hcf as (-> & _).
    inversion N2 as [|? ? B1 N3]; subst. inversion N3 as [|? ? B2 N4]; subst.
    inversion N4 as [|? ? B3 N5]; subst. inversion N5 as [|? ? B4 N6]; subst.
    inversion N6 as [|? ? B5 _]; subst.
    change SF_READ with (2 ^ 4). change SF_CALLCHAIN with (2 ^ 5). change SF_BRANCH_STACK with (2 ^ 11).
    change SF_REGS_USER with (2 ^ 12). change SF_REGS_INTR with (2 ^ 18).
    rewrite !contains_pow2, B1, B2, B3, B4, B5. reflexivity.
Qed.

Lemma collect_gives : forall pl S (PB : parsebuf S) p b md p',
  collect pl PB p = (Ok (b, md), p') -> gives pl PB p (inr (b, md)) p'.
Proof.
  intros pl S PB p b md p' E O V. rewrite record_eq. unfold bind. rewrite E. cbn [fst snd].
  now rewrite deliver_answer.
Qed.

(** A COMM record at an odd address, with TID and TIME after it. *)
Definition comm_body : list N := w32 LE 5 ++ w32 LE 6 ++ [98; 97; 115; 104; 0; 0; 0; 0].
Definition comm_bytes : list N :=
  w_header LE 3 0 (8 + len comm_body + 16) ++ comm_body ++ w_sample_id LE ex_set ex_id ++ [1; 2; 3].

Example C09_example :
  configured ex_cfg ex_set /\ bytes comm_body /\ comm_body <> [] /\ without_arrays ex_set 3 /\
  len (w_sample_id LE ex_set ex_id) = 16 /\
  exists p', gives pl64 slice_buf (on_slice 4097 comm_bytes ex_cfg)
    (inr (BComm (mkComm 5 6 (Borrowed (4097 + 8 + 8) [98; 97; 115; 104])), mkMeta 3 0 ex_id)) p'.
Proof.
  split; [repeat split|]. split; [repeat constructor|]. split; [discriminate|].
  split; [split; discriminate|]. split; [reflexivity|].
  eexists. apply collect_gives. vm_compute. reflexivity.
Qed.

(** A SAMPLE with RAW data and a stack dump. *)
Definition dump_set : settings := mkSettings (2 ^ 10 + 2 ^ 13) 0 false false 0 0.
Definition dump_cfg : config := mkConfig (cf_new 0 (2 ^ 10 + 2 ^ 13) false false 0) 0 0 Little.
Definition dump_body : list N :=
  w32 LE 4 ++ [1; 2; 3; 4] ++ w64 LE 8 ++ [11; 12; 13; 14; 15; 16; 17; 18] ++ w64 LE 3.

Example C09_example_sample :
  configured dump_cfg dump_set /\ bytes dump_body /\ without_arrays dump_set 9 /\
  exists s p', gives pl64 slice_buf (on_slice 4097 (w_header LE 9 0 (8 + len dump_body) ++ dump_body) dump_cfg)
    (inr (BSample s, mkMeta 9 0 sample_id_default)) p' /\
    s_raw s = Some (Borrowed (4097 + 8 + 4) [1; 2; 3; 4]) /\
    s_stack_user s = Some (Borrowed (4097 + 8 + 16) [11; 12; 13]).
Proof.
  split; [repeat split|]. split; [repeat constructor|].
  split; [split; [discriminate|intros _; repeat constructor]|].
  eexists _, _. split; [apply collect_gives; vm_compute; reflexivity|]. split; reflexivity.
Qed.

Print Assumptions C09_fields_are_borrowed.
