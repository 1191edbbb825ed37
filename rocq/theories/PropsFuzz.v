(** Theorems: the fuzz targets (C69). *)
From Coq Require Import NArith List Bool Lia.
From Verif Require Import Base BaseFacts Types Platform Config Buf Parser Contract Flat Refine.
From Verif Require Import Instances Records Sample Record Attr Wire Codec ConfFacts Spec Fuzz ExData.
From Verif Require Import PropsFrame PropsSafe PropsConf.
Import ListNotations.
Open Scope N_scope.

Lemma fill_spec : forall a d, fill_buffer 8 (mkSlice a d) =
  (take 8 (d ++ repeat 0 8), mkSlice (a + N.min 8 (len d)) (drop 8 d)).
Proof.
  intros a d. unfold fill_buffer. cbn [sl_data sl_addr].
  destruct (N.le_ge_cases 8 (len d)) as [H|H].
  - rewrite N.min_l by exact H. change (N.to_nat (8 - 8)) with O. cbn [repeat]. rewrite app_nil_r.
    now rewrite take_app_le by exact H.
  - rewrite N.min_r by exact H. rewrite take_all by lia. rewrite !drop_all by lia. do 2 f_equal.
    replace (repeat 0 8) with (repeat 0 (N.to_nat (8 - len d)) ++ repeat 0 (N.to_nat (len d))).
    2:{ rewrite <- repeat_app. f_equal. lia. }
    rewrite app_assoc. symmetry. apply take_app_exact. rewrite len_app. unfold len at 2. rewrite repeat_length. lia.
Qed.

Lemma zeros_split : forall n m, n <= m ->
  repeat 0 (N.to_nat m) = repeat 0 (N.to_nat n) ++ repeat 0 (N.to_nat (m - n)).
Proof. intros n m H. rewrite <- repeat_app. f_equal. lia. Qed.

Lemma zeros_len : forall n, len (repeat 0 (N.to_nat n)) = n.
Proof. intros n. unfold len. rewrite repeat_length. lia. Qed.

Lemma zeros_after : forall n m k d, k + n <= m ->
  take n (drop k d ++ repeat 0 (N.to_nat n)) = take n (drop k (d ++ repeat 0 (N.to_nat m))).
Proof.
  intros n m k d H. destruct (N.le_ge_cases k (len d)) as [Hk|Hk].
  - rewrite drop_app_le by exact Hk. rewrite (zeros_split n m) by lia. rewrite app_assoc.
    symmetry. apply take_app_le. rewrite len_app, zeros_len. lia.
  - rewrite drop_all by exact Hk. rewrite app_nil_l.
    rewrite (zeros_split (k - len d) m) by lia. rewrite app_assoc, drop_app_exact by (rewrite len_app, zeros_len; lia).
    rewrite (zeros_split n (m - (k - len d))) by lia. symmetry. apply take_app_le. rewrite zeros_len. lia.
Qed.

(** ** C69: the targets end, and without a panic, on every input. *)
Theorem C69_runs : forall pl a data,
  pl_ok pl -> bytes data -> len data < 2 ^ 64 ->
  fuzz_record pl (mkSlice a data) = Ok tt /\ fuzz_record_basic pl (mkSlice a data) = Ok tt.
Proof.
  intros pl a data Hpl Hb Hl.
  assert (G : forall a d c, bytes d -> len d < 2 ^ 64 ->
    ignored (fst (parse_record pl slice_buf parse_visitor (new_parser (mkSlice a d) c))) = Ok tt).
  { clear a data Hb Hl. intros a d c Hb Hl.
    destruct (C04_record pl slice slice_buf Whole eof_error (len d) (memory_of a d) unit parse_visitor
                (new_parser (mkSlice a d) c) d a Hpl) as [[[e ->]|(b & md & ->)] _].
    - apply slice_source; [exact Hb|exact Hl|apply N.le_refl|apply memory_of_at].
    - reflexivity.
    - destruct b; reflexivity. }
  split; [|apply G; assumption].
  unfold fuzz_record, arb_config, arb_config_flags, arb_u64. rewrite !fill_spec.
  apply G; [now repeat apply bytes_drop|rewrite !len_drop; lia].
Qed.

(** The configuration is the first 24 bytes, zeros if there are not as many; the rest is what
    is parsed. *)
Theorem C69_config : forall e a data, bytes data ->
  exists f ru ri,
    arb_config e (mkSlice a data) = Some (mkConfig f ru ri e, mkSlice (a + N.min 24 (len data)) (drop 24 data)) /\
    w64 LE f ++ w64 LE ru ++ w64 LE ri = take 24 (data ++ repeat 0 24).
Proof.
  intros e a data Hb. unfold arb_config, arb_config_flags, arb_u64. rewrite !fill_spec.
  do 3 eexists. split.
  { do 3 f_equal. { rewrite !len_drop. lia. } now rewrite !drop_drop. }
  assert (K : forall d, bytes d -> w64 LE (from_le (take 8 (d ++ repeat 0 8))) = take 8 (d ++ repeat 0 8)).
  { intros d Hd. apply (enc_from LE 8).
    - apply bytes_take. unfold bytes in *. apply Forall_app. split; [exact Hd|]. repeat constructor.
    - apply Nat2N.inj. change (len (take 8 (d ++ repeat 0 8)) = 8). rewrite len_take, len_app.
      change (len (repeat 0 8)) with 8. lia. }
  rewrite !K by now repeat apply bytes_drop.
  rewrite <- (drop_0 data) at 1. rewrite !drop_drop.
  change (repeat 0 8) with (repeat 0 (N.to_nat 8)). change (repeat 0 24) with (repeat 0 (N.to_nat 24)).
  rewrite !(zeros_after 8 24) by (vm_compute; discriminate).
  set (z := data ++ repeat 0 (N.to_nat 24)).
  change 24 with (8 + (8 + 8)). rewrite !take_plus, drop_drop. now rewrite drop_0.
Qed.

Lemma arb_word : forall a v t, v < 2 ^ 64 -> arb_u64 (mkSlice a (w64 LE v ++ t)) = Some (v, mkSlice (a + 8) t).
Proof.
  intros x v t Hv. assert (L : len (w64 LE v) = 8) by apply w64_len.
  unfold arb_u64. rewrite fill_spec, len_app, L, N.min_l by lia.
  rewrite (drop_app_exact 8) by now symmetry.
  rewrite take_app_le by (rewrite len_app; lia). rewrite take_app_exact by now symmetry.
  do 2 f_equal. apply (from_enc LE 8). exact Hv.
Qed.

(** Flags on their own are any 64 bits, known or not. *)
Theorem C69_flags : forall a v t, v < 2 ^ 64 ->
  arb_sample_flags (mkSlice a (w64 LE v ++ t)) = Some (v, mkSlice (a + 8) t) /\
  arb_read_format (mkSlice a (w64 LE v ++ t)) = Some (v, mkSlice (a + 8) t).
Proof. intros a v t Hv. split; now apply arb_word. Qed.

(** Every configuration, with every input after it, is tried by some data. *)
Theorem C69_reaches : forall c a rest,
  c_flags c < 2 ^ 64 -> c_regs_user c < 2 ^ 64 -> c_regs_intr c < 2 ^ 64 ->
  arb_config (c_endian c)
    (mkSlice a (w64 LE (c_flags c) ++ w64 LE (c_regs_user c) ++ w64 LE (c_regs_intr c) ++ rest)) =
  Some (c, mkSlice (a + 24) rest).
Proof.
  intros [f ru ri e] a rest. cbn [c_flags c_regs_user c_regs_intr c_endian]. intros Hf Hu Hi.
  unfold arb_config, arb_config_flags. rewrite !arb_word by assumption. do 3 f_equal. lia.
Qed.

Lemma lor_below : forall x y n, x < 2 ^ n -> y < 2 ^ n -> N.lor x y < 2 ^ n.
Proof.
  intros x y n Hx Hy. destruct (N.eq_dec (N.lor x y) 0) as [->|H0]; [apply N.neq_0_lt_0, N.pow_nonzero; discriminate|].
  apply N.log2_lt_pow2; [lia|]. rewrite N.log2_lor.
  destruct (N.eq_dec x 0) as [->|H1], (N.eq_dec y 0) as [->|H2]; try (cbn in H0; lia);
  apply N.max_lub_lt; try (apply N.log2_lt_pow2; lia); cbn [N.log2].
  all: destruct n; [cbn in *; lia|lia].
Qed.

Lemma land_below : forall x y n, y < 2 ^ n -> N.land x y < 2 ^ n.
Proof.
  intros x y n Hy. destruct (N.eq_dec (N.land x y) 0) as [->|H0]; [apply N.neq_0_lt_0, N.pow_nonzero; discriminate|].
  destruct (N.eq_dec y 0) as [->|Hy0]; [now rewrite N.land_0_r in H0|].
  apply N.log2_lt_pow2; [lia|]. eapply N.le_lt_trans; [apply N.log2_land|].
  eapply N.le_lt_trans; [apply N.le_min_r|]. apply N.log2_lt_pow2; lia.
Qed.

(** So the parsers of a recording with any attr are among those tried. *)
Theorem C69_recordings : forall pl h a x,
  at_sample_regs_user x < 2 ^ 64 -> at_sample_regs_intr x < 2 ^ 64 ->
  exists pre, len pre = 24 /\ bytes pre /\ forall rest,
    fuzz_record pl (mkSlice a (pre ++ rest)) =
    ignored (fst (parse_record pl slice_buf parse_visitor
                    (new_parser (mkSlice (a + 24) rest) (config_of_attr h Little x)))).
Proof.
  intros pl h a x Hu Hi. set (c := config_of_attr h Little x).
  exists (w64 LE (c_flags c) ++ w64 LE (c_regs_user c) ++ w64 LE (c_regs_intr c)).
  split; [|split].
  - rewrite !len_app. now rewrite !w64_len.
  - unfold bytes, w64. rewrite !Forall_app. repeat split; apply enc_bytes.
  - intros rest. rewrite <- !app_assoc. unfold fuzz_record. change Little with (c_endian c) at 1.
    rewrite C69_reaches; [reflexivity| |exact Hu|exact Hi].
    unfold c, config_of_attr, cf_new, cf_set_misc. cbn [c_flags]. apply lor_below.
    + apply land_below. vm_compute. reflexivity.
    + unfold shl64. apply N.mod_lt. discriminate.
Qed.

(** A LOST record after a configuration of zeros, and after no more than five bytes of one. *)
Example C69_example :
  let data := repeat 0 24 ++ w_header LE 2 0 24 ++ w64 LE 7 ++ w64 LE 9 in
  bytes data /\ arb_config Little (mkSlice 4096 data) = Some (config_default Little, mkSlice 4120 (drop 24 data)) /\
  fst (parse_record pl64 slice_buf parse_visitor (new_parser (mkSlice 4120 (drop 24 data)) (config_default Little)))
    = Ok tt /\
  arb_config Big (mkSlice 4096 [1; 2; 0; 0; 9]) = Some (mkConfig (1 + 2 * 256 + 9 * 2 ^ 32) 0 0 Big, mkSlice 4101 []) /\
  fuzz_record pl64 (mkSlice 4096 [1; 2; 0; 0; 9]) = Ok tt.
Proof. cbv zeta. split; [vm_compute; repeat constructor|]. repeat split; vm_compute; reflexivity. Qed.

(** A visitor which panics would be noticed. *)
Example C69_example_seen : ignored (@Panic unit) = Panic.
Proof. reflexivity. Qed.

Print Assumptions C69_runs.
Print Assumptions C69_config.
Print Assumptions C69_flags.
Print Assumptions C69_reaches.
Print Assumptions C69_recordings.
