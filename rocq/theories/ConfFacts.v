(** The packed flag word, bit by bit. *)
From Coq Require Import NArith List Bool Lia.
From Verif Require Import Base BaseFacts Platform Config Bits.
Import ListNotations.
Open Scope N_scope.

Lemma shl64_bit : forall x n i,
  N.testbit (shl64 x n) i = (n <=? i) && (i <? 64) && N.testbit x (i - n).
Proof.
  intros x n i. unfold shl64. destruct (N.ltb_spec i 64).
  - rewrite N.mod_pow2_bits_low by assumption. destruct (N.leb_spec n i).
    + now rewrite N.shiftl_spec_high'.
    + now rewrite N.shiftl_spec_low.
  - rewrite N.mod_pow2_bits_high by assumption. now rewrite andb_false_r.
Qed.

Lemma ones_bit : forall n i, N.testbit (N.ones n) i = (i <? n).
Proof.
  intros n i. destruct (N.ltb_spec i n); [now apply N.ones_spec_low|now apply N.ones_spec_high].
Qed.

Lemma u64_max_bit : forall i, N.testbit u64_max i = (i <? 64).
Proof. intros i. change u64_max with (N.ones 64). apply ones_bit. Qed.

Lemma shiftl_ones_bit : forall n k i, N.testbit (N.shiftl (N.ones n) k) i = (k <=? i) && (i <? n + k).
Proof.
  intros n k i. destruct (N.leb_spec k i).
  - rewrite N.shiftl_spec_high' by assumption. rewrite ones_bit. cbn [andb].
    destruct (N.ltb_spec (i - k) n), (N.ltb_spec i (n + k)); (reflexivity || lia).
  - now rewrite N.shiftl_spec_low.
Qed.

Lemma CF_READ_FORMAT_bit : forall i, N.testbit CF_READ_FORMAT i = (i <? 6).
Proof. intros i. change CF_READ_FORMAT with (N.ones 6). apply ones_bit. Qed.

Lemma CF_SAMPLE_TYPE_bit : forall i, N.testbit CF_SAMPLE_TYPE i = (6 <=? i) && (i <? 46).
Proof.
  intros i. change CF_SAMPLE_TYPE with (N.shiftl (N.ones 40) 6). rewrite shiftl_ones_bit. reflexivity.
Qed.

Lemma CF_MISC_bit : forall i, N.testbit CF_MISC i = (48 <=? i) && (i <? 64).
Proof.
  intros i. change CF_MISC with (N.shiftl (N.ones 16) 48). rewrite shiftl_ones_bit. reflexivity.
Qed.

Lemma cf_not_bit : forall x i, N.testbit (cf_not x) i = (i <? 64) && negb (N.testbit x i).
Proof. intros x i. unfold cf_not. rewrite N.ldiff_spec, u64_max_bit. reflexivity. Qed.

Ltac cases :=
  repeat match goal with
  | |- context [?a <? ?b] => destruct (N.ltb_spec a b)
  | |- context [?a <=? ?b] => destruct (N.leb_spec a b)
  | |- context [?a =? ?b] => destruct (N.eqb_spec a b)
  end; cbn [andb orb negb]; rewrite ?andb_true_r, ?andb_false_r, ?orb_false_r, ?orb_true_r;
  try reflexivity; try lia.

(** Getters. *)
Lemma cf_read_format_bit : forall f i, N.testbit (cf_read_format f) i = (i <? 6) && N.testbit f i.
Proof.
  intros f i. unfold cf_read_format. rewrite N.shiftr_spec', N.land_spec, CF_READ_FORMAT_bit.
  unfold READ_FORMAT_OFFSET. rewrite N.add_0_r. apply andb_comm.
Qed.

Lemma cf_sample_type_bit : forall f i,
  N.testbit (cf_sample_type f) i = (i <? 40) && N.testbit f (i + 6).
Proof.
  intros f i. unfold cf_sample_type. rewrite N.shiftr_spec', N.land_spec, CF_SAMPLE_TYPE_bit.
  change SAMPLE_TYPE_OFFSET with 6. cases.
Qed.

Lemma cf_misc_bit : forall f i, N.testbit (cf_misc f) i = (i <? 16) && N.testbit f (i + 48).
Proof.
  intros f i. unfold cf_misc. change MISC_OFFSET with 48.
  destruct (N.ltb_spec i 16).
  - rewrite N.mod_pow2_bits_low by assumption. rewrite N.shiftr_spec', N.land_spec, CF_MISC_bit. cases.
  - now rewrite N.mod_pow2_bits_high.
Qed.

Lemma cf_sample_id_all_bit : forall f, cf_sample_id_all f = N.testbit f 46.
Proof. intros f. unfold cf_sample_id_all, CF_SAMPLE_ID_ALL. apply contains_pow2. Qed.

Lemma cf_branch_hw_index_bit : forall f, cf_branch_hw_index f = N.testbit f 47.
Proof. intros f. unfold cf_branch_hw_index, CF_BRANCH_HW_INDEX. apply contains_pow2. Qed.

(** Setters. *)
Lemma cf_set_misc_bit : forall f m i,
  N.testbit (cf_set_misc f m) i =
  (i <? 64) && (if 48 <=? i then N.testbit m (i - 48) else N.testbit f i).
Proof.
  intros f m i. unfold cf_set_misc. rewrite N.lor_spec, N.land_spec, cf_not_bit, CF_MISC_bit, shl64_bit.
  change MISC_OFFSET with 48. cases.
Qed.

Lemma cf_set_sample_type_bit : forall f s i,
  N.testbit (cf_set_sample_type f s) i =
  (i <? 64) && (if (6 <=? i) && (i <? 46) then N.testbit s (i - 6) else N.testbit f i).
Proof.
  intros f s i. unfold cf_set_sample_type.
  rewrite N.lor_spec, !N.land_spec, cf_not_bit, CF_SAMPLE_TYPE_bit, shl64_bit.
  change SAMPLE_TYPE_OFFSET with 6. cases.
Qed.

Lemma cf_set_read_format_bit : forall f r i,
  N.testbit (cf_set_read_format f r) i =
  (i <? 64) && (if i <? 6 then N.testbit r i || ((i =? 5) && negb (N.shiftr r 6 =? 0))
                else N.testbit f i).
Proof.
  intros f r i. unfold cf_set_read_format. cbv zeta.
  rewrite !N.lor_spec, !N.land_spec, cf_not_bit, CF_READ_FORMAT_bit, !shl64_bit.
  change READ_FORMAT_WIDTH with 6. change (READ_FORMAT_OFFSET + 6 - 1) with 5.
  change READ_FORMAT_OFFSET with 0. rewrite N.sub_0_r.
  destruct (N.eqb_spec (N.shiftr r 6) 0).
  - rewrite N.bits_0. cases.
  - assert (H : N.testbit 1 (i - 5) = (i <=? 5)).
    { destruct (N.leb_spec i 5).
      - replace (i - 5) with 0 by lia. reflexivity.
      - destruct (i - 5) eqn:E; [lia|]. destruct p; reflexivity. }
    rewrite H. cases.
Qed.

Lemma cf_new_bit : forall rf sty sia hwi m i,
  N.testbit (cf_new rf sty sia hwi m) i =
  (i <? 64) &&
  (if 48 <=? i then N.testbit m (i - 48)
   else if i =? 47 then hwi else if i =? 46 then sia
   else if 6 <=? i then N.testbit sty (i - 6)
   else N.testbit rf i || ((i =? 5) && negb (N.shiftr rf 6 =? 0))).
Proof.
  intros rf sty sia hwi m i. unfold cf_new. cbv zeta.
  rewrite cf_set_misc_bit, cf_set_sample_type_bit, cf_set_read_format_bit, !N.lor_spec, !shl64_bit.
  change SAMPLE_ID_ALL_OFFSET with 46. change BRANCH_HW_INDEX_OFFSET with 47.
  change MISC_OFFSET with 48.
  destruct (N.ltb_spec i 64) as [H64|H64]; [|reflexivity]. cbn [andb].
  destruct (N.leb_spec 48 i) as [H48|H48]; [reflexivity|].
  destruct (N.eqb_spec i 47) as [->|H47].
  { change (N.testbit (if sia then 1 else 0) (47 - 46)) with (N.testbit (if sia then 1 else 0) 1).
    destruct sia, hwi; reflexivity. }
  destruct (N.eqb_spec i 46) as [->|H46]; [destruct sia, hwi; reflexivity|].
  destruct (N.leb_spec 6 i), (N.ltb_spec i 46), (N.ltb_spec i 6), (N.leb_spec 46 i), (N.leb_spec 47 i);
    cbn [andb orb]; try lia; reflexivity.
Qed.

Lemma bits_eq : forall a b, (forall i, N.testbit a i = N.testbit b i) -> a = b.
Proof. intros a b H. apply N.bits_inj. exact H. Qed.

Lemma testbit_high : forall x n i, x < 2 ^ n -> n <= i -> N.testbit x i = false.
Proof.
  intros x n i Hx Hi. destruct (N.eq_dec x 0) as [->|Hz]; [apply N.bits_0|].
  apply N.bits_above_log2. apply N.log2_lt_pow2 in Hx; lia.
Qed.

Lemma mod_pow2_bit : forall x n i, N.testbit (x mod 2 ^ n) i = (i <? n) && N.testbit x i.
Proof.
  intros x n i. destruct (N.ltb_spec i n); [now apply N.mod_pow2_bits_low|now apply N.mod_pow2_bits_high].
Qed.

Lemma add_sub_bit : forall i k, i + k - k = i.
Proof. intros. lia. Qed.

(** [with_misc] changes nothing but the misc bits. *)
Lemma with_misc_misc : forall c m, m < 2 ^ 16 -> misc (with_misc c m) = m.
Proof.
  intros c m Hm. apply bits_eq; intros i. unfold misc, with_misc. cbn [c_flags].
  rewrite cf_misc_bit, cf_set_misc_bit, add_sub_bit. cases. symmetry. now apply (testbit_high m 16).
Qed.

Lemma with_misc_sample_type : forall c m, sample_type (with_misc c m) = sample_type c.
Proof.
  intros c m. apply bits_eq; intros i. unfold sample_type, with_misc. cbn [c_flags].
  rewrite !cf_sample_type_bit, cf_set_misc_bit. cases.
Qed.

Lemma with_misc_read_format : forall c m, read_format (with_misc c m) = read_format c.
Proof.
  intros c m. apply bits_eq; intros i. unfold read_format, with_misc. cbn [c_flags].
  rewrite !cf_read_format_bit, cf_set_misc_bit. cases.
Qed.

Lemma with_misc_id_all : forall c m, sample_id_all (with_misc c m) = sample_id_all c.
Proof.
  intros c m. unfold sample_id_all, with_misc. cbn [c_flags].
  rewrite !cf_sample_id_all_bit, cf_set_misc_bit. reflexivity.
Qed.

Lemma with_misc_hw_index : forall c m, branch_hw_index (with_misc c m) = branch_hw_index c.
Proof.
  intros c m. unfold branch_hw_index, with_misc. cbn [c_flags].
  rewrite !cf_branch_hw_index_bit, cf_set_misc_bit. reflexivity.
Qed.

(** The other builders. *)
Lemma with_sample_type_spec : forall c s,
  sample_type (with_sample_type c s) = s mod 2 ^ 40 /\
  read_format (with_sample_type c s) = read_format c /\
  sample_id_all (with_sample_type c s) = sample_id_all c /\
  branch_hw_index (with_sample_type c s) = branch_hw_index c /\
  misc (with_sample_type c s) = misc c.
Proof.
  intros c s. unfold sample_type, read_format, sample_id_all, branch_hw_index, misc, with_sample_type.
  cbn [c_flags]. rewrite !cf_sample_id_all_bit, !cf_branch_hw_index_bit, !cf_set_sample_type_bit.
  repeat split; apply bits_eq; intros i.
  - rewrite cf_sample_type_bit, cf_set_sample_type_bit, mod_pow2_bit, add_sub_bit. cases.
  - rewrite !cf_read_format_bit, cf_set_sample_type_bit. cases.
  - rewrite !cf_misc_bit, cf_set_sample_type_bit. cases.
Qed.

(** Bit 5 of the stored read format stands for every unknown bit. *)
Definition pack_read_format (r : N) : N :=
  N.lor (r mod 2 ^ 6) (if N.shiftr r 6 =? 0 then 0 else 2 ^ 5).

Lemma pack_bit : forall r i,
  N.testbit (pack_read_format r) i =
  (i <? 6) && (N.testbit r i || ((i =? 5) && negb (N.shiftr r 6 =? 0))).
Proof.
  intros r i. unfold pack_read_format. rewrite N.lor_spec, mod_pow2_bit.
  destruct (N.shiftr r 6 =? 0).
  - rewrite N.bits_0. cases.
  - rewrite N.pow2_bits_eqb. rewrite (N.eqb_sym 5 i). cases.
Qed.

Lemma with_read_format_spec : forall c r,
  read_format (with_read_format c r) = pack_read_format r /\
  sample_type (with_read_format c r) = sample_type c /\
  sample_id_all (with_read_format c r) = sample_id_all c /\
  branch_hw_index (with_read_format c r) = branch_hw_index c /\
  misc (with_read_format c r) = misc c.
Proof.
  intros c r. unfold sample_type, read_format, sample_id_all, branch_hw_index, misc, with_read_format.
  cbn [c_flags]. rewrite !cf_sample_id_all_bit, !cf_branch_hw_index_bit, !cf_set_read_format_bit.
  repeat split; apply bits_eq; intros i.
  - rewrite cf_read_format_bit, cf_set_read_format_bit, pack_bit. cases.
  - rewrite !cf_sample_type_bit, cf_set_read_format_bit. cases.
  - rewrite !cf_misc_bit, cf_set_read_format_bit. cases.
Qed.

Lemma cf_new_spec : forall rf sty sia hwi m,
  cf_read_format (cf_new rf sty sia hwi m) = pack_read_format rf /\
  cf_sample_type (cf_new rf sty sia hwi m) = sty mod 2 ^ 40 /\
  cf_sample_id_all (cf_new rf sty sia hwi m) = sia /\
  cf_branch_hw_index (cf_new rf sty sia hwi m) = hwi /\
  cf_misc (cf_new rf sty sia hwi m) = m mod 2 ^ 16.
Proof.
  intros rf sty sia hwi m.
  rewrite !cf_sample_id_all_bit, !cf_branch_hw_index_bit, !cf_new_bit.
  repeat split; apply bits_eq; intros i.
  - rewrite cf_read_format_bit, cf_new_bit, pack_bit. cases.
  - rewrite cf_sample_type_bit, cf_new_bit, mod_pow2_bit, add_sub_bit. cases.
  - rewrite cf_misc_bit, cf_new_bit, mod_pow2_bit, add_sub_bit. cases.
Qed.

(** Unknown bits are exactly what makes the packed format differ. *)
Lemma pack_small : forall r, r < 2 ^ 5 -> pack_read_format r = r.
Proof.
  intros r Hr. apply bits_eq; intros i. rewrite pack_bit.
  assert (E : N.shiftr r 6 = 0).
  { rewrite N.shiftr_div_pow2. apply N.div_small. change (2 ^ 5) with 32 in Hr.
    change (2 ^ 6) with 64. lia. }
  rewrite E. cbn [N.eqb negb]. rewrite andb_false_r, orb_false_r.
  destruct (N.ltb_spec i 6); [reflexivity|].
  symmetry. apply (testbit_high r 5); [assumption|lia].
Qed.

Lemma pack_unknown : forall r, 2 ^ 5 <= r ->
  difference (pack_read_format r) RF_ALL <> 0.
Proof.
  intros r Hr E.
  assert (H : N.testbit (pack_read_format r) 5 = true).
  { rewrite pack_bit. cbn [N.ltb N.compare andb N.eqb]. change (5 <? 6) with true. cbn [andb].
    change (5 =? 5) with true. cbn [andb].
    destruct (N.testbit r 5) eqn:E5; [reflexivity|]. cbn [orb].
    destruct (N.eqb_spec (N.shiftr r 6) 0) as [E6|]; [|reflexivity]. exfalso.
    rewrite N.shiftr_div_pow2 in E6. apply N.div_small_iff in E6; [|discriminate].
    assert (r = 2 ^ 5 + (r - 2 ^ 5)) as Er by lia.
    assert (Hlo : r - 2 ^ 5 < 2 ^ 5) by (change (2 ^ 6) with 64 in E6; change (2 ^ 5) with 32 in *; lia).
    revert E5. rewrite N.testbit_eqb.
    replace (r / 2 ^ 5) with 1; [discriminate|].
    apply (N.div_unique r (2 ^ 5) 1 (r - 2 ^ 5)); [exact Hlo|]. lia. }
  assert (H2 : N.testbit (difference (pack_read_format r) RF_ALL) 5 = true).
  { unfold difference. rewrite N.ldiff_spec, H. reflexivity. }
  rewrite E, N.bits_0 in H2. discriminate.
Qed.
