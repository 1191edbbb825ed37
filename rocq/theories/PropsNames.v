(** C66: the names of flags and codes. *)
From Coq Require Import NArith String List Bool Lia.
From Verif Require Import Base BaseFacts Platform Sample Records Config Access AccessFacts Names Header PropsAccess.
Import ListNotations.
Open Scope N_scope.

(** The constants with the prefix the kernel gives them. *)
Definition called (prefix : string) (t : names) : constants :=
  map (fun c => (append prefix (fst c), snd c)) t.

Definition shifted (s : N) (t : constants) : constants := map (fun c => (fst c, N.shiftl (snd c) s)) t.

(** Where a field of [perf_mem_data_src] starts. *)
Definition at_shift (f : string) : N :=
  match find (fun c => String.eqb (fst c) f) h_shifts with Some c => snd c | None => 64 end.

(** Each flag has the value of the kernel's constant of that name, and each of the kernel's
    constants has a flag. *)
Theorem C66_flags :
  called "PERF_SAMPLE_" names_sample = h_sample /\
  called "PERF_FORMAT_" names_format = h_format /\
  called "PERF_MEM_OP_" names_mem_op = h_mem_op /\
  called "PERF_MEM_LVL_" names_mem_lvl = h_mem_lvl /\
  called "PERF_MEM_LOCK_" names_mem_lock = h_mem_lock /\
  called "PERF_MEM_TLB_" names_mem_dtlb = h_mem_tlb /\
  called "PERF_MEM_SNOOPX_" names_mem_snoopx = h_mem_snoopx /\
  called "PERF_MEM_BLK_" names_mem_blk = h_mem_blk /\
  called "PERF_MEM_SNOOP_" (firstn 5 names_mem_snoop) = shifted (at_shift "SNOOP") h_mem_snoop /\
  called "PERF_MEM_SNOOPX_" (skipn 5 names_mem_snoop) = shifted (at_shift "SNOOPX") h_mem_snoopx /\
  called "PERF_TXN_" names_txn = h_txn ++ [("PERF_TXN_ABORT_MASK"%string, h_txn_abort)] /\
  called "PERF_AUX_FLAG_" (firstn 4 names_aux) = firstn 4 h_aux /\
  map snd (skipn 4 names_aux) = map snd (skipn 4 h_aux) /\
  map fst (skipn 4 names_aux) = ["PMU_FORMAT_MASK"%string] /\
  map fst (skipn 4 h_aux) = ["PERF_AUX_FLAG_PMU_FORMAT_TYPE_MASK"%string] /\
  called "PERF_RECORD_KSYMBOL_FLAGS_" names_ksymbol = h_ksymbol_flags.
Proof. repeat split. Qed.

(** Likewise for codes; no code has two names. *)
Definition unnamed (h : constants) (t : names) : constants :=
  filter (fun c => negb (existsb (fun d => snd d =? snd c) t)) h.

Theorem C66_codes_partial :
  called "PERF_SAMPLE_REGS_ABI_" (firstn 1 codes_abi) = firstn 1 h_abi /\
  called "PERF_SAMPLE_REGS_" (skipn 1 codes_abi) = skipn 1 h_abi /\
  called "PERF_RECORD_KSYMBOL_TYPE_" codes_ksymbol = h_ksymbol /\
  called "PERF_BPF_EVENT_" codes_bpf = h_bpf /\
  called "PERF_AUX_FLAG_CORESIGHT_FORMAT_" (shifted 8 (firstn 1 codes_pmu_format)) = firstn 1 h_coresight /\
  shifted 8 (skipn 1 codes_pmu_format) =
    map (fun c => ("CORESIGHT_RAW"%string, snd c)) (skipn 1 h_coresight) /\
  map fst (skipn 1 h_coresight) = ["PERF_AUX_FLAG_CORESIGHT_FORMAT_RAW"%string] /\
  incl (called "PERF_BR_" codes_branch) h_branch /\
  incl (called "PERF_MEM_LVLNUM_" codes_mem_lvl_num) h_mem_lvlnum /\
  Forall (fun t => NoDup (map snd t))
    [codes_abi; codes_ksymbol; codes_bpf; codes_pmu_format; codes_branch; codes_mem_lvl_num].
Proof.
  do 7 (split; [reflexivity|]).
  split; [intros c H; vm_compute in H |- *; tauto|].
  split; [intros c H; vm_compute in H |- *; tauto|].
  repeat constructor; vm_compute; intuition discriminate.
Qed.

(** System-call returns and others have no name. *)
Theorem C66_codes_refuted :
  unnamed h_branch codes_branch =
    [("PERF_BR_SYSRET", 8); ("PERF_BR_ERET", 11); ("PERF_BR_IRQ", 12); ("PERF_BR_SERROR", 13); ("PERF_BR_NO_TX", 14);
     ("PERF_BR_EXTEND_ABI", 15)]%string /\
  unnamed h_mem_lvlnum codes_mem_lvl_num = [("PERF_MEM_LVLNUM_CXL", 9); ("PERF_MEM_LVLNUM_IO", 10)]%string /\
  (forall o f t, exists b, be_from b = f /\ be_to b = t /\ be_ty o b = 8) /\
  ~ In 8 (map snd codes_branch).
Proof.
  split; [reflexivity|]. split; [reflexivity|]. split.
  - intros o f t. exists (mkBranch f t (match o with LE => 8 * 2 ^ 20 | BE => 8 * 2 ^ 40 end)).
    now destruct o.
  - vm_compute. intuition discriminate.
Qed.

(** * Flags of a data_src word *)

Definition union (l : list N) : N := fold_right N.lor 0 l.

Lemma field_bits : forall w off k i, N.testbit (field w off k) i = (i <? k) && N.testbit w (i + off).
Proof.
  intros w off k i. unfold field. destruct (N.ltb_spec i k).
  - now rewrite N.mod_pow2_bits_low, N.div_pow2_bits by assumption.
  - now rewrite N.mod_pow2_bits_high by assumption.
Qed.

Lemma union_bits : forall l i, N.testbit (union l) i = existsb (fun v => N.testbit v i) l.
Proof.
  induction l as [|v l IH]; intros i; cbn [union fold_right existsb]; [apply N.bits_0|].
  rewrite N.lor_spec. now rewrite <- IH.
Qed.

Lemma contains_bit : forall w i, contains w (2 ^ i) = N.testbit w i.
Proof.
  intros w i. unfold contains. destruct (N.testbit w i) eqn:E.
  - apply N.eqb_eq. apply N.bits_inj; intros j. rewrite N.land_spec, N.pow2_bits_eqb.
    destruct (N.eqb_spec i j); [subst; now rewrite E|apply andb_false_r].
  - apply N.eqb_neq. intros H. apply (f_equal (fun x => N.testbit x i)) in H.
    rewrite N.land_spec, E, N.pow2_bits_true in H. discriminate.
Qed.

Lemma contains_shift : forall w s v, contains w (N.shiftl v s) = contains (N.shiftr w s) v.
Proof.
  intros w s v. unfold contains. apply eq_true_iff_eq. rewrite !N.eqb_eq. split; intros H; apply N.bits_inj; intros i.
  - apply (f_equal (fun x => N.testbit x (i + s))) in H.
    rewrite N.land_spec, N.shiftl_spec_high' in H by lia. replace (i + s - s) with i in H by lia.
    now rewrite N.land_spec, N.shiftr_spec'.
  - rewrite N.land_spec. destruct (N.ltb_spec i s).
    + rewrite !N.shiftl_spec_low by assumption. apply andb_false_r.
    + rewrite N.shiftl_spec_high' by assumption. apply (f_equal (fun x => N.testbit x (i - s))) in H.
      rewrite N.land_spec, N.shiftr_spec' in H. now replace (i - s + s) with i in H by lia.
Qed.

(** Which bits the flags are. *)
Definition bits_from (off : N) (k : nat) (t : names) : Prop :=
  map snd t = map (fun i => 2 ^ (off + N.of_nat i)) (seq 0 k).

Lemma field_flag : forall w off k t n v, bits_from 0 k t -> In (n, v) t ->
  contains (field w off (N.of_nat k)) v = contains w (N.shiftl v off).
Proof.
  intros w off k t n v Ht Hin. apply (in_map snd) in Hin. rewrite Ht in Hin. cbn [snd] in Hin.
  apply in_map_iff in Hin. destruct Hin as (i & <- & Hi). apply in_seq in Hi.
  rewrite contains_shift, !contains_bit, N.shiftr_spec', field_bits.
  replace (_ <? _) with true by (symmetry; apply N.ltb_lt; lia). reflexivity.
Qed.

Definition held (t : names) (w : N) : list N := filter (contains w) (map snd t).

Lemma held_bits : forall off k t w, bits_from off k t ->
  forall i, N.testbit (union (held t w)) i =
    (off <=? i) && (i <? off + N.of_nat k) && N.testbit w i.
Proof.
  intros off k t w Ht i. rewrite union_bits. unfold held. rewrite Ht. apply eq_true_iff_eq.
  rewrite existsb_exists, !andb_true_iff, N.leb_le, N.ltb_lt. split.
  - intros (v & Hv & Hb). apply filter_In in Hv. destruct Hv as [Hv Hc].
    apply in_map_iff in Hv. destruct Hv as (j & <- & Hj). apply in_seq in Hj.
    rewrite N.pow2_bits_eqb in Hb. apply N.eqb_eq in Hb. subst i.
    rewrite contains_bit in Hc. split; [lia|exact Hc].
  - intros ((H1 & H2) & H3). exists (2 ^ i). split; [|apply N.pow2_bits_true].
    apply filter_In. split; [|now rewrite contains_bit].
    apply in_map_iff. exists (N.to_nat (i - off)). split; [f_equal; lia|apply in_seq; lia].
Qed.

(** Asking a field for a flag is asking the word for PERF_MEM_S(field, flag). *)
Theorem C66_asked : forall o w n v,
  (In (n, v) names_mem_op -> contains (ds_mem_op o w) v = contains w (N.shiftl v (at_shift "OP"))) /\
  (In (n, v) names_mem_lvl -> contains (ds_mem_lvl o w) v = contains w (N.shiftl v (at_shift "LVL"))) /\
  (In (n, v) names_mem_lock -> contains (ds_mem_lock o w) v = contains w (N.shiftl v (at_shift "LOCK"))) /\
  (In (n, v) names_mem_dtlb -> contains (ds_mem_dtlb o w) v = contains w (N.shiftl v (at_shift "TLB"))) /\
  (In (n, v) names_mem_blk -> contains (ds_mem_blk o w) v = contains w (N.shiftl v (at_shift "BLK"))) /\
  (In (n, v) names_mem_snoop -> contains (ds_mem_snoop o w) v = contains w v).
Proof.
  intros o w n v. destruct (C44_data_source o w) as (E1 & E2 & E3 & E4 & _ & _ & E5 & _).
  rewrite E1, E2, E3, E4, E5.
  split; [now apply (field_flag w 0 5)|]. split; [now apply (field_flag w 5 14)|].
  split; [now apply (field_flag w 24 2)|]. split; [now apply (field_flag w 26 7)|].
  split; [now apply (field_flag w 40 3)|].
  intros H. destruct (C44_snoop o w) as [G _].
  assert (K : exists i, v = 2 ^ i /\ (19 <= i < 24 \/ 38 <= i < 40)).
  { cbv in H. repeat destruct H as [H|H]; try contradiction; injection H as <- <-.
    - exists 19; split; [reflexivity|lia]. - exists 20; split; [reflexivity|lia].
    - exists 21; split; [reflexivity|lia]. - exists 22; split; [reflexivity|lia].
    - exists 23; split; [reflexivity|lia]. - exists 38; split; [reflexivity|lia].
    - exists 39; split; [reflexivity|lia]. }
  destruct K as (i & -> & Hi). rewrite !contains_bit, G.
  replace (_ || _) with true; [apply andb_true_r|]. symmetry.
  destruct Hi; [apply orb_true_iff; left|apply orb_true_iff; right];
    apply andb_true_iff; split; (apply N.leb_le || apply N.ltb_lt); lia.
Qed.

(** Every bit of a field has a name: a field is the union of the flags it contains. *)
Theorem C66_no_other_bits : forall o w,
  ds_mem_op o w = union (held names_mem_op (ds_mem_op o w)) /\
  ds_mem_lvl o w = union (held names_mem_lvl (ds_mem_lvl o w)) /\
  ds_mem_lock o w = union (held names_mem_lock (ds_mem_lock o w)) /\
  ds_mem_dtlb o w = union (held names_mem_dtlb (ds_mem_dtlb o w)) /\
  ds_mem_blk o w = union (held names_mem_blk (ds_mem_blk o w)) /\
  ds_mem_snoop o w = union (held names_mem_snoop (ds_mem_snoop o w)).
Proof.
  intros o w. destruct (C44_data_source o w) as (E1 & E2 & E3 & E4 & _ & _ & E5 & _).
  rewrite E1, E2, E3, E4, E5.
  assert (F : forall off k t, bits_from 0 k t ->
    field w off (N.of_nat k) = union (held t (field w off (N.of_nat k)))).
  { intros off k t Ht. apply N.bits_inj; intros i. rewrite (held_bits 0 k t _ Ht), field_bits.
    replace (0 <=? i) with true by (symmetry; apply N.leb_le; lia). rewrite N.add_0_l. now destruct (i <? N.of_nat k). }
  split; [now apply (F 0 5%nat)|]. split; [now apply (F 5 14%nat)|]. split; [now apply (F 24 2%nat)|].
  split; [now apply (F 26 7%nat)|]. split; [now apply (F 40 3%nat)|].
  apply N.bits_inj; intros i. set (s := ds_mem_snoop o w).
  replace (union (held names_mem_snoop s))
    with (N.lor (union (held (firstn 5 names_mem_snoop) s)) (union (held (skipn 5 names_mem_snoop) s))).
  - rewrite N.lor_spec, (held_bits 19 5) by reflexivity. rewrite (held_bits 38 2) by reflexivity.
    rewrite <- andb_orb_distrib_l. subst s. rewrite (proj1 (C44_snoop o w)).
    change (19 + N.of_nat 5) with 24. change (38 + N.of_nat 2) with 40.
    destruct (_ || _); [now rewrite andb_true_r|now rewrite andb_false_r].
  - apply N.bits_inj; intros j. rewrite N.lor_spec, !union_bits, <- existsb_app. unfold held.
    rewrite <- filter_app, <- map_app, firstn_skipn. reflexivity.
Qed.

(** * Words as the kernel makes them *)

(** The flags and numbers the kernel puts into a data_src word. *)
Record mem_event : Type := mkMem {
  me_op : list N; me_lvl : list N; me_snoop : list N; me_lock : list N; me_dtlb : list N;
  me_lvl_num : N; me_remote : bool; me_snoopx : list N; me_blk : list N; me_hops : N }.

Definition among (l : list N) (h : constants) : Prop := incl l (map snd h).

Definition mem_event_ok (e : mem_event) : Prop :=
  among (me_op e) h_mem_op /\ among (me_lvl e) h_mem_lvl /\ among (me_snoop e) h_mem_snoop /\
  among (me_lock e) h_mem_lock /\ among (me_dtlb e) h_mem_tlb /\ me_lvl_num e < 16 /\
  among (me_snoopx e) h_mem_snoopx /\ among (me_blk e) h_mem_blk /\ me_hops e < 8.

(** PERF_MEM_S, linux/perf_event.h:1391, for all fields. *)
Definition mem_word (e : mem_event) : N :=
  union [N.shiftl (union (me_op e)) (at_shift "OP"); N.shiftl (union (me_lvl e)) (at_shift "LVL"); N.shiftl (union (me_snoop e)) (at_shift "SNOOP");
         N.shiftl (union (me_lock e)) (at_shift "LOCK"); N.shiftl (union (me_dtlb e)) (at_shift "TLB"); N.shiftl (me_lvl_num e) (at_shift "LVLNUM");
         N.shiftl (if me_remote e then 1 else 0) (at_shift "REMOTE"); N.shiftl (union (me_snoopx e)) (at_shift "SNOOPX");
         N.shiftl (union (me_blk e)) (at_shift "BLK"); N.shiftl (me_hops e) (at_shift "HOPS")].

Lemma field_lor : forall a b off k, field (N.lor a b) off k = N.lor (field a off k) (field b off k).
Proof.
  intros a b off k. apply N.bits_inj; intros i. rewrite N.lor_spec, !field_bits, N.lor_spec.
  now destruct (i <? k).
Qed.

Lemma bits_above : forall v k i, v < 2 ^ k -> k <= i -> N.testbit v i = false.
Proof.
  intros v k i Hv Hi. destruct (N.eq_dec v 0) as [->|Hz]; [apply N.bits_0|].
  apply N.bits_above_log2. apply N.log2_lt_pow2 in Hv; lia.
Qed.

Lemma field_here : forall v off k, v < 2 ^ k -> field (N.shiftl v off) off k = v.
Proof.
  intros v off k Hv. apply N.bits_inj; intros i. rewrite field_bits, N.shiftl_spec_high' by lia.
  replace (i + off - off) with i by lia. destruct (N.ltb_spec i k); [reflexivity|].
  symmetry. now apply (bits_above v k).
Qed.

Lemma field_elsewhere : forall v off' k' off k, v < 2 ^ k' -> off' + k' <= off \/ off + k <= off' ->
  field (N.shiftl v off') off k = 0.
Proof.
  intros v off' k' off k Hv H. apply N.bits_inj; intros i. rewrite field_bits, N.bits_0.
  destruct (N.ltb_spec i k); [|reflexivity]. cbn [andb]. destruct H.
  - rewrite N.shiftl_spec_high' by lia. apply (bits_above v k'); [assumption|lia].
  - apply N.shiftl_spec_low. lia.
Qed.

Lemma union_below : forall k l, Forall (fun v => v < 2 ^ k) l -> union l < 2 ^ k.
Proof.
  intros k l H. induction H as [|v l Hv _ IH]; cbn [union fold_right]; [lia|]. fold (union l).
  destruct (N.eq_dec (N.lor v (union l)) 0) as [->|Hz]; [lia|].
  apply N.log2_lt_pow2; [lia|]. rewrite N.log2_lor.
  destruct (N.eq_dec v 0) as [->|Hv0].
  - rewrite N.lor_0_l in Hz. change (N.log2 0) with 0. rewrite N.max_0_l. apply N.log2_lt_pow2; [lia|exact IH].
  - destruct (N.eq_dec (union l) 0) as [->|Hl0].
    + change (N.log2 0) with 0. rewrite N.max_0_r. apply N.log2_lt_pow2; [lia|exact Hv].
    + apply N.max_lub_lt; apply N.log2_lt_pow2; lia.
Qed.

Lemma among_below : forall k l h, among l h -> Forall (fun v => v < 2 ^ k) (map snd h) -> union l < 2 ^ k.
Proof.
  intros k l h H Hh. apply union_below. rewrite Forall_forall in *. intros v Hv. now apply Hh, H.
Qed.

Lemma union_has : forall l h v, among l h -> In v (map snd h) ->
  Forall (fun v => v = 2 ^ N.log2 v) (map snd h) ->
  (contains (union l) v = true <-> In v l).
Proof.
  intros l h v Hl Hv Hh. rewrite Forall_forall in Hh. rewrite (Hh v Hv) at 1.
  rewrite contains_bit, union_bits, existsb_exists. split.
  - intros (x & Hx & Hb). rewrite (Hh x (Hl x Hx)) in Hb. rewrite N.pow2_bits_eqb in Hb.
    apply N.eqb_eq in Hb. rewrite (Hh v Hv), <- Hb, <- (Hh x (Hl x Hx)). exact Hx.
  - intros H. exists v. split; [exact H|]. rewrite (Hh v Hv) at 1. apply N.pow2_bits_true.
Qed.

Lemma parts_of_word : forall a b c d e f g h i j,
  a < 2 ^ 5 -> b < 2 ^ 14 -> c < 2 ^ 5 -> d < 2 ^ 2 -> e < 2 ^ 7 -> f < 2 ^ 4 -> g < 2 ^ 1 -> h < 2 ^ 2 ->
  i < 2 ^ 3 -> j < 2 ^ 3 ->
  let w := union [N.shiftl a 0; N.shiftl b 5; N.shiftl c 19; N.shiftl d 24; N.shiftl e 26; N.shiftl f 33;
                  N.shiftl g 37; N.shiftl h 38; N.shiftl i 40; N.shiftl j 43] in
  field w 0 5 = a /\ field w 5 14 = b /\ field w 19 5 = c /\ field w 24 2 = d /\ field w 26 7 = e /\
  field w 33 4 = f /\ field w 37 1 = g /\ field w 38 2 = h /\ field w 40 3 = i /\ field w 43 3 = j.
Proof.
  intros a b c d e f g h i j Ha Hb Hc Hd He Hf Hg Hh Hi Hj w. subst w. cbn [union fold_right].
  rewrite !field_lor.
  assert (Z : forall off k, field 0 off k = 0).
  { intros off k. apply N.bits_inj; intros x. rewrite field_bits, N.bits_0. apply andb_false_r. }
  rewrite !Z.
  repeat split;
    repeat first [rewrite field_here by assumption | erewrite field_elsewhere by (eassumption || lia)];
    rewrite ?N.lor_0_l, ?N.lor_0_r; reflexivity.
Qed.

Lemma snoop_here : forall o w, ds_mem_snoop o w = N.lor (N.shiftl (field w 19 5) 19) (N.shiftl (field w 38 2) 38).
Proof.
  intros o w. apply N.bits_inj; intros i. rewrite (proj1 (C44_snoop o w)), N.lor_spec.
  assert (F : forall off k, N.testbit (N.shiftl (field w off k) off) i =
            (off <=? i) && (i <? off + k) && N.testbit w i).
  { intros off k. destruct (N.leb_spec off i).
    - rewrite N.shiftl_spec_high', field_bits by assumption. replace (i - off + off) with i by lia.
      cbn [andb]. f_equal. apply eq_true_iff_eq. rewrite !N.ltb_lt. lia.
    - now rewrite N.shiftl_spec_low by assumption. }
  rewrite !F, <- andb_orb_distrib_l. apply andb_comm.
Qed.

(** Each accessor reports the flags that were put in, and no others. *)
Theorem C66_reported : forall o e, mem_event_ok e ->
  let w := mem_word e in
  (forall n v, In (n, v) names_mem_op -> (contains (ds_mem_op o w) v = true <-> In v (me_op e))) /\
  (forall n v, In (n, v) names_mem_lvl -> (contains (ds_mem_lvl o w) v = true <-> In v (me_lvl e))) /\
  (forall n v, In (n, v) names_mem_lock -> (contains (ds_mem_lock o w) v = true <-> In v (me_lock e))) /\
  (forall n v, In (n, v) names_mem_dtlb -> (contains (ds_mem_dtlb o w) v = true <-> In v (me_dtlb e))) /\
  (forall n v, In (n, v) names_mem_blk -> (contains (ds_mem_blk o w) v = true <-> In v (me_blk e))) /\
  (forall n v, In (n, v) names_mem_snoop ->
     (contains (ds_mem_snoop o w) v = true <->
      In v (map (fun x => N.shiftl x (at_shift "SNOOP")) (me_snoop e) ++
            map (fun x => N.shiftl x (at_shift "SNOOPX")) (me_snoopx e)))) /\
  ds_mem_lvl_num o w = me_lvl_num e /\ ds_mem_remote o w = me_remote e /\ ds_mem_hops o w = me_hops e.
Proof.
  intros o e (H1 & H2 & H3 & H4 & H5 & H6 & H7 & H8 & H9) w.
  change (at_shift "SNOOP") with 19. change (at_shift "SNOOPX") with 38.
  assert (B : forall k l h, among l h -> forallb (fun v => v <? 2 ^ k) (map snd h) = true -> union l < 2 ^ k).
  { intros k l h Hl Hb. apply (among_below k l h Hl). rewrite Forall_forall. intros v Hv.
    rewrite forallb_forall in Hb. apply N.ltb_lt. now apply Hb. }
  destruct (parts_of_word (union (me_op e)) (union (me_lvl e)) (union (me_snoop e)) (union (me_lock e))
    (union (me_dtlb e)) (me_lvl_num e) (if me_remote e then 1 else 0) (union (me_snoopx e))
    (union (me_blk e)) (me_hops e)) as (E1 & E2 & E3 & E4 & E5 & E6 & E7 & E8 & E9 & E10);
    try assumption.
  1-5,7,8: eapply B; [eassumption|reflexivity].
  { now destruct (me_remote e). }
  match type of E1 with field ?x _ _ = _ => change x with (mem_word e) in E1, E2, E3, E4, E5, E6, E7, E8, E9, E10 end.
  fold w in E1, E2, E3, E4, E5, E6, E7, E8, E9, E10.
  destruct (C44_data_source o w) as (D1 & D2 & D4 & D5 & D6 & D7 & D9 & D10).
  rewrite D1, D2, D4, D5, D6, D7, D9, D10, E1, E2, E4, E5, E6, E9, E10.
  assert (U : forall l h (t : names) n v, among l h -> map snd t = map snd h -> In (n, v) t ->
    forallb (fun v => v =? 2 ^ N.log2 v) (map snd h) = true -> (contains (union l) v = true <-> In v l)).
  { intros l h t n v Hl Ht Hin Hb. apply (union_has l h v Hl).
    - rewrite <- Ht. apply (in_map snd) in Hin. exact Hin.
    - rewrite Forall_forall. rewrite forallb_forall in Hb. intros x Hx. apply N.eqb_eq. now apply Hb. }
  split; [intros n v Hin; eapply U; [eassumption| |eassumption|]; reflexivity|].
  split; [intros n v Hin; eapply U; [eassumption| |eassumption|]; reflexivity|].
  split; [intros n v Hin; eapply U; [eassumption| |eassumption|]; reflexivity|].
  split; [intros n v Hin; eapply U; [eassumption| |eassumption|]; reflexivity|].
  split; [intros n v Hin; eapply U; [eassumption| |eassumption|]; reflexivity|].
  split; [|split; [reflexivity|split; [|reflexivity]]].
  2: { pose proof (field_bits w 37 1 0) as F. rewrite E7 in F. rewrite N.add_0_l in F. cbn [N.ltb andb] in F.
       change (0 <? 1) with true in F. cbn [andb] in F. rewrite <- F. now destruct (me_remote e). }
  intros n v Hin. rewrite snoop_here, E3, E8.
  set (h := map (fun c : string * N => (fst c, N.shiftl (snd c) 19)) h_mem_snoop ++
            map (fun c : string * N => (fst c, N.shiftl (snd c) 38)) h_mem_snoopx).
  replace (N.lor _ _) with
    (union (map (fun x => N.shiftl x 19) (me_snoop e) ++ map (fun x => N.shiftl x 38) (me_snoopx e))).
  - apply (U _ h names_mem_snoop n); try reflexivity; [|exact Hin].
    intros x Hx. apply in_app_iff in Hx. unfold h. rewrite map_app, !map_map. apply in_app_iff.
    destruct Hx as [Hx|Hx]; [left|right]; apply in_map_iff in Hx; destruct Hx as (y & <- & Hy);
      [apply H3 in Hy|apply H7 in Hy]; apply in_map_iff in Hy; destruct Hy as (c & <- & Hc);
      apply in_map_iff; exists c; now split.
  - assert (G : forall l s, union (map (fun x => N.shiftl x s) l) = N.shiftl (union l) s).
    { induction l as [|x l IH]; intros s; [symmetry; apply N.shiftl_0_l|].
      cbn [map union fold_right]. fold (union l). fold (union (map (fun x => N.shiftl x s) l)).
      now rewrite IH, N.shiftl_lor. }
    rewrite <- !G. generalize (map (fun x => N.shiftl x 19) (me_snoop e)) as l.
    induction l as [|x l IH]; [reflexivity|]. cbn [app union fold_right].
    fold (union l). fold (union (l ++ map (fun x => N.shiftl x 38) (me_snoopx e))).
    now rewrite IH, N.lor_assoc.
Qed.

(** A load that hit the second level, forwarded, remote, over three hops. *)
Definition ex_mem : mem_event := mkMem [2] [2; 32] [4] [1] [2; 8] 2 true [1] [1] 3.

Example C66_example :
  mem_event_ok ex_mem /\
  filter (fun c => contains (ds_mem_lvl BE (mem_word ex_mem)) (snd c)) names_mem_lvl =
    [("HIT", 2); ("L2", 32)]%string /\
  map fst (filter (fun c => contains (ds_mem_snoop LE (mem_word ex_mem)) (snd c)) names_mem_snoop) =
    ["HIT"; "FWD"]%string.
Proof.
  split; [|split; reflexivity].
  repeat split; try lia; intros x Hx; vm_compute in Hx |- *; tauto.
Qed.

(** * Other words *)

(** The trace format and the abort code, asked for by the masks of the header. *)
Theorem C66_masks : forall w,
  (forall n v, In (n, v) codes_pmu_format ->
     (aux_pmu_format w = v <-> N.land w 65280 = N.shiftl v 8)) /\
  (txn_abort w = 0 <-> N.land w h_txn_abort = 0).
Proof.
  intros w. split.
  - intros n v Hin.
    assert (Hv : v < 2 ^ 8) by (cbv in Hin; repeat destruct Hin as [Hin|Hin]; try contradiction; injection Hin as <- <-; lia).
    unfold aux_pmu_format. rewrite N.shiftr_div_pow2. change 65280 with (N.shiftl (N.ones 8) 8).
    split; intros H.
    + apply N.bits_inj; intros i. rewrite N.land_spec. destruct (N.ltb_spec i 8) as [Hi|Hi].
      * rewrite !N.shiftl_spec_low by exact Hi. apply andb_false_r.
      * rewrite !N.shiftl_spec_high' by exact Hi. rewrite <- H.
        destruct (N.ltb_spec (i - 8) 8) as [Hj|Hj].
        -- rewrite N.ones_spec_low, N.mod_pow2_bits_low, N.div_pow2_bits, N.land_spec by exact Hj.
           rewrite N.shiftl_spec_high' by lia. replace (i - 8 + 8) with i by lia.
           now rewrite N.ones_spec_low by exact Hj.
        -- rewrite N.ones_spec_high, N.mod_pow2_bits_high by exact Hj. apply andb_false_r.
    + rewrite H, N.shiftl_mul_pow2, N.div_mul by discriminate. now apply N.mod_small.
  - unfold txn_abort, h_txn_abort. change 4294967295 with (N.ones 32). split; intros H.
    + apply N.bits_inj; intros i. rewrite N.land_spec, N.bits_0. destruct (N.ltb_spec i 32) as [Hi|Hi].
      * rewrite N.shiftl_spec_low by exact Hi. apply andb_false_r.
      * rewrite N.shiftl_spec_high' by exact Hi. destruct (N.ltb_spec (i - 32) 32) as [Hj|Hj].
        -- apply (f_equal (fun x => N.testbit x (i - 32))) in H.
           rewrite N.mod_pow2_bits_low, N.shiftr_spec', N.bits_0 in H by exact Hj.
           replace (i - 32 + 32) with i in H by lia. now rewrite H.
        -- rewrite N.ones_spec_high by exact Hj. apply andb_false_r.
    + apply N.bits_inj; intros i. rewrite N.bits_0. destruct (N.ltb_spec i 32) as [Hj|Hj].
      * rewrite N.mod_pow2_bits_low, N.shiftr_spec' by exact Hj.
        apply (f_equal (fun x => N.testbit x (i + 32))) in H.
        rewrite N.land_spec, N.shiftl_spec_high', N.bits_0 in H by lia.
        replace (i + 32 - 32) with i in H by lia. rewrite N.ones_spec_low, andb_true_r in H by exact Hj. exact H.
      * now rewrite N.mod_pow2_bits_high by exact Hj.
Qed.

Example C66_masks_example :
  aux_pmu_format (256 + 3) = 1 /\ In ("CORESIGHT_RAW"%string, 1) codes_pmu_format /\
  txn_abort (7 * 2 ^ 32 + 3) = 7 /\ txn_abort 255 = 0.
Proof. vm_compute. intuition. Qed.

Print Assumptions C66_flags.
Print Assumptions C66_codes_partial.
Print Assumptions C66_codes_refuted.
Print Assumptions C66_asked.
Print Assumptions C66_no_other_bits.
Print Assumptions C66_reported.
Print Assumptions C66_masks.
