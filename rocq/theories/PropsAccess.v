(** C29, C33, C36, C43, C44, C45, C46, C48, C50: accessors, conversions and
    Debug helpers. *)
From Coq Require Import NArith List Bool Lia.
From Verif Require Import Base BaseFacts Types Platform Bits Records Sample Views
  Access OptStruct Owned Fmt AccessFacts FmtFacts.
Import ListNotations.
Open Scope N_scope.

(** * C29: MMAP2 to MMAP *)

Theorem C29_into_mmap : forall m : mmap2 cow,
  mm_pid (into_mmap m) = m2_pid m /\
  mm_tid (into_mmap m) = m2_tid m /\
  mm_addr (into_mmap m) = m2_addr m /\
  mm_len (into_mmap m) = m2_len m /\
  mm_pgoff (into_mmap m) = m2_pgoff m /\
  mm_filename (into_mmap m) = m2_filename m.
Proof. intros m. repeat split. Qed.

Example C29_example :
  into_mmap (mkMmap2 1 2 3 4 5 (MdDefault 6 7 8 9) 10 11 (Borrowed 4096 [47; 97]))
  = mkMmap 1 2 3 4 5 (Borrowed 4096 [47; 97]).
Proof. reflexivity. Qed.

(** * C33: structs of optional fields *)

(** Every accessor returns what was given, reading only what was written. *)
Theorem C33_new : forall (V : Type) bits (vals : list (option V)), len vals < bits ->
  exists s, os_new bits vals = Ok s /\
    forall i v, nth_error vals i = Some v -> os_get s (N.of_nat i) = Ok v.
Proof.
  intros V bits vals H. destruct (os_new_holds bits vals H) as (s & E & Hs).
  exists s. split; [exact E|]. intros i v Hv. rewrite (os_get_holds _ _ _ Hs).
  f_equal. apply given_nth. now rewrite Nat2N.id.
Qed.

Theorem C33_clone : forall (V : Type) bits (vals : list (option V)) s, len vals < bits ->
  os_new bits vals = Ok s ->
  exists s', os_clone bits s = Ok s' /\
    forall i v, nth_error vals i = Some v -> os_get s' (N.of_nat i) = Ok v.
Proof.
  intros V bits vals s H E. destruct (os_new_holds bits vals H) as (s0 & E0 & Hs).
  assert (s0 = s) by congruence. subst s0.
  destruct (os_clone_holds bits s vals H Hs) as (s' & E' & Hs').
  exists s'. split; [exact E'|]. intros i v Hv. rewrite (os_get_holds _ _ _ Hs').
  f_equal. apply given_nth. now rewrite Nat2N.id.
Qed.

Theorem C33_default : forall (V : Type) n i, os_get (os_default (V:=V) n) i = Ok None.
Proof.
  intros V n i. rewrite (os_get_holds _ _ i (os_default_holds n)). f_equal.
  unfold given. rewrite get_nth.
  destruct (nth_error (repeat None n) (N.to_nat i)) as [v|] eqn:E; [|reflexivity].
  now apply nth_error_In, repeat_spec in E.
Qed.

(** Dropping drops the values given, each once, in order. *)
Fixpoint values_of {V : Type} (vals : list (option V)) : list V :=
  match vals with
  | [] => []
  | v :: t => match v with Some x => x :: values_of t | None => values_of t end
  end.

Theorem C33_drop : forall (V : Type) bits (vals : list (option V)) s, len vals < bits ->
  os_new bits vals = Ok s ->
  os_drop s = Ok (values_of vals) /\
  forall n, os_drop (os_default (V:=V) n) = Ok [].
Proof.
  intros V bits vals s H E. destruct (os_new_holds bits vals H) as (s0 & E0 & Hs).
  assert (s0 = s) by congruence. subst s0. split.
  - rewrite (os_drop_holds _ _ Hs). f_equal. clear. induction vals as [|[v|] vals IH];
      cbn [somes values_of]; congruence.
  - intros n. rewrite (os_drop_holds _ _ (os_default_holds n)). f_equal.
    induction n; [reflexivity|exact IHn].
Qed.

(** The two structs of the crate: each accessor returns the field of its name. *)
Theorem C33_sample_id : forall s, exists o, sample_id_struct s = Ok o /\
  map (fun g => g o) [id_get_pid; id_get_tid; id_get_time; id_get_id; id_get_stream_id;
                      id_get_cpu] =
  map (fun f => Ok (option_map FInt (f s)))
    [si_pid; si_tid; si_time; si_id; si_stream_id; si_cpu].
Proof.
  intros s. destruct (C33_new fval 8 (sample_id_fields s)) as (o & E & H); [reflexivity|].
  exists o. split; [exact E|]. cbn [map].
  assert (H' : forall i v, nth_error (sample_id_fields s) (N.to_nat i) = Some v -> os_get o i = Ok v)
    by (intros i v Hv; rewrite <- (N2Nat.id i); now apply H).
  clear H. repeat match goal with |- ?a :: ?b = ?c :: ?d =>
    apply (f_equal2 (@cons _)); [apply H'; reflexivity|] end. reflexivity.
Qed.

Theorem C33_sample : forall s, exists o, sample_struct s = Ok o /\
  map (fun g => g o)
   [sample_get_ip; sample_get_pid; sample_get_tid; sample_get_time; sample_get_addr;
    sample_get_id; sample_get_stream_id; sample_get_cpu; sample_get_period;
    sample_get_lbr_hw_index; sample_get_weight; sample_get_data_src;
    sample_get_transaction; sample_get_phys_addr; sample_get_cgroup;
    sample_get_data_page_size; sample_get_code_page_size] =
  map (fun f => Ok (option_map FInt (f s)))
    [s_ip; s_pid; s_tid; s_time; s_addr; s_id; s_stream_id; s_cpu; s_period; s_lbr_hw_index;
     s_weight; s_data_src; s_transaction; s_phys_addr; s_cgroup; s_data_page_size;
     s_code_page_size] /\
  sample_get_values o = Ok (option_map FGroup (s_values s)) /\
  sample_get_callchain o = Ok (option_map FWords (s_callchain s)) /\
  map (fun g => g o) [sample_get_raw; sample_get_stack_user; sample_get_aux] =
  map (fun f => Ok (option_map FBytes (f s))) [s_raw; s_stack_user; s_aux] /\
  sample_get_lbr o = Ok (option_map FBranches (s_lbr s)) /\
  map (fun g => g o) [sample_get_regs_user; sample_get_regs_intr] = map (fun f => Ok (option_map FRegs (f s))) [s_regs_user; s_regs_intr].
Proof.
  intros s. destruct (C33_new fval 32 (sample_fields s)) as (o & E & H); [reflexivity|].
  exists o. split; [exact E|]. cbn [map].
  assert (H' : forall i v, nth_error (sample_fields s) (N.to_nat i) = Some v -> os_get o i = Ok v)
    by (intros i v Hv; rewrite <- (N2Nat.id i); now apply H).
  clear H. repeat match goal with
  | |- _ /\ _ => split
  | |- ?a :: ?b = ?c :: ?d =>
      apply (f_equal2 (@cons _)); [apply H'; reflexivity|]
  | |- [] = [] => reflexivity
  end; apply H'; reflexivity.
Qed.

Example C33_example :
  exists s, os_new 8 [Some 5; None; Some 0; None] = Ok s /\ os_flags s = 5 /\
    os_get s 2 = Ok (Some 0) /\ os_get s 3 = Ok None /\ os_drop s = Ok [5; 0].
Proof. eexists. split; [vm_compute; reflexivity|]. repeat split. Qed.

(** * C36: namespace accessors, by the indices of linux/perf_event.h:819-827 *)

Theorem C36_accessors_partial : forall n : namespaces cow,
  let entry i := nth_error (cow_list (nss_entries n)) i in
  ns_network n = entry 0%nat /\
  ns_ipc n = entry 2%nat /\
  ns_pid n = entry 3%nat /\
  ns_user n = entry 4%nat /\
  ns_cgroup n = entry 6%nat.
Proof.
  intros n entry. unfold ns_network, ns_ipc, ns_pid, ns_user, ns_cgroup, entry.
  rewrite !get_nth. repeat split.
Qed.

(** [uts] returns the user namespace: it is right only if the two entries agree. *)
Theorem C36_uts_partial : forall n : namespaces cow,
  let entry i := nth_error (cow_list (nss_entries n)) i in
  ns_uts n = entry 1%nat <-> entry 4%nat = entry 1%nat.
Proof. intros n entry. unfold ns_uts, entry. rewrite get_nth. reflexivity. Qed.

Theorem C36_uts_refuted : exists n : namespaces cow,
  len (cow_list (nss_entries n)) = 7 /\
  ns_uts n <> nth_error (cow_list (nss_entries n)) 1 /\
  exists m : namespaces cow, len (cow_list (nss_entries m)) = 2 /\
    nth_error (cow_list (nss_entries m)) 1 <> None /\ ns_uts m = None.
Proof.
  exists (mkNamespaces 1 2 (Owned (map (fun i => mkNs 4 i) [10; 11; 12; 13; 14; 15; 16]))).
  split; [reflexivity|]. split; [discriminate|].
  exists (mkNamespaces 1 2 (Owned [mkNs 4 10; mkNs 4 11])).
  split; [reflexivity|]. split; [discriminate|reflexivity].
Qed.

Example C36_example :
  ns_cgroup (mkNamespaces 1 2 (Owned (map (fun i => mkNs 4 i) [10; 11; 12; 13; 14; 15; 16])))
  = Some (mkNs 4 16).
Proof. reflexivity. Qed.

(** * C43: into_owned *)

(** Holds its data itself. *)
Definition free {A : Type} (c : cow A) : Prop :=
  match c with Owned _ => True | Borrowed _ _ => False end.

Theorem C43_into_owned :
  (forall r, view_cgroup (cgroup_into_owned r) = view_cgroup r /\
             free (cg_path (cgroup_into_owned r))) /\
  (forall r, view_comm (comm_into_owned r) = view_comm r /\
             free (cm_comm (comm_into_owned r))) /\
  (forall r, view_ksymbol (ksymbol_into_owned r) = view_ksymbol r /\
             free (ks_name (ksymbol_into_owned r))) /\
  (forall r, view_mmap (mmap_into_owned r) = view_mmap r /\
             free (mm_filename (mmap_into_owned r))) /\
  (forall r, view_mmap2 (mmap2_into_owned r) = view_mmap2 r /\
             free (m2_filename (mmap2_into_owned r))) /\
  (forall r, view_read_group (group_into_owned r) = view_read_group r /\
             free (rg_data (group_into_owned r))) /\
  (forall r, view_text_poke (text_poke_to_owned r) = view_text_poke r /\
             free (tp_old (text_poke_to_owned r)) /\ free (tp_new (text_poke_to_owned r))).
Proof. repeat split. Qed.

Example C43_example :
  comm_into_owned (mkComm 1 2 (Borrowed 4096 [97])) = mkComm 1 2 (Owned [97]).
Proof. reflexivity. Qed.

(** * C44, C45: packed words *)

(** Bits [off .. off + width - 1] of a word. *)
Definition field (w off width : N) : N := (w / 2 ^ off) mod 2 ^ width.

(** Hosts of both byte orders (union perf_mem_data_src, linux/perf_event.h:1263-1299). *)
Theorem C44_data_source : forall o w,
  ds_mem_op o w = field w 0 5 /\
  ds_mem_lvl o w = field w 5 14 /\
  ds_mem_lock o w = field w 24 2 /\
  ds_mem_dtlb o w = field w 26 7 /\
  ds_mem_lvl_num o w = field w 33 4 /\
  ds_mem_remote o w = N.testbit w 37 /\
  ds_mem_blk o w = field w 40 3 /\
  ds_mem_hops o w = field w 43 3.
Proof.
  intros o w. unfold ds_mem_op, ds_mem_lvl, ds_mem_lock, ds_mem_dtlb, ds_mem_lvl_num,
    ds_mem_remote, ds_mem_blk, ds_mem_hops, ds_bits, field.
  destruct o; rewrite !get_bits_field by lia; rewrite !mod_small_pow by lia; rewrite bit_nonzero;
    repeat split.
Qed.

Lemma ds_bits_field : forall o w off width, off + width <= 64 ->
  ds_bits o w off width = (w / 2 ^ off) mod 2 ^ width.
Proof.
  intros o w off width H. unfold ds_bits. destruct o; rewrite get_bits_field by lia; [reflexivity|].
  now replace (64 - (64 - off - width) - width) with off by lia.
Qed.

(** Both snoop fields survive, at their own places, and nothing else does. *)
Theorem C44_snoop : forall o w,
  (forall i, N.testbit (ds_mem_snoop o w) i =
     N.testbit w i && ((19 <=? i) && (i <? 24) || (38 <=? i) && (i <? 40))) /\
  field (ds_mem_snoop o w) 19 5 = field w 19 5 /\
  field (ds_mem_snoop o w) 38 2 = field w 38 2.
Proof.
  intros o w.
  assert (H : forall i, N.testbit (ds_mem_snoop o w) i =
     N.testbit w i && ((19 <=? i) && (i <? 24) || (38 <=? i) && (i <? 40))).
  { intros i. unfold ds_mem_snoop, snoop_new. rewrite !ds_bits_field by lia.
    change 31 with (N.ones 5). change 3 with (N.ones 2). rewrite !N.land_ones, !mod_small_pow by lia.
    unfold SNOOP_SHIFT, SNOOPX_SHIFT.
    rewrite N.land_spec, N.lor_spec.
    assert (Ha : N.testbit snoop_all i = (19 <=? i) && (i <? 24) || (38 <=? i) && (i <? 40)).
    { change snoop_all with (N.lor (N.shiftl (N.ones 5) 19) (N.shiftl (N.ones 2) 38)).
      rewrite N.lor_spec. f_equal.
      - destruct (N.leb_spec 19 i); [|now rewrite N.shiftl_spec_low by lia].
        rewrite N.shiftl_spec_high' by lia.
        destruct (N.ltb_spec i 24); [now rewrite N.ones_spec_low by lia|].
        now rewrite N.ones_spec_high by lia.
      - destruct (N.leb_spec 38 i); [|now rewrite N.shiftl_spec_low by lia].
        rewrite N.shiftl_spec_high' by lia.
        destruct (N.ltb_spec i 40); [now rewrite N.ones_spec_low by lia|].
        now rewrite N.ones_spec_high by lia. }
    rewrite Ha.
    destruct (N.leb_spec 19 i) as [A|A].
    - rewrite N.shiftl_spec_high' by lia. destruct (N.ltb_spec i 24) as [B|B].
      + rewrite N.mod_pow2_bits_low, N.div_pow2_bits by lia.
        replace (i - 19 + 19) with i by lia.
        rewrite (N.shiftl_spec_low _ 38) by lia. now rewrite orb_false_r.
      + rewrite (N.mod_pow2_bits_high _ 5) by lia. rewrite orb_false_l.
        destruct (N.leb_spec 38 i) as [C|C].
        * rewrite N.shiftl_spec_high' by lia. destruct (N.ltb_spec i 40) as [D|D].
          -- rewrite N.mod_pow2_bits_low, N.div_pow2_bits by lia.
             now replace (i - 38 + 38) with i by lia.
          -- now rewrite !andb_false_r.
        * now rewrite !andb_false_r.
    - destruct (N.leb_spec 38 i); [lia|]. now rewrite !andb_false_r. }
  split; [exact H|]. unfold field.
  split; apply N.bits_inj; intros j;
    match goal with |- N.testbit (_ mod 2 ^ ?k) j = _ => destruct (N.ltb_spec j k) end.
  all: rewrite ?N.mod_pow2_bits_low, ?N.div_pow2_bits by lia.
  all: rewrite ?N.mod_pow2_bits_high by lia; try reflexivity.
  - rewrite H. replace (19 <=? j + 19) with true by (symmetry; apply N.leb_le; lia).
    replace (j + 19 <? 24) with true by (symmetry; apply N.ltb_lt; lia). now rewrite andb_true_r.
  - rewrite H. replace (38 <=? j + 38) with true by (symmetry; apply N.leb_le; lia).
    replace (j + 38 <? 40) with true by (symmetry; apply N.ltb_lt; lia).
    now rewrite orb_true_r, andb_true_r.
Qed.

Example C44_example :
  let w := 2 ^ 1 + 2 ^ 6 + 2 ^ 20 + 2 ^ 37 + 2 ^ 39 + 2 ^ 45 in
  ds_mem_op LE w = 2 /\ ds_mem_lvl LE w = 2 /\ ds_mem_snoop LE w = 2 ^ 20 + 2 ^ 39 /\
  ds_mem_remote LE w = true /\ ds_mem_hops LE w = 4 /\
  ds_mem_op BE w = 2 /\ ds_mem_lvl BE w = 2 /\ ds_mem_hops BE w = 4.
Proof. repeat split. Qed.

(** Where C puts a bit field declared after [off] bits: from the low end on
    little-endian hosts, from the high end on big-endian ones
    (struct perf_branch_entry, linux/perf_event.h:1411-1424). *)
Definition place (o : order) (off width : N) : N :=
  match o with LE => off | BE => 64 - off - width end.

Theorem C45_branch : forall o b,
  let w := be_flags b in
  be_mispred o b = N.testbit w (place o 0 1) /\
  be_predicted o b = N.testbit w (place o 1 1) /\
  be_in_tx o b = N.testbit w (place o 2 1) /\
  be_abort o b = N.testbit w (place o 3 1) /\
  be_cycles o b = field w (place o 4 16) 16 /\
  be_ty o b = field w (place o 20 4) 4.
Proof.
  intros o b w. unfold be_mispred, be_predicted, be_in_tx, be_abort, be_cycles, be_ty, be_bits,
    field, place. rewrite !get_bits_field by lia. rewrite !mod_small_pow by lia.
  rewrite !bit_nonzero. destruct o; repeat split.
Qed.

Theorem C45_words : forall w, w < 2 ^ 64 ->
  w = txn_abort w * 2 ^ 32 + field w 0 32 /\ txn_abort w < 2 ^ 32 /\
  aux_pmu_format w = field w 8 8.
Proof.
  intros w Hw. unfold txn_abort, aux_pmu_format, field. rewrite !N.shiftr_div_pow2.
  assert (Hd : w / 2 ^ 32 < 2 ^ 32).
  { apply N.div_lt_upper_bound; [discriminate|]. exact Hw. }
  rewrite (N.mod_small (w / 2 ^ 32)) by exact Hd. split; [|split; [exact Hd|]].
  - change (2 ^ 0) with 1. rewrite N.div_1_r.
    rewrite (N.div_mod w (2 ^ 32)) at 1 by discriminate. now rewrite (N.mul_comm (2 ^ 32)).
  - apply N.bits_inj; intros j. destruct (N.ltb_spec j 8) as [Hj|Hj].
    + rewrite !N.mod_pow2_bits_low, !N.div_pow2_bits by exact Hj. rewrite N.land_spec.
      change 65280 with (N.shiftl (N.ones 8) 8). rewrite N.shiftl_spec_high' by lia.
      replace (j + 8 - 8) with j by lia. rewrite N.ones_spec_low by exact Hj. apply andb_true_r.
    + now rewrite !N.mod_pow2_bits_high by exact Hj.
Qed.

Example C45_example :
  txn_abort (2 ^ 63 + 7) = 2 ^ 31 /\ aux_pmu_format 771 = 3 /\
  be_cycles LE (mkBranch 1 2 (7 * 16 + 2)) = 7 /\ be_predicted LE (mkBranch 1 2 114) = true.
Proof. repeat split. Qed.

(** * C46: hexadecimal bytes *)

Definition digit (n : N) : N :=
  nth (N.to_nat n) [48; 49; 50; 51; 52; 53; 54; 55; 56; 57; 65; 66; 67; 68; 69; 70] 0.
Definition hexadecimal (l : list N) : list N :=
  flat_map (fun b => [digit (b / 16); digit (b mod 16)]) l.

Lemma small_cases : forall (P : N -> Prop) n, n < 16 ->
  P 0 -> P 1 -> P 2 -> P 3 -> P 4 -> P 5 -> P 6 -> P 7 -> P 8 -> P 9 -> P 10 -> P 11 -> P 12 ->
  P 13 -> P 14 -> P 15 -> P n.
Proof.
  intros P n H. intros.
  assert (C : n = 0 \/ n = 1 \/ n = 2 \/ n = 3 \/ n = 4 \/ n = 5 \/ n = 6 \/ n = 7 \/ n = 8 \/
    n = 9 \/ n = 10 \/ n = 11 \/ n = 12 \/ n = 13 \/ n = 14 \/ n = 15) by lia.
  repeat (destruct C as [->|C]; [assumption|]). now rewrite C.
Qed.

Definition printed (n : N) : N := if n <? 10 then digit n else 65 + n.

Lemma hex_str_cons : forall b t, b < 256 ->
  hex_str (b :: t) = out_map (app [printed (b mod 16); printed (b / 16)]) (hex_str t).
Proof.
  intros b t Hb. cbn [hex_str].
  change 15 with (N.ones 4). rewrite N.land_ones, N.shiftr_div_pow2. change (2 ^ 4) with 16.
  assert (H1 : b mod 16 < 16) by (apply N.mod_lt; discriminate).
  assert (H2 : b / 16 < 16) by (apply N.div_lt_upper_bound; [discriminate|exact Hb]).
  assert (Hn : forall n, n < 16 -> hex_nibble n = Ok (printed n)).
  { intros n Hn. revert n Hn. intros n Hn. pattern n. apply small_cases; reflexivity || exact Hn. }
  cbn [hex_nibbles]. now rewrite !Hn.
Qed.

Lemma hex_str_total : forall l, bytes l -> exists o, hex_str l = Ok o /\ len o = 2 * len l.
Proof.
  induction l as [|b t IH]; intros Hb; [exists []; split; reflexivity|].
  inversion_clear Hb as [|? ? H Ht]. destruct (IH Ht) as (o & E & Hl).
  rewrite hex_str_cons, E by exact H. cbn [out_map]. eexists; split; [reflexivity|].
  rewrite len_app, !len_cons, len_nil, Hl. lia.
Qed.

Theorem C46_partial : forall l, bytes l ->
  (hex_str l = Ok (hexadecimal l) <-> Forall (fun b => b / 16 = b mod 16 /\ b mod 16 < 10) l).
Proof.
  induction l as [|b t IH]; intros Hb; [split; [constructor|reflexivity]|].
  inversion_clear Hb as [|? ? H Ht]. specialize (IH Ht).
  assert (H1 : b mod 16 < 16) by (apply N.mod_lt; discriminate).
  assert (H2 : b / 16 < 16) by (apply N.div_lt_upper_bound; [discriminate|exact H]).
  assert (Hd : forall m n, m < 16 -> n < 16 ->
    (printed m = digit n /\ printed n = digit m <-> n = m /\ m < 10)).
  { intros m n Hm Hn. pattern m. apply small_cases; [exact Hm|..];
      pattern n; (apply small_cases; [exact Hn|..]); split; intros [A B];
      (split; (reflexivity || discriminate A || discriminate B)). }
  rewrite hex_str_cons by exact H. cbn [hexadecimal flat_map]. fold (hexadecimal t).
  specialize (Hd _ _ H1 H2). split.
  - intros E. destruct (hex_str_total t Ht) as (o & Eo & _). rewrite Eo in *.
    cbn [out_map app] in E.
    assert (E1 : printed (b mod 16) = digit (b / 16)) by congruence.
    assert (E2 : printed (b / 16) = digit (b mod 16)) by congruence.
    assert (E3 : o = hexadecimal t) by congruence.
    constructor; [apply Hd; auto|]. apply IH. congruence.
  - intros F. inversion_clear F as [|? ? Fb Ft]. apply Hd in Fb. destruct Fb as [E1 E2].
    apply IH in Ft. rewrite Ft. cbn [out_map]. rewrite E1, E2. reflexivity.
Qed.

(** 0x12 is printed as "21" and 0xAB as "LK". *)
Theorem C46_refuted :
  hex_str [18] = Ok [50; 49] /\ hexadecimal [18] = [49; 50] /\
  hex_str [171] = Ok [76; 75] /\ hexadecimal [171] = [65; 66] /\
  exists l, bytes l /\ hex_str l <> Ok (hexadecimal l).
Proof.
  repeat split. exists [18]. split; [repeat constructor|]. vm_compute. discriminate.
Qed.

Example C46_example : hex_str [17; 153] = Ok (hexadecimal [17; 153]).
Proof. reflexivity. Qed.

(** * C48: SampleId from a Sample *)

(** Each accessor of the new SampleId returns what the accessor of the same name
    of the sample returns. *)
Theorem C48_from_sample : forall s o,
  sample_struct s = Ok o ->
  exists o', sample_id_struct (sample_id_of_sample s) = Ok o' /\
    map (fun g => g o')
      [id_get_pid; id_get_tid; id_get_time; id_get_id; id_get_stream_id; id_get_cpu] =
    map (fun g => g o)
      [sample_get_pid; sample_get_tid; sample_get_time; sample_get_id; sample_get_stream_id;
       sample_get_cpu].
Proof.
  intros s o Ho. destruct (C33_sample_id (sample_id_of_sample s)) as (o' & E' & H').
  exists o'. split; [exact E'|]. rewrite H'.
  destruct (C33_sample s) as (o0 & E0 & H & _). assert (o0 = o) by congruence. subst o0.
  cbn [map] in H |- *.
  injection H as _ H1 H2 H3 _ H5 H6 H7 _ _ _ _ _ _ _ _ _.
  rewrite H1, H2, H3, H5, H6, H7. reflexivity.
Qed.

Example C48_example :
  let s := mkSample (F:=cow) (Some 1) (Some 2) (Some 3) None (Some 5) (Some 6) None (Some 8) None None
    None None None None None None None None None None None None None None None in
  exists o, sample_struct s = Ok o /\ os_get o 1 = Ok (Some (FInt 2)) /\
    sample_id_of_sample s = mkSampleId (Some 2) (Some 3) None (Some 6) None (Some 8).
Proof. cbv zeta. eexists. split; [vm_compute; reflexivity|]. split; reflexivity. Qed.

(** * C50: byte strings *)

(** The output is the input cut into UTF-8 characters, shown by [esc], and stray
    bytes, shown as \xhh; a byte is stray exactly if no character starts at it. *)
Theorem C50_byte_str : forall esc data, Forall (fun b => b < 256) data ->
  exists ps, raw ps = data /\ proper ps /\
    byte_str esc data = Ok ([34] ++ flat_map (piece_text esc) ps ++ [34]).
Proof.
  intros esc data Hd. destruct (byte_str_loop_spec esc (length data) data (le_n _)) as (ps & Hr & Hp & E).
  exists ps. split; [exact Hr|]. split; [exact Hp|]. unfold byte_str. rewrite E.
  now rewrite show_piece by (rewrite Hr; exact Hd).
Qed.

(** Every ASCII byte is a character of its own: stray bytes are 128 or more. *)
Theorem C50_stray : forall ps b, proper ps -> In (Stray b) ps -> 128 <= b.
Proof.
  induction ps as [|p ps IH]; intros b Hp Hi; [destruct Hi|].
  destruct Hi as [->|Hi]; [exact (stray_high _ _ (proj1 Hp))|].
  apply IH; [|exact Hi]. destruct p; exact (proj2 Hp).
Qed.

(** There is only one such way to cut it. *)
Theorem C50_unique : forall ps qs, proper ps -> proper qs -> raw ps = raw qs -> ps = qs.
Proof. exact proper_unique. Qed.

(** In particular valid text is shown character by character. *)
Theorem C50_text : forall esc cs, Forall scalar cs ->
  byte_str esc (flat_map encode cs) = Ok ([34] ++ flat_map esc cs ++ [34]).
Proof.
  intros esc cs Hcs. set (data := flat_map encode cs).
  destruct (byte_str_loop_spec esc (length data) data (le_n _)) as (ps & Hr & Hp & E).
  rewrite (proper_unique ps (map Char cs) Hp) in E.
  - unfold byte_str. rewrite E. now rewrite show_chars.
  - rewrite <- (app_nil_r (map Char cs)). apply proper_chars; [exact Hcs|exact I].
  - rewrite Hr. symmetry. apply raw_chars.
Qed.

(** "a", an incomplete character, a complete one, a stray byte. *)
Example C50_example :
  let data := [97; 226; 130; 195; 169; 255; 98] in
  let ps := [Char 97; Stray 226; Stray 130; Char 233; Stray 255; Char 98] in
  Forall (fun b => b < 256) data /\ raw ps = data /\
  byte_str (fun c => [c]) data = Ok ([34] ++ flat_map (piece_text (fun c => [c])) ps ++ [34]) /\
  (* ["a\xe2\x82é\xffb"] *)
  flat_map (piece_text (fun c => [c])) ps =
    [97; 92; 120; 101; 50; 92; 120; 56; 50; 233; 92; 120; 102; 102; 98].
Proof. repeat split. repeat constructor. Qed.

Print Assumptions C29_into_mmap.
Print Assumptions C33_new.
Print Assumptions C33_clone.
Print Assumptions C33_default.
Print Assumptions C33_drop.
Print Assumptions C33_sample_id.
Print Assumptions C33_sample.
Print Assumptions C36_accessors_partial.
Print Assumptions C36_uts_partial.
Print Assumptions C36_uts_refuted.
Print Assumptions C43_into_owned.
Print Assumptions C44_data_source.
Print Assumptions C44_snoop.
Print Assumptions C45_branch.
Print Assumptions C45_words.
Print Assumptions C46_partial.
Print Assumptions C46_refuted.
Print Assumptions C48_from_sample.
Print Assumptions C50_byte_str.
Print Assumptions C50_stray.
Print Assumptions C50_unique.
Print Assumptions C50_text.
