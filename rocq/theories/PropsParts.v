(** Theorems about parts of records: sample_id, samples, raw data, stack dumps, the
    header's misc, build ids, TEXT_POKE and fixed layouts (C11, C20, C22, C23, C27,
    C28, C35, C49). *)
From Coq Require Import NArith List Bool Lia.
From Verif Require Import Base BaseFacts Types Platform Config Buf Parser Contract Flat Refine.
From Verif Require Import Instances Prims Slices Records Sample Record Attr Views RefRecords.
From Verif Require Import RefFrame RefTop Wire Codec ConfFacts Roundtrip RtSample RtRecord.
From Verif Require Import Bits Spec NoHint FrameFacts RoundFacts Fixed RecFacts ExData.
Import ListNotations.
Open Scope N_scope.

(** ** C11: sample_id. *)

(** The bytes of the sample_id under a configuration are its values in order. *)
Theorem C11_sample_id : forall pl S (PB : parsebuf S) mo fin cap mem w p si rest a,
  let o := order_of pl (c_endian (p_cfg p)) in
  configured (p_cfg p) w -> sample_id_ok w si ->
  source PB mo fin cap mem p (w_sample_id o w si ++ rest) a ->
  len (w_sample_id o w si) = estimate_len (p_cfg p) /\
  exists p', parse_sample_id pl PB p = (Ok si, p') /\
    after PB mo fin cap mem p (estimate_len (p_cfg p)) rest a p'.
Proof.
  intros pl S PB mo fin cap mem w p si rest a o Hcf Hsi Hs.
  pose proof (sample_id_len o (p_cfg p) w si Hcf) as El. split; [exact El|].
  destruct (reads_quiet PB mo fin cap mem _ _ eq (parse_sample_id pl PB) (f_sample_id pl) 0 false p
    (w_sample_id o w si) si rest a) as (v & p' & E & -> & Ha); try assumption.
  - intros rep HC. eapply Ref_sample_id; eassumption.
  - apply noev_sample_id.
  - now apply Rt_sample_id with (w := w).
  - exists p'. rewrite El in Ha. auto.
Qed.

Lemma Fixed_sample_id : forall pl env w, configured (fe_cfg env) w ->
  Fixed env (f_sample_id pl) (estimate_len (fe_cfg env)) (fun si _ => sample_id_ok w si).
Proof.
  intros pl env w Hcf. rewrite estimate_len_bits. destruct Hcf as (Est & _ & Eall & _).
  unfold f_sample_id. apply Fixed_cfg. rewrite Eall, Est. cbv zeta.
  unfold SF_TID, SF_TIME, SF_ID, SF_STREAM_ID, SF_CPU, SF_IDENTIFIER. rewrite !contains_pow2.
  unfold sample_id_ok, sbit. cbv zeta.
  destruct (ws_id_all w); cbn [negb andb].
  2:{ apply Fixed_ret. repeat split. }
  replace (8 * _) with
    ((if N.testbit (ws_sample_type w) 1 then 4 else 0) +
     ((if N.testbit (ws_sample_type w) 1 then 4 else 0) +
      ((if N.testbit (ws_sample_type w) 2 then 8 else 0) +
       ((if N.testbit (ws_sample_type w) 6 then 8 else 0) +
        ((if N.testbit (ws_sample_type w) 9 then 8 else 0) +
         ((if N.testbit (ws_sample_type w) 7 then 4 + (4 + 0) else 0) +
          ((if N.testbit (ws_sample_type w) 16 then 8 else 0) + 0)))))))
    by (unfold b2n; destruct (N.testbit _ 1), (N.testbit _ 2), (N.testbit _ 6), (N.testbit _ 9),
          (N.testbit _ 7), (N.testbit _ 16); reflexivity).
  assert (Hf : forall b (x : option N) n l (Q : N -> list N -> Prop),
    (forall v, Q v l -> v < 2 ^ n) ->
    match x with Some v => b = true /\ Q v l | None => b = false /\ l = [] end -> field b (2 ^ n) x).
  { clear. intros b [v|] n l Q H Hx; cbn; destruct Hx; auto. }
  eapply Fixed_bind; [apply Fixed_if, Fixed_uint; lia|]. intros pid l1 _ _ H1.
  apply (Hf _ _ 32) in H1; [|intros v [Hv _]; exact Hv].
  eapply Fixed_bind; [apply Fixed_if, Fixed_uint; lia|]. intros tid l2 _ _ H2.
  apply (Hf _ _ 32) in H2; [|intros v [Hv _]; exact Hv].
  eapply Fixed_bind; [apply Fixed_if, Fixed_uint; lia|]. intros time l3 _ _ H3.
  apply (Hf _ _ 64) in H3; [|intros v [Hv _]; exact Hv].
  eapply Fixed_bind; [apply Fixed_if, Fixed_uint; lia|]. intros id l4 _ _ H4.
  apply (Hf _ _ 64) in H4; [|intros v [Hv _]; exact Hv].
  eapply Fixed_bind; [apply Fixed_if, Fixed_uint; lia|]. intros sid l5 _ _ H5.
  apply (Hf _ _ 64) in H5; [|intros v [Hv _]; exact Hv].
  eapply Fixed_bind.
  { apply Fixed_if with (Q := fun v _ => v < 2 ^ 32).
    eapply Fixed_bind; [apply Fixed_uint; lia|]. intros x l6 _ _ H6.
    eapply Fixed_bind; [apply Fixed_uint; lia|]. intros y l7 _ _ _.
    apply Fixed_ret. exact (proj1 H6). }
  intros cpu l6 _ _ H6.
  apply (Hf _ _ 32 _ (fun v _ => v < 2 ^ 32)) in H6; [|intros v Hv; exact Hv].
  eapply Fixed_bind; [apply Fixed_if, Fixed_uint; lia|]. intros ident l7 _ _ H7.
  apply (Hf _ _ 64) in H7; [|intros v [Hv _]; exact Hv].
  apply Fixed_ret. cbn [si_pid si_tid si_time si_id si_stream_id si_cpu].
  repeat split; try assumption.
  destruct id as [x|]; cbn [opt_or field] in *.
  - destruct H4 as [-> Hx]. auto.
  - rewrite H4. cbn [orb]. exact H7.
Qed.

(** Whatever the bytes: exactly the estimated number is taken, and each field is
    there exactly when it was asked for ([sample_id_ok]); fewer are an error. *)
Theorem C11_any_bytes : forall pl S (PB : parsebuf S) mo fin cap mem w p l a,
  configured (p_cfg p) w -> source PB mo fin cap mem p l a ->
  if len l <? estimate_len (p_cfg p)
  then exists p', parse_sample_id pl PB p = (Err fin, p')
  else exists si p', parse_sample_id pl PB p = (Ok si, p') /\ sample_id_ok w si /\
    moved PB mo fin cap mem l a p (estimate_len (p_cfg p)) p'.
Proof.
  intros pl S PB mo fin cap mem w p l a Hcf Hs.
  pose proof (fixed_run S PB mo fin cap mem _ _ eq (parse_sample_id pl PB) (f_sample_id pl)
    (estimate_len (p_cfg p)) (fun si _ => sample_id_ok w si) p l a) as H.
  destruct (len l <? estimate_len (p_cfg p)).
  - apply H; [|now apply Fixed_sample_id|exact Hs]. intros rep HC. eapply Ref_sample_id; eassumption.
  - destruct H as (v & b & p' & E & -> & Hq & Hm).
    + intros rep HC. eapply Ref_sample_id; eassumption.
    + now apply Fixed_sample_id.
    + exact Hs.
    + exists b, p'. auto.
Qed.

(** With sample_id_all off nothing is read and nothing is there. *)
Theorem C11_off : forall pl S (PB : parsebuf S) p,
  sample_id_all (p_cfg p) = false ->
  estimate_len (p_cfg p) = 0 /\
  parse_sample_id pl PB p = (Ok (mkSampleId None None None None None None), p).
Proof.
  intros pl S PB p H. split.
  - unfold estimate_len. now rewrite H.
  - unfold parse_sample_id, bind, get_cfg. rewrite H. reflexivity.
Qed.

Example C11_example :
  let d := w_sample_id LE ex_set ex_id ++ [9] in
  configured ex_cfg ex_set /\ sample_id_ok ex_set ex_id /\ 0 < estimate_len ex_cfg /\
  source slice_buf Whole eof_error (isize_max pl64) (memory_of 4096 d) (on_slice 4096 d ex_cfg) d 4096 /\
  fst (parse_sample_id pl64 slice_buf (on_slice 4096 d ex_cfg)) = Ok ex_id.
Proof.
  split; [repeat split|]. split; [repeat split|]. split; [reflexivity|]. split; [|vm_compute; reflexivity].
  apply slice_source; [| | |apply memory_of_at]; try (vm_compute; congruence). repeat constructor.
Qed.

(** ** C20: samples.

    Full statement: every sample decodes to the values it was encoded from.  Left out:
    an empty variable-length field at the very end ([followed]), registers of a task
    without user registers ([regs_dumped]), WEIGHT_STRUCT (bit 24) without WEIGHT and
    read values with unknown read_format bits; the first three are refuted below. *)
Theorem C20_sample_partial : forall pl S (PB : parsebuf S) mo fin cap mem w p x rest a,
  let o := order_of pl (c_endian (p_cfg p)) in
  pl_ok pl -> configured (p_cfg p) w ->
  (sbit w 4 = true -> known_format w) -> (sbit w 24 = true -> sbit w 14 = true) ->
  sample_ok w x -> followed (w_fields o w (pl_host pl) x) rest ->
  regs_dumped (s_regs_user (sw_sample x)) -> regs_dumped (s_regs_intr (sw_sample x)) ->
  len (w_sample o w x) <= usize_max pl -> cap <= isize_max pl ->
  lends_aligned pl mo a \/ o <> pl_host pl ->
  source PB mo fin cap mem p (w_sample o w x ++ rest) a ->
  exists s p', parse_sample pl PB p = (Ok s, p') /\ view_sample s = sw_sample x /\
    after PB mo fin cap mem p (len (w_sample o w x)) rest a p'.
Proof.
  intros pl S PB mo fin cap mem w p x rest a o Hpl Hcf Hk H24 Hok Hfol Hu Hi Hlen Hcap Hl Hs.
  assert (HR : forall rep, contract PB mo fin cap mem rep ->
    Ref mo fin cap rep a (vrel view_sample (ok_sample mo mem pl)) (parse_sample pl PB) (f_sample pl))
    by (intros rep HC; eapply Ref_sample; eassumption).
  assert (Hrt : forall a0, a0 mod 8 = 0 -> 
    Rt a0 (poke_of mo) (mkEnv (p_cfg p) fin) (f_sample pl) (w_sample o w x) (sw_sample x) rest 0).
  { intros a0 Ha0. apply Rt_sample; try assumption. now rewrite N.add_0_r. }
  destruct Hl as [Hl|Hl].
  - destruct (reads_aligned pl PB mo fin cap mem _ _ _ _ _ p _ _ rest a HR (Hrt 0 eq_refl)
      (evs_sample _ _ _ (fun B FE n => evs_array_own pl _ B FE n)) Hl Hs)
      as (s & p' & E & [Hv _] & Ha). exists s, p'. auto.
  - assert (Hev : evs (fun c => c_endian c = c_endian (p_cfg p)) (fun _ => False) (f_sample pl)).
    { apply evs_sample. intros B E n. apply evs_array_foreign. intros c ->. exact Hl. }
    destruct (reads_evs PB mo fin cap mem _ _ _ _ _ 0 (poke_of mo) p _ _ rest a HR Hev (Hrt 0 eq_refl) Hs)
      as (s & p' & E & [Hv _] & Ha). exists s, p'. auto.
Qed.

(** Each accessor is Some exactly when its bit is set ([sample_ok] says so of the
    encoded sample); here is that part for any accepted input. *)
Definition present (w : settings) {F : Type -> Type} (s : sample F) : Prop :=
  let b k {A : Type} (x : option A) := (match x with Some _ => true | None => false end) = sbit w k in
  b 0 (s_ip s) /\ b 1 (s_pid s) /\ b 1 (s_tid s) /\ b 2 (s_time s) /\ b 3 (s_addr s) /\
  (match s_id s with Some _ => true | None => false end) = (sbit w 6 || sbit w 16) /\
  b 9 (s_stream_id s) /\ b 7 (s_cpu s) /\ b 8 (s_period s) /\ b 4 (s_values s) /\
  b 5 (s_callchain s) /\ b 10 (s_raw s) /\ b 11 (s_lbr s) /\
  (match s_lbr_hw_index s with Some _ => true | None => false end) = (sbit w 11 && ws_hw_index w) /\
  b 12 (s_regs_user s) /\ b 13 (s_stack_user s) /\ b 14 (s_weight s) /\ b 15 (s_data_src s) /\
  b 17 (s_transaction s) /\ b 18 (s_regs_intr s) /\ b 19 (s_phys_addr s) /\ b 20 (s_aux s) /\
  b 21 (s_cgroup s) /\ b 22 (s_data_page_size s) /\ b 23 (s_code_page_size s).

Definition good {S A : Type} (Q : A -> Prop) (m : M S A) : Prop :=
  forall p, match fst (m p) with Ok v => Q v | _ => True end.

Lemma good_bind : forall S A B (m : M S A) (k : A -> M S B) Q R,
  good Q m -> (forall v, Q v -> good R (k v)) -> good R (bind m k).
Proof.
  intros S A B m k Q R Hm Hk p. unfold bind. specialize (Hm p). destruct (m p) as [r p1].
  cbn [fst] in Hm. destruct r; try exact I. exact (Hk _ Hm p1).
Qed.
Lemma good_true : forall S A (m : M S A), good (fun _ => True) m.
Proof. intros S A m p. now destruct (fst (m p)). Qed.
Lemma good_ret : forall S A (v : A) (Q : A -> Prop), Q v -> good (S := S) Q (ret v).
Proof. intros S A v Q H p. exact H. Qed.
Lemma good_if : forall S A b (m : M S A) (Q : A -> Prop), good Q m ->
  good (fun x => (match x with Some _ => true | None => false end) = b /\
                 match x with Some v => Q v | None => True end) (parse_if b m).
Proof.
  intros S A [] m Q H; cbn [parse_if].
  - eapply good_bind; [exact H|]. intros v Hv. now apply good_ret.
  - now apply good_ret.
Qed.

Theorem C20_presence : forall pl S (PB : parsebuf S) w p s p',
  configured (p_cfg p) w -> parse_sample pl PB p = (Ok s, p') -> present w s.
Proof.
  intros pl S PB w p s p' Hcf E.
  assert (H : match fst (parse_sample pl PB p) with Ok v => present w v | _ => True end).
  { unfold parse_sample. unfold bind at 1, get_cfg. cbv zeta.
    destruct Hcf as (-> & _ & _ & -> & _).
    unfold SF_IP, SF_TID, SF_TIME, SF_ADDR, SF_READ, SF_CALLCHAIN, SF_ID, SF_CPU, SF_PERIOD,
      SF_STREAM_ID, SF_RAW, SF_BRANCH_STACK, SF_REGS_USER, SF_STACK_USER, SF_WEIGHT, SF_DATA_SRC,
      SF_IDENTIFIER, SF_TRANSACTION, SF_REGS_INTR, SF_PHYS_ADDR, SF_AUX, SF_CGROUP,
      SF_DATA_PAGE_SIZE, SF_CODE_PAGE_SIZE. rewrite !contains_pow2.
    Ltac opt := eapply good_bind; [apply good_if, good_true|]; intros ? [? _].
    match goal with |- match fst (?m p) with _ => _ end => enough (H : good (present w) m) by exact (H p) end.
    do 13 opt.
    eapply good_bind.
    { apply good_if with (Q := fun x => (match snd x with Some _ => true | None => false end) = ws_hw_index w).
      unfold parse_lbr. eapply good_bind; [apply good_true|]. intros nr _.
      eapply good_bind; [apply good_if, good_true|]. intros h [Hh _].
      eapply good_bind; [apply good_true|]. intros l _. now apply good_ret. }
    intros lbr Hlbr. do 11 opt. apply good_ret.
    unfold present, sbit. cbv zeta.
    cbn [s_id s_lbr s_lbr_hw_index s_ip s_pid s_tid s_time s_addr s_stream_id s_cpu s_period s_values
      s_callchain s_raw s_regs_user s_stack_user s_weight s_data_src
      s_transaction s_regs_intr s_phys_addr s_aux s_cgroup s_data_page_size s_code_page_size].
    repeat split; try assumption;
      repeat match goal with
      | H : _ = N.testbit (ws_sample_type w) ?k |- context [N.testbit (ws_sample_type w) ?k] =>
          rewrite <- H
      end.
    - destruct v5; reflexivity.
    - destruct Hlbr as [<- _]. destruct lbr as [[]|]; reflexivity.
    - destruct Hlbr as [<- Hh]. destruct lbr as [[? h]|]; [|reflexivity]. cbn [snd andb] in *. exact Hh. }
  rewrite E in H. exact H.
Qed.

(** sample_type IP | TID | CALLCHAIN | RAW | REGS_USER | STACK_USER | WEIGHT. *)
Definition smp_set : settings := mkSettings 29731 0 false false 5 0.
Definition smp_cfg : config := mkConfig (cf_new 0 29731 false false 0) 5 0 Little.
Definition smp : sample_wire := mkSampleWire
  (mkSample (Some 4096) (Some 7) (Some 8) None None None None None None None
     (Some [11; 12]) (Some [1; 2; 3]) None None (Some (mkRegs 2 5 [21; 22])) (Some [9; 9; 9])
     (Some 77) None None None None None None None None)
  None [0; 0; 0; 0; 0].

Example C20_example :
  let d := w_sample LE smp_set smp ++ [1; 2; 3] in
  configured smp_cfg smp_set /\ known_format smp_set /\ sample_ok smp_set smp /\
  followed (w_fields LE smp_set LE smp) [1; 2; 3] /\
  source slice_buf Whole eof_error (isize_max pl64) (memory_of 4096 d) (on_slice 4096 d smp_cfg) d 4096 /\
  fst (parse_sample pl64 slice_buf (on_slice 4096 d smp_cfg)) =
    Ok (mkSample (Some 4096) (Some 7) (Some 8) None None None None None None None
     (Some (Borrowed (4096 + 24) [11; 12])) (Some (Borrowed (4096 + 44) [1; 2; 3])) None None
     (Some (mkRegs 2 5 (Borrowed (4096 + 56) [21; 22]))) (Some (Borrowed (4096 + 80) [9; 9; 9]))
     (Some 77) None None None None None None None None).
Proof.
  split; [repeat split|]. split; [repeat split|].
  split; [repeat first [constructor | reflexivity | discriminate]|].
  split; [repeat split; intros; try discriminate; vm_compute; discriminate|].
  split; [|vm_compute; reflexivity].
  apply slice_source; [| | |apply memory_of_at]; try (vm_compute; congruence). repeat constructor.
Qed.

(** An empty call chain at the end of a sample. *)
Theorem C20_empty_last_refuted : exists pl S (PB : parsebuf S) mo mem w p x,
  let o := order_of pl (c_endian (p_cfg p)) in
  pl_ok pl /\ configured (p_cfg p) w /\ known_format w /\ sample_ok w x /\ sbit w 24 = false /\
  regs_dumped (s_regs_user (sw_sample x)) /\ regs_dumped (s_regs_intr (sw_sample x)) /\
  lends_aligned pl mo 4096 /\
  source PB mo eof_error (isize_max pl) mem p (w_sample o w x) 4096 /\
  s_callchain (sw_sample x) = Some [] /\
  fst (parse_sample pl PB p) = Err eof_error.
Proof.
  exists pl64, slice, slice_buf, Whole.
  set (w := mkSettings 32 0 false false 0 0).
  set (x := mkSampleWire (mkSample None None None None None None None None None None (Some [])
    None None None None None None None None None None None None None None) None []).
  set (d := w_sample LE w x).
  exists (memory_of 4096 d), w, (on_slice 4096 d (mkConfig (cf_new 0 32 false false 0) 0 0 Little)), x.
  split; [now right|]. split; [repeat split|]. split; [repeat split|].
  split; [repeat first [constructor | reflexivity | discriminate]|].
  split; [reflexivity|]. split; [exact I|]. split; [exact I|]. split; [reflexivity|]. split.
  - apply slice_source; [| | |apply memory_of_at]; try (vm_compute; congruence). repeat constructor.
  - split; [reflexivity|]. vm_compute. reflexivity.
Qed.

(** A sample of a kernel thread: no user registers, their ABI is 0; then a weight. *)
Theorem C20_no_regs_refuted : exists pl S (PB : parsebuf S) mo mem w p x,
  let o := order_of pl (c_endian (p_cfg p)) in
  pl_ok pl /\ configured (p_cfg p) w /\ known_format w /\ sample_ok w x /\ sbit w 24 = false /\
  followed (w_fields o w (pl_host pl) x) [] /\ lends_aligned pl mo 4096 /\
  source PB mo eof_error (isize_max pl) mem p (w_sample o w x) 4096 /\
  s_regs_user (sw_sample x) = Some (mkRegs 0 1 []) /\ s_weight (sw_sample x) = Some 77 /\
  fst (parse_sample pl PB p) = Err eof_error.
Proof.
  exists pl64, slice, slice_buf, Whole.
  set (w := mkSettings (4096 + 16384) 0 false false 1 0).
  set (x := mkSampleWire (mkSample None None None None None None None None None None None
    None None None (Some (mkRegs 0 1 [])) None (Some 77) None None None None None None None None) None []).
  set (d := w_sample LE w x).
  exists (memory_of 4096 d), w,
    (on_slice 4096 d (mkConfig (cf_new 0 (4096 + 16384) false false 0) 1 0 Little)), x.
  split; [now right|]. split; [repeat split|]. split; [repeat split|].
  split; [repeat first [constructor | reflexivity | discriminate]|].
  split; [reflexivity|].
  split; [repeat split; intros; try discriminate; vm_compute; discriminate|].
  split; [reflexivity|]. split.
  - apply slice_source; [| | |apply memory_of_at]; try (vm_compute; congruence). repeat constructor.
  - split; [reflexivity|]. split; [reflexivity|]. vm_compute. reflexivity.
Qed.

(** WEIGHT_STRUCT is not read: the weight is missing, and a physical address after it
    is taken from its place. *)
Theorem C20_weight_struct_refuted : exists pl S (PB : parsebuf S) mo mem w p x,
  let o := order_of pl (c_endian (p_cfg p)) in
  pl_ok pl /\ configured (p_cfg p) w /\ known_format w /\ sample_ok w x /\
  followed (w_fields o w (pl_host pl) x) [] /\ lends_aligned pl mo 4096 /\
  source PB mo eof_error (isize_max pl) mem p (w_sample o w x) 4096 /\
  s_weight (sw_sample x) = Some 77 /\ s_phys_addr (sw_sample x) = Some 5 /\
  exists s, fst (parse_sample pl PB p) = Ok s /\ s_weight s = None /\ s_phys_addr s = Some 77.
Proof.
  exists pl64, slice, slice_buf, Whole.
  set (w := mkSettings (2 ^ 24 + 2 ^ 19) 0 false false 0 0).
  set (x := mkSampleWire (mkSample None None None None None None None None None None None
    None None None None None (Some 77) None None None (Some 5) None None None None) None []).
  set (d := w_sample LE w x).
  exists (memory_of 4096 d), w,
    (on_slice 4096 d (mkConfig (cf_new 0 (2 ^ 24 + 2 ^ 19) false false 0) 0 0 Little)), x.
  split; [now right|]. split; [repeat split|]. split; [repeat split|].
  split; [repeat first [constructor | reflexivity | discriminate]|].
  split; [repeat split; intros; try discriminate; vm_compute; discriminate|].
  split; [reflexivity|]. split.
  - apply slice_source; [| | |apply memory_of_at]; try (vm_compute; congruence). repeat constructor.
  - split; [reflexivity|]. split; [reflexivity|].
    eexists. split; [vm_compute; reflexivity|]. split; reflexivity.
Qed.

(** ** C22: raw data. *)

(** [pad8 n] is what is missing from [n] to a multiple of 8. *)
Theorem C22_padding : forall n, pad8 n < 8 /\ (n + pad8 n) mod 8 = 0.
Proof.
  intros n. unfold pad8. pose proof (N.mod_lt n 8 ltac:(discriminate)) as Hlt.
  pose proof (N.div_mod n 8 ltac:(discriminate)) as Hd.
  split; [apply N.mod_lt; discriminate|].
  destruct (N.eq_dec (n mod 8) 0) as [E|E].
  - rewrite E. change ((8 - 0) mod 8) with 0. now rewrite N.add_0_r.
  - set (r := n mod 8) in *. set (q := n / 8) in *. clearbody r q.
    rewrite (N.mod_small (8 - r) 8) by lia.
    replace (n + (8 - r)) with ((q + 1) * 8) by lia. apply N.mod_mul. discriminate.
Qed.

Theorem C22_raw : forall pl S (PB : parsebuf S) mo fin cap mem p d pad rest a,
  let o := order_of pl (c_endian (p_cfg p)) in
  pl_ok pl -> cap <= isize_max pl -> len d < 2 ^ 32 -> len pad = pad8 (4 + len d) ->
  source PB mo fin cap mem p (enc o 4 (len d) ++ d ++ pad ++ rest) a ->
  exists c p', parse_raw pl PB p = (Ok c, p') /\ cow_list c = d /\
    after PB mo fin cap mem p (4 + len d + len pad) rest a p'.
Proof.
  intros pl S PB mo fin cap mem p d pad rest a o Hpl Hcap Hd Hp Hs.
  destruct (reads_quiet PB mo fin cap mem _ _ (vrel cow_list (bok mo mem)) (parse_raw pl PB) (f_raw pl)
    0 false p (enc o 4 (len d) ++ d ++ pad) d rest a) as (c & p' & E & [Hc _] & Ha).
  - intros rep HC. eapply Ref_raw; eassumption.
  - intros env l pos. pose proof (evs_raw pl (fun _ => True) (fun _ => False) env l pos I) as He.
    destruct (f_raw pl env l pos) as [? ? ? ev|? ? ? ev]; (destruct ev; [reflexivity|inversion He; contradiction]).
  - now apply Rt_raw_pad.
  - now rewrite <- !app_assoc.
  - exists c, p'. split; [exact E|]. split; [exact Hc|].
    rewrite !len_app in Ha. change (len (enc o 4 (len d))) with (len (w32 o (len d))) in Ha.
    rewrite w32_len in Ha. now rewrite N.add_assoc in Ha.
Qed.

Example C22_example :
  let d := [3; 0; 0; 0; 1; 2; 3; 255; 66] in
  source slice_buf Whole eof_error (isize_max pl64) (memory_of 4096 d) (on_slice 4096 d ex_cfg) d 4096 /\
  pad8 (4 + 3) = 1 /\
  parse_raw pl64 slice_buf (on_slice 4096 d ex_cfg) =
    (Ok (Borrowed (4096 + 4) [1; 2; 3]),
     mkParser ex_cfg (mkSlice (4096 + 8) [66]) 8 []).
Proof.
  split; [|split; vm_compute; reflexivity].
  apply slice_source; [| | |apply memory_of_at]; try (vm_compute; congruence). repeat constructor.
Qed.

(** ** C23: stack dumps.

    Full statement: for all sizes.  A size of 0 at the very end of the source is
    refuted below. *)
Theorem C23_stack_partial : forall pl S (PB : parsebuf S) mo fin cap mem p dump dyn rest a,
  let o := order_of pl (c_endian (p_cfg p)) in
  let bs := enc o 8 (len dump) ++ dump ++ (if len dump =? 0 then [] else enc o 8 dyn) in
  pl_ok pl -> cap <= isize_max pl -> len bs <= usize_max pl -> dyn <= len dump ->
  (dump = [] -> rest <> []) ->
  source PB mo fin cap mem p (bs ++ rest) a ->
  exists c p', parse_stack_user pl PB p = (Ok c, p') /\ cow_list c = take dyn dump /\
    after PB mo fin cap mem p (len bs) rest a p'.
Proof.
  intros pl S PB mo fin cap mem p dump dyn rest a o bs Hpl Hcap Hlen Hd Hne Hs.
  assert (Eb : bs = w_stack o dump dyn).
  { unfold bs, w_stack, w64. now destruct (len dump =? 0). }
  rewrite Eb in *.
  destruct (reads_quiet PB mo fin cap mem _ _ (vrel cow_list (bok mo mem)) (parse_stack_user pl PB)
    (f_stack_user pl) 0 false p (w_stack o dump dyn) (take dyn dump) rest a) as (c & p' & E & [Hc _] & Ha).
  - intros rep HC. eapply Ref_stack_user; eassumption.
  - intros env l pos. pose proof (evs_stack pl (fun _ => True) (fun _ => False) env l pos I) as He.
    destruct (f_stack_user pl env l pos) as [? ? ? ev|? ? ? ev];
      (destruct ev; [reflexivity|inversion He; contradiction]).
  - apply Rt_stack_cut; try assumption. intros E. apply Hne. now apply len_0.
  - exact Hs.
  - exists c, p'. auto.
Qed.

Lemma uint_enc : forall pl env n v rest pos, 0 < n -> v < 256 ^ n ->
  f_uint pl n env (enc (order_of pl (c_endian (fe_cfg env))) (N.to_nat n) v ++ rest) pos =
    FOk v rest (pos + n) [].
Proof.
  intros pl env n v rest pos Hn Hv. unfold f_uint, fbind, f_take, fcfg, fret.
  set (bs := enc _ (N.to_nat n) v). assert (El : len bs = n).
  { unfold bs. rewrite enc_len. lia. }
  destruct (bs ++ rest) as [|x t] eqn:Eb.
  { apply (f_equal len) in Eb. rewrite len_app, El, len_nil in Eb. lia. }
  rewrite <- Eb, len_app, El, (proj2 (N.ltb_ge _ _)) by lia.
  rewrite take_app_exact, drop_app_exact by now rewrite El.
  unfold bs. rewrite from_enc by now rewrite N2Nat.id. reflexivity.
Qed.

Theorem C23_too_long : forall pl S (PB : parsebuf S) mo fin cap mem p dump dyn rest a,
  let o := order_of pl (c_endian (p_cfg p)) in
  pl_ok pl -> cap <= isize_max pl -> dump <> [] -> len dump < dyn -> dyn <= usize_max pl ->
  source PB mo fin cap mem p (enc o 8 (len dump) ++ dump ++ enc o 8 dyn ++ rest) a ->
  fst (parse_stack_user pl PB p) = Err (custom_error KInvalidRecord MsgDynSize).
Proof.
  intros pl S PB mo fin cap mem p dump dyn rest a o Hpl Hcap Hne Hlt Hmax (rep & HC & Hr & Hw).
  pose proof (usize_64 pl Hpl) as H64.
  assert (E : f_stack_user pl (mkEnv (p_cfg p) fin) (enc o 8 (len dump) ++ dump ++ enc o 8 dyn ++ rest) 0 =
    FErr (custom_error KInvalidRecord MsgDynSize) rest (0 + 8 + len dump + 8) []).
  { unfold f_stack_user. unfold fbind at 1.
    pose proof (uint_enc pl (mkEnv (p_cfg p) fin) 8 (len dump)) as Hu. cbn [fe_cfg] in Hu.
    change (N.to_nat 8) with 8%nat in Hu. fold o in Hu.
    rewrite Hu by (try reflexivity; change (256 ^ 8) with (2 ^ 64); lia).
    rewrite as_usize_small by (try assumption; lia).
    unfold fbind at 1. unfold f_take at 1.
    destruct (dump ++ enc o 8 dyn ++ rest) as [|x t] eqn:Eb; [now destruct dump|]. rewrite <- Eb.
    rewrite !len_app, (proj2 (N.ltb_ge _ _)) by lia.
    rewrite take_app_exact, drop_app_exact by reflexivity.
    destruct (len dump =? 0) eqn:E0; [apply N.eqb_eq, len_0 in E0; contradiction|].
    pose proof (uint_enc pl (mkEnv (p_cfg p) fin) 8 dyn) as Hv. cbn [fe_cfg] in Hv.
    change (N.to_nat 8) with 8%nat in Hv. fold o in Hv.
    unfold fbind. rewrite Hv by (try reflexivity; change (256 ^ 8) with (2 ^ 64); lia).
    unfold fret. rewrite as_usize_small by assumption.
    rewrite (proj2 (N.ltb_lt _ _)) by lia. reflexivity. }
  destruct (run_err mo fin cap rep _ _ _ _ _ _ _ _ _ _ _ _
    (Ref_stack_user pl PB mo fin cap mem rep a HC Hcap) Hr Hw E ltac:(constructor)) as (p' & Ep & _).
  now rewrite Ep.
Qed.

Theorem C23_empty_refuted : exists pl S (PB : parsebuf S) mo mem p,
  pl_ok pl /\
  source PB mo eof_error (isize_max pl) mem p (enc (order_of pl (c_endian (p_cfg p))) 8 0) 4096 /\
  fst (parse_stack_user pl PB p) = Err eof_error.
Proof.
  exists pl64, slice, slice_buf, Whole, (memory_of 4096 (enc LE 8 0)), (on_slice 4096 (enc LE 8 0) ex_cfg).
  split; [now right|]. split; [|vm_compute; reflexivity].
  apply slice_source; [| | |apply memory_of_at]; try (vm_compute; congruence). repeat constructor.
Qed.

Example C23_example :
  let d := enc LE 8 8 ++ [1; 2; 3; 4; 5; 6; 7; 8] ++ enc LE 8 3 in
  let d2 := enc LE 8 8 ++ [1; 2; 3; 4; 5; 6; 7; 8] ++ enc LE 8 9 in
  fst (parse_stack_user pl64 slice_buf (on_slice 4096 d ex_cfg)) = Ok (Borrowed (4096 + 8) [1; 2; 3]) /\
  fst (parse_stack_user pl64 slice_buf (on_slice 4096 d2 ex_cfg)) =
    Err (custom_error KInvalidRecord MsgDynSize).
Proof. split; vm_compute; reflexivity. Qed.

(** ** C27: layouts that depend on the header's misc, whatever misc the parser's
    configuration still holds from before. *)

Lemma accepted : forall pl S (PB : parsebuf S) mo fin cap mem p t m s l a r p',
  let o := order_of pl (c_endian (p_cfg p)) in
  pl_ok pl -> t < 2 ^ 32 -> m < 2 ^ 16 -> s < 2 ^ 16 -> t <> 9 -> t <> 16 -> t <> 20 ->
  source PB mo fin cap mem p (w_header o t m s ++ l) a ->
  parse_record_enum pl PB p = (Ok r, p') ->
  exists bc d pos1 l2 pos2 ev2,
    r = (match bc with BUnknown x => RUnknown t x | _ => RBody bc end) /\ bytes d /\
    f_body pl t (mkEnv (with_misc (p_cfg p) m) eof_error) d pos1 = FOk (view_body bc) l2 pos2 ev2.
Proof.
  intros pl S PB mo fin cap mem p t m s l a r p' o Hpl Ht Hm Hs H9 H16 H20 Hsrc E.
  pose proof (source_wf _ _ _ _ _ _ _ _ _ Hsrc) as [Hb _]. apply Forall_app in Hb. destruct Hb as [_ Hb].
  pose proof (record_any pl Hpl PB mo fin cap mem _ record_visitor p t m s l a Ht Hm Hs
    H9 H16 H20 Hsrc) as H.
  unfold parse_record_enum in E. fold o in H.
  destruct (f_record pl (mkEnv (p_cfg p) fin) (w_header o t m s ++ l) 0) as [[b md] l1 n ev|e l1 n ev] eqn:Ef.
  - destruct H as (bc & p1 & E1 & Hv & _). rewrite E in E1.
    destruct (record_body pl (mkEnv (p_cfg p) fin) t m s l b md l1 n ev Ht Hm Hs Hb Ef)
      as (Emt & _ & d & pos1 & l2 & pos2 & ev2 & Hd & Eb).
    exists bc, d, pos1, l2, pos2, ev2. split; [|split; [exact Hd|now rewrite Hv]].
    destruct bc; cbn in E1; injection E1 as -> _; try reflexivity. now rewrite Emt.
  - destruct H as (p1 & E1 & _). rewrite E in E1. discriminate.
Qed.

Theorem C27_switch : forall pl S (PB : parsebuf S) mo fin cap mem p m s l a r p',
  let o := order_of pl (c_endian (p_cfg p)) in
  pl_ok pl -> m < 2 ^ 16 -> s < 2 ^ 16 ->
  source PB mo fin cap mem p (w_header o 15 m s ++ l) a ->
  parse_record_enum pl PB p = (Ok r, p') ->
  exists pid tid, r = RBody (BSwitchCpuWide (if N.testbit m 13 then SwOut pid tid else SwIn pid tid)).
Proof.
  intros pl S PB mo fin cap mem p m s l a r p' o Hpl Hm Hs Hsrc E.
  destruct (accepted pl S PB mo fin cap mem p 15 m s l a r p') as (bc & d & pos1 & l2 & pos2 & ev2 & -> & Hd & Eb);
    try assumption; try lia.
  unfold f_body in Eb. cbn [N.eqb Pos.eqb] in Eb. unfold fbind in Eb at 1.
  pose proof (post_switch pl (mkEnv (with_misc (p_cfg p) m) eof_error) d pos1 Hd) as Hp.
  destruct (f_switch_cpu_wide pl _ d pos1) as [r1 l3 pos3 ev3|]; [|discriminate].
  unfold fret in Eb. injection Eb as Ev _ _ _. destruct Hp as [Hp _]. cbn [fe_cfg] in Hp.
  rewrite with_misc_misc in Hp by exact Hm.
  destruct bc; try discriminate. cbn [view_body] in Ev. injection Ev as ->.
  match goal with x : switch_cpu_wide |- _ => destruct x as [pid tid|pid tid] end;
    cbn [switch_for] in Hp; rewrite Hp; exists pid, tid; reflexivity.
Qed.

(** An accepted MMAP2 record: with a build id of at most 20 bytes if bit 14 of misc is
    set, with device and inode numbers otherwise; and the accessors say so. *)
Theorem C27_mmap2 : forall pl S (PB : parsebuf S) mo fin cap mem p m s l a r p',
  let o := order_of pl (c_endian (p_cfg p)) in
  pl_ok pl -> m < 2 ^ 16 -> s < 2 ^ 16 ->
  source PB mo fin cap mem p (w_header o 10 m s ++ l) a ->
  parse_record_enum pl PB p = (Ok r, p') ->
  exists x, r = RBody (BMmap2 x) /\
    if N.testbit m 14
    then exists b n, n <= 20 /\ len b = 20 /\ m2_detail x = MdBuildId b n /\
           m2_build_id x = Ok (Some (take n b)) /\ len (take n b) = n /\
           m2_maj x = None /\ m2_min x = None /\ m2_ino x = None /\ m2_ino_generation x = None
    else exists maj min ino gen, m2_build_id x = Ok None /\
           m2_maj x = Some maj /\ m2_min x = Some min /\ m2_ino x = Some ino /\
           m2_ino_generation x = Some gen.
Proof.
  intros pl S PB mo fin cap mem p m s l a r p' o Hpl Hm Hs Hsrc E.
  destruct (accepted pl S PB mo fin cap mem p 10 m s l a r p') as (bc & d & pos1 & l2 & pos2 & ev2 & -> & Hd & Eb);
    try assumption; try lia.
  unfold f_body in Eb. cbn [N.eqb Pos.eqb] in Eb. unfold fbind in Eb at 1.
  pose proof (post_mmap2 pl (mkEnv (with_misc (p_cfg p) m) eof_error) d pos1 Hd) as Hp.
  destruct (f_mmap2 pl _ d pos1) as [r1 l3 pos3 ev3|]; [|discriminate].
  unfold fret in Eb. injection Eb as Ev _ _ _. destruct Hp as [Hp _]. cbn [fe_cfg] in Hp.
  rewrite with_misc_misc in Hp by exact Hm.
  destruct bc as [| | | | | | | | |x| | | | | | | | | | | |]; try discriminate.
  exists x. split; [reflexivity|]. cbn [view_body] in Ev. injection Ev as Ev. subst r1.
  change (m2_detail (view_mmap2 x)) with (m2_detail x) in Hp.
  unfold m2_build_id, m2_maj, m2_min, m2_ino, m2_ino_generation.
  destruct (m2_detail x) as [maj min ino gen|b n]; cbn [detail_for] in Hp.
  - rewrite Hp. exists maj, min, ino, gen. auto.
  - destruct Hp as (-> & Hb & Hn). exists b, n. rewrite Hb, (proj2 (N.ltb_ge _ _)) by lia.
    rewrite len_take. repeat split; try assumption. lia.
Qed.

Example C27_example :
  let d m := w_header LE 15 m 16 ++ enc LE 4 5 ++ enc LE 4 6 in
  let c := with_misc ex_cfg0 0x2000 in
  fst (parse_record_enum pl64 slice_buf (on_slice 4096 (d 0x2000) ex_cfg0)) = Ok (RBody (BSwitchCpuWide (SwOut 5 6))) /\
  fst (parse_record_enum pl64 slice_buf (on_slice 4096 (d 0) c)) = Ok (RBody (BSwitchCpuWide (SwIn 5 6))).
Proof. split; vm_compute; reflexivity. Qed.

(** ** C28: build ids. *)

Lemma detail_bytes : forall pl env n z b rest pos,
  N.testbit (misc (fe_cfg env)) 14 = true -> n < 256 -> len z = 3 -> len b = 20 ->
  f_mmap_detail pl env ([n] ++ z ++ b ++ rest) pos =
    if 20 <? n then FErr (custom_error KInvalidRecord (MsgBuildIdLen n)) rest (pos + 24) []
    else FOk (MdBuildId b n) rest (pos + 24) [].
Proof.
  intros pl env n z b rest pos0 Hm Hn Hz Hb.
  destruct z as [|z1 [|z2 [|z3 [|? ?]]]]; try (unfold len in Hz; cbn in Hz; lia).
  unfold f_mmap_detail. unfold fbind at 1. unfold fcfg at 1.
  change MISC_MMAP_BUILD_ID with (2 ^ 14). rewrite land_bit, Hm.
  assert (H1 : forall x l pos, f_uint pl 1 env (x :: l) pos = FOk x l (pos + 1) []).
  { intros x l pos. unfold f_uint, fbind, f_take, fcfg, fret.
    replace (len (x :: l) <? 1) with false by (symmetry; apply N.ltb_ge; rewrite len_cons; lia).
    replace (take 1 (x :: l)) with [x] by (symmetry; exact (take_app_exact 1 [x] l eq_refl)).
    replace (drop 1 (x :: l)) with l by (symmetry; exact (drop_app_exact 1 [x] l eq_refl)).
    replace (from_order (order_of pl (c_endian (fe_cfg env))) [x]) with x; [reflexivity|].
    destruct (order_of pl _); unfold from_order, from_be, from_le; cbn [rev app]; lia. }
  assert (H2 : forall x y l pos, exists v, f_uint pl 2 env (x :: y :: l) pos = FOk v l (pos + 2) []).
  { intros x y l pos. eexists. unfold f_uint, fbind, f_take, fcfg, fret.
    replace (len (x :: y :: l) <? 2) with false by (symmetry; apply N.ltb_ge; rewrite !len_cons; lia).
    now rewrite (drop_app_exact 2 [x; y] l eq_refl : drop 2 (x :: y :: l) = l). }
  cbn [app]. unfold fbind at 1. rewrite H1. unfold fbind at 1. rewrite H1.
  unfold fbind at 1. destruct (H2 z2 z3 (b ++ rest) (pos0 + 1 + 1)) as [v ->].
  unfold fbind at 1. unfold f_take at 1.
  destruct (b ++ rest) as [|x t] eqn:Eb; [now destruct b|]. rewrite <- Eb.
  rewrite len_app, Hb, (proj2 (N.ltb_ge _ _)) by lia.
  rewrite take_app_exact, drop_app_exact by now rewrite Hb.
  replace (pos0 + 1 + 1 + 2 + 20) with (pos0 + 24) by lia.
  destruct (20 <? n); reflexivity.
Qed.

(** The announced length [n], reserved bytes [z], the 20 byte field [b]. *)
Theorem C28_build_id : forall pl S (PB : parsebuf S) mo fin cap mem p n z b rest a,
  N.testbit (misc (p_cfg p)) 14 = true -> n < 256 -> len z = 3 -> len b = 20 ->
  source PB mo fin cap mem p ([n] ++ z ++ b ++ rest) a ->
  exists p', parse_mmap_detail pl PB p =
      (if n <=? 20 then Ok (MdBuildId b n) else Err (custom_error KInvalidRecord (MsgBuildIdLen n)), p') /\
    after PB mo fin cap mem p 24 rest a p'.
Proof.
  intros pl S PB mo fin cap mem p n z b rest a Hm Hn Hz Hb (rep & HC & Hr & Hw).
  pose proof (detail_bytes pl (mkEnv (p_cfg p) fin) n z b rest 0 Hm Hn Hz Hb) as Ef.
  destruct (N.leb_spec n 20) as [H|H].
  - rewrite (proj2 (N.ltb_ge _ _)) in Ef by lia.
    destruct (run_ok mo fin cap rep _ _ _ _ _ _ _ _ _ _ _ _
      (Ref_mmap_detail pl PB mo fin cap mem rep a HC) Hr Hw Ef ltac:(constructor)) as (v & p' & Ep & -> & Hst).
    exists p'. split; [exact Ep|]. eapply step_after; eassumption.
  - rewrite (proj2 (N.ltb_lt _ _)) in Ef by lia.
    destruct (run_err mo fin cap rep _ _ _ _ _ _ _ _ _ _ _ _
      (Ref_mmap_detail pl PB mo fin cap mem rep a HC) Hr Hw Ef ltac:(constructor)) as (p' & Ep & Hst).
    exists p'. split; [exact Ep|]. eapply step_after; eassumption.
Qed.

(** The same inside a whole MMAP2 body. *)
Theorem C28_rejected : forall pl S (PB : parsebuf S) mo fin cap mem p pid tid addr ln pgoff n z b rest a,
  let o := order_of pl (c_endian (p_cfg p)) in
  N.testbit (misc (p_cfg p)) 14 = true -> pid < 2 ^ 32 -> tid < 2 ^ 32 -> addr < 2 ^ 64 ->
  ln < 2 ^ 64 -> pgoff < 2 ^ 64 -> 20 < n < 256 -> len z = 3 -> len b = 20 ->
  source PB mo fin cap mem p
    (enc o 4 pid ++ enc o 4 tid ++ enc o 8 addr ++ enc o 8 ln ++ enc o 8 pgoff ++
     [n] ++ z ++ b ++ rest) a ->
  fst (parse_mmap2 pl PB p) = Err (custom_error KInvalidRecord (MsgBuildIdLen n)).
Proof.
  intros pl S PB mo fin cap mem p pid tid addr ln pgoff n z b rest a o Hm H1 H2 H3 H4 H5 Hn Hz Hb
    (rep & HC & Hr & Hw).
  assert (Ef : exists l' pos', f_mmap2 pl (mkEnv (p_cfg p) fin)
    (enc o 4 pid ++ enc o 4 tid ++ enc o 8 addr ++ enc o 8 ln ++ enc o 8 pgoff ++
     [n] ++ z ++ b ++ rest) 0 = FErr (custom_error KInvalidRecord (MsgBuildIdLen n)) l' pos' []).
  { unfold f_mmap2.
    pose proof (uint_enc pl (mkEnv (p_cfg p) fin) 4) as U4. cbn [fe_cfg] in U4.
    change (N.to_nat 4) with 4%nat in U4. fold o in U4.
    pose proof (uint_enc pl (mkEnv (p_cfg p) fin) 8) as U8. cbn [fe_cfg] in U8.
    change (N.to_nat 8) with 8%nat in U8. fold o in U8.
    unfold fbind at 1. rewrite U4 by (try reflexivity; assumption).
    unfold fbind at 1. rewrite U4 by (try reflexivity; assumption).
    unfold fbind at 1. rewrite U8 by (try reflexivity; assumption).
    unfold fbind at 1. rewrite U8 by (try reflexivity; assumption).
    unfold fbind at 1. rewrite U8 by (try reflexivity; assumption).
    unfold fbind at 1. rewrite detail_bytes by (try assumption; lia).
    rewrite (proj2 (N.ltb_lt _ _)) by lia. eexists _, _. reflexivity. }
  destruct Ef as (l' & pos' & Ef).
  destruct (run_err mo fin cap rep _ _ _ _ _ _ _ _ _ _ _ _
    (Ref_mmap2 pl PB mo fin cap mem rep a HC) Hr Hw Ef ltac:(constructor)) as (p' & Ep & _).
  now rewrite Ep.
Qed.

Example C28_example :
  let r := mkMmap2 1 2 3 4 5 (MdBuildId (repeat 7 20) 16) 5 6 [47; 98] in
  let d := w_record LE ex_set0 0x4000 sample_id_default (WMmap2 r 6) in
  exists x, fst (parse_record_enum pl64 slice_buf (on_slice 4096 d ex_cfg0)) = Ok (RBody (BMmap2 x)) /\
    m2_build_id x = Ok (Some (repeat 7 16)) /\ m2_maj x = None.
Proof. eexists. split; [vm_compute; reflexivity|]. split; vm_compute; reflexivity. Qed.

(** ** C35: TEXT_POKE.

    Full statement: from any source.  Refuted below for sources that have to be
    copied, when there are no old bytes or nothing follows them. *)
Theorem C35_text_poke_partial : forall pl S (PB : parsebuf S) mo fin cap mem p addr old new pad rest a,
  let o := order_of pl (c_endian (p_cfg p)) in
  pl_ok pl -> cap <= isize_max pl -> addr < 2 ^ 64 -> len old < 2 ^ 16 -> len new < 2 ^ 16 ->
  len pad = pad8 (12 + len old + len new) ->
  mo = Whole \/ (old <> [] /\ (new <> [] \/ pad <> [])) ->
  source PB mo fin cap mem p
    (enc o 8 addr ++ enc o 2 (len old) ++ enc o 2 (len new) ++ old ++ new ++ pad ++ rest) a ->
  exists r p', parse_text_poke pl PB p = (Ok r, p') /\
    tp_addr r = addr /\ cow_list (tp_old r) = old /\ cow_list (tp_new r) = new /\
    after PB mo fin cap mem p (12 + len old + len new + len pad) rest a p'.
Proof.
  intros pl S PB mo fin cap mem p addr old new pad rest a o Hpl Hcap H1 H2 H3 Hp He Hs.
  assert (Hp' : len pad = pad8 (4 + len old + len new)).
  { rewrite Hp. unfold pad8. f_equal. f_equal. replace (12 + len old + len new) with (4 + len old + len new + 1 * 8) by lia.
    apply N.mod_add. discriminate. }
  destruct (reads_unsliced PB mo fin cap mem _ _ (vrel view_text_poke (ok_text_poke mo mem))
    (parse_text_poke pl PB) (f_text_poke pl) 0 p
    (enc o 8 addr ++ enc o 2 (len old) ++ enc o 2 (len new) ++ old ++ new ++ pad)
    (mkTextPoke addr old new) rest a) as (r & p' & E & [Hc _] & Ha).
  - intros rep HC. eapply Ref_text_poke; eassumption.
  - apply evs_text_poke. exact I.
  - apply (Rt_text_poke_pad pl 0 (poke_of mo) (mkEnv (p_cfg p) fin)); try assumption.
    destruct He as [->|He]; [now left|now right].
  - now rewrite <- !app_assoc.
  - exists r, p'. split; [exact E|]. unfold view_text_poke in Hc. injection Hc as Ea Eo En.
    split; [exact Ea|]. split; [exact Eo|]. split; [exact En|].
    rewrite !len_app, !enc_len in Ha.
    replace (12 + len old + len new + len pad) with
      (N.of_nat 8 + (N.of_nat 2 + (N.of_nat 2 + (len old + (len new + len pad))))) by lia.
    exact Ha.
Qed.

(** Two new bytes and no old ones, from a reader: they come out as the old bytes. *)
Theorem C35_refuted : exists pl S (PB : parsebuf S) mo mem p addr old new pad,
  let o := order_of pl (c_endian (p_cfg p)) in
  let d := enc o 8 addr ++ enc o 2 (len old) ++ enc o 2 (len new) ++ old ++ new ++ pad in
  pl_ok pl /\ len pad = pad8 (12 + len old + len new) /\ old = [] /\ new = [15; 11] /\
  source PB mo eof_error (isize_max pl) mem p d 0 /\
  exists r, fst (parse_text_poke pl PB p) = Ok r /\
    cow_list (tp_old r) = [15; 11; 0; 0] /\ cow_list (tp_new r) = [].
Proof.
  exists pl64, bufreader, bufreader_buf, NoExt, (fun _ => 0).
  set (d := enc LE 8 77 ++ enc LE 2 0 ++ enc LE 2 2 ++ [] ++ [15; 11] ++ [0; 0]).
  exists (reader_of [d] ex_cfg), 77, [], [15; 11], [0; 0].
  split; [now right|]. split; [reflexivity|]. split; [reflexivity|]. split; [reflexivity|]. split.
  - apply (reader_source [] [d] None); try (vm_compute; congruence); repeat constructor; discriminate.
  - eexists. split; [vm_compute; reflexivity|]. split; reflexivity.
Qed.

Example C35_example :
  let d := enc LE 8 77 ++ enc LE 2 3 ++ enc LE 2 1 ++ [1; 2; 3] ++ [9] in
  exists r, fst (parse_text_poke pl64 bufreader_buf (reader_of [d] ex_cfg)) = Ok r /\
    cow_list (tp_old r) = [1; 2; 3] /\ cow_list (tp_new r) = [9].
Proof. eexists. split; [vm_compute; reflexivity|]. split; reflexivity. Qed.

(** ** C49: fixed layouts lose nothing. *)

(** [m] takes exactly [n] bytes, any bytes, and they can be had back by [back]. *)
Definition lossless (pl : platform) {S : Type} (PB : parsebuf S) {A : Type} (m : M S A)
  (n : settings -> N) (back : order -> settings -> A -> list N) : Prop :=
  forall mo fin cap mem w p l a, configured (p_cfg p) w ->
  source PB mo fin cap mem p l a ->
  if len l <? n w then exists p', m p = (Err fin, p')
  else exists v p', m p = (Ok v, p') /\
    back (order_of pl (c_endian (p_cfg p))) w v = take (n w) l /\
    moved PB mo fin cap mem l a p (n w) p'.

Lemma lossless_fixed : forall pl S (PB : parsebuf S) A (m : M S A) (f : F A) n back,
  (forall mo fin cap mem rep a, contract PB mo fin cap mem rep -> Ref mo fin cap rep a eq m f) ->
  (forall env w, configured (fe_cfg env) w ->
     Fixed env f (n w) (fun v l => back (order_of pl (c_endian (fe_cfg env))) w v = l)) ->
  lossless pl PB m n back.
Proof.
  intros pl S PB A m f n back HR Hf mo fin cap mem w p l a Hcf Hs.
  pose proof (fixed_run S PB mo fin cap mem _ _ eq m f (n w) _ p l a
    (fun rep HC => HR mo fin cap mem rep a HC) (Hf (mkEnv (p_cfg p) fin) w Hcf) Hs) as H.
  destruct (len l <? n w); [exact H|]. destruct H as (v & b & p' & E & -> & Hq & Hm).
  exists b, p'. auto.
Qed.

Ltac fx := eapply Fixed_bind; [apply Fixed_uint; lia|]; intros ? ? _ _ [_ ->].
Ltac fx_end := apply Fixed_ret; cbn; rewrite ?app_nil_r, <- ?app_assoc; reflexivity.

Section Lossless.
Context (pl : platform) {S : Type} (PB : parsebuf S).

Theorem C49_header : lossless pl PB (parse_header pl PB) (fun _ => 8)
  (fun o w h => w_header o (h_type h) (h_misc h) (h_size h)).
Proof.
  apply lossless_fixed with (f := f_header pl); [intros; eapply Ref_header; eassumption|].
  intros env w _. unfold f_header. change 8 with (4 + (2 + (2 + 0))). fx. fx. fx. fx_end.
Qed.

Theorem C49_lost : lossless pl PB (parse_lost pl PB) (fun _ => 16) (fun o w r => w_body o w (WLost r)).
Proof.
  apply lossless_fixed with (f := f_lost pl); [intros; eapply Ref_lost; eassumption|].
  intros env w _. unfold f_lost. change 16 with (8 + (8 + 0)). fx. fx. fx_end.
Qed.

Theorem C49_exit : lossless pl PB (parse_exit pl PB) (fun _ => 24) (fun o w r => w_body o w (WExit r)).
Proof.
  apply lossless_fixed with (f := f_exit pl); [intros; eapply Ref_exit; eassumption|].
  intros env w _. unfold f_exit. change 24 with (4 + (4 + (4 + (4 + (8 + 0))))). fx. fx. fx. fx. fx. fx_end.
Qed.

Theorem C49_throttle : lossless pl PB (parse_throttle pl PB) (fun _ => 24)
  (fun o w r => w_body o w (WThrottle r)).
Proof.
  apply lossless_fixed with (f := f_throttle pl); [intros; eapply Ref_throttle; eassumption|].
  intros env w _. unfold f_throttle. change 24 with (8 + (8 + (8 + 0))). fx. fx. fx. fx_end.
Qed.

Theorem C49_aux : lossless pl PB (parse_aux pl PB) (fun _ => 24) (fun o w r => w_body o w (WAux r)).
Proof.
  apply lossless_fixed with (f := f_aux pl); [intros; eapply Ref_aux; eassumption|].
  intros env w _. unfold f_aux. change 24 with (8 + (8 + (8 + 0))). fx. fx. fx. fx_end.
Qed.

Theorem C49_itrace_start : lossless pl PB (parse_itrace_start pl PB) (fun _ => 8)
  (fun o w r => w_body o w (WItraceStart r)).
Proof.
  apply lossless_fixed with (f := f_itrace_start pl); [intros; eapply Ref_itrace_start; eassumption|].
  intros env w _. unfold f_itrace_start. change 8 with (4 + (4 + 0)). fx. fx. fx_end.
Qed.

Theorem C49_lost_samples : lossless pl PB (parse_lost_samples pl PB) (fun _ => 8)
  (fun o w r => w_body o w (WLostSamples r)).
Proof.
  apply lossless_fixed with (f := f_lost_samples pl); [intros; eapply Ref_lost_samples; eassumption|].
  intros env w _. unfold f_lost_samples. change 8 with (8 + 0). fx. fx_end.
Qed.

Theorem C49_aux_output_hw_id : lossless pl PB (parse_aux_output_hw_id pl PB) (fun _ => 8)
  (fun o w r => w_body o w (WAuxOutputHwId r)).
Proof.
  apply lossless_fixed with (f := f_aux_output_hw_id pl); [intros; eapply Ref_aux_output_hw_id; eassumption|].
  intros env w _. unfold f_aux_output_hw_id. change 8 with (8 + 0). fx. fx_end.
Qed.

Theorem C49_switch_cpu_wide : lossless pl PB (parse_switch_cpu_wide pl PB) (fun _ => 8)
  (fun o w r => w_body o w (WSwitchCpuWide r)).
Proof.
  apply lossless_fixed with (f := f_switch_cpu_wide pl); [intros; eapply Ref_switch_cpu_wide; eassumption|].
  intros env w _. unfold f_switch_cpu_wide. change 8 with (4 + (4 + 0)). fx. fx.
  apply Fixed_cfg. destruct (negb _); fx_end.
Qed.

Theorem C49_bpf_event : lossless pl PB (parse_bpf_event pl PB) (fun _ => 16)
  (fun o w r => w_body o w (WBpfEvent r)).
Proof.
  apply lossless_fixed with (f := f_bpf_event pl); [intros; eapply Ref_bpf_event; eassumption|].
  intros env w _. unfold f_bpf_event. change 16 with (2 + (2 + (4 + (8 + 0)))). fx. fx. fx.
  eapply Fixed_bind; [apply Fixed_take; lia|]. intros tag ? _ _ ->. fx_end.
Qed.

(** Counter values: 8 bytes for each thing the read_format asks for. *)
Definition rv_size (w : settings) : N :=
  8 + ((if rbit w 0 then 8 else 0) + ((if rbit w 1 then 8 else 0) +
  ((if rbit w 2 then 8 else 0) + ((if rbit w 4 then 8 else 0) + 0)))).

Theorem C49_read_value : forall mo fin cap mem w p l a,
  configured (p_cfg p) w -> known_format w -> rbit w 3 = false ->
  source PB mo fin cap mem p l a ->
  if len l <? rv_size w then exists p', parse_read_value pl PB p = (Err fin, p')
  else exists v p', parse_read_value pl PB p = (Ok v, p') /\
    w_read_value (order_of pl (c_endian (p_cfg p))) w v = take (rv_size w) l /\
    moved PB mo fin cap mem l a p (rv_size w) p'.
Proof.
  intros mo fin cap mem w p l a Hcf Hk Hg Hs.
  assert (Hf : Fixed (mkEnv (p_cfg p) fin) (f_read_value pl) (rv_size w)
    (fun v l => w_read_value (order_of pl (c_endian (p_cfg p))) w v = l)).
  { unfold f_read_value. apply Fixed_cfg. cbn [fe_cfg].
    destruct Hcf as (_ & Erf & _). rewrite Erf. cbv zeta.
    unfold RF_GROUP, RF_TIME_ENABLED, RF_TIME_RUNNING, RF_ID, RF_LOST. rewrite !contains_pow2.
    unfold rv_size, w_read_value. unfold rbit in *. rewrite Hg.
    assert (Hd : difference (ws_read_format w) RF_ALL = 0) by (now apply known_difference).
    rewrite Hd. cbn [N.eqb negb].
    fx.
    eapply Fixed_bind; [apply Fixed_if, Fixed_uint; lia|]. intros te l1 _ _ H1.
    eapply Fixed_bind; [apply Fixed_if, Fixed_uint; lia|]. intros tr l2 _ _ H2.
    eapply Fixed_bind; [apply Fixed_if, Fixed_uint; lia|]. intros id l3 _ _ H3.
    eapply Fixed_bind; [apply Fixed_if, Fixed_uint; lia|]. intros lo l4 _ _ H4.
    apply Fixed_ret. cbn [rv_value rv_enabled rv_running rv_id rv_lost].
    assert (Hw : forall b x l, match x with
      | Some v => b = true /\ v < 256 ^ 8 /\ l = enc (order_of pl (c_endian (p_cfg p))) (N.to_nat 8) v
      | None => b = false /\ l = [] end ->
      w_if b (w64 (order_of pl (c_endian (p_cfg p))) (unwrap_or x 0)) = l).
    { clear. intros b [v|] l H; [destruct H as (-> & _ & ->)|destruct H as [-> ->]]; reflexivity. }
    cbn [fe_cfg] in *. rewrite (Hw _ _ _ H1), (Hw _ _ _ H2), (Hw _ _ _ H3), (Hw _ _ _ H4).
    rewrite ?app_nil_r, <- ?app_assoc. reflexivity. }
  pose proof (fixed_run S PB mo fin cap mem _ _ eq (parse_read_value pl PB) _ _ _ p l a
    (fun rep HC => Ref_read_value pl PB mo fin cap mem rep a HC) Hf Hs) as H.
  destruct (len l <? rv_size w); [exact H|]. destruct H as (v & b & p' & E & -> & Hq & Hm).
  exists b, p'. auto.
Qed.
End Lossless.

(** So inputs that decode to the same value are the same where they were read. *)
Theorem C49_distinct : forall pl S (PB : parsebuf S) A (m : M S A) n back,
  lossless pl PB m n back ->
  forall mo1 fin1 cap1 mem1 mo2 fin2 cap2 mem2 w p1 p2 l1 l2 a1 a2 v q1 q2,
  configured (p_cfg p1) w -> configured (p_cfg p2) w -> c_endian (p_cfg p1) = c_endian (p_cfg p2) ->
  source PB mo1 fin1 cap1 mem1 p1 l1 a1 -> source PB mo2 fin2 cap2 mem2 p2 l2 a2 ->
  m p1 = (Ok v, q1) -> m p2 = (Ok v, q2) -> take (n w) l1 = take (n w) l2.
Proof.
  intros pl S PB A m n back H mo1 fin1 cap1 mem1 mo2 fin2 cap2 mem2 w p1 p2 l1 l2 a1 a2 v q1 q2
    C1 C2 He S1 S2 E1 E2.
  pose proof (H _ _ _ _ w p1 l1 a1 C1 S1) as H1. pose proof (H _ _ _ _ w p2 l2 a2 C2 S2) as H2.
  destruct (len l1 <? n w); [destruct H1 as [? H1]; congruence|].
  destruct (len l2 <? n w); [destruct H2 as [? H2]; congruence|].
  destruct H1 as (v1 & ? & E1' & B1 & _). destruct H2 as (v2 & ? & E2' & B2 & _).
  assert (v1 = v) by congruence. assert (v2 = v) by congruence. subst.
  now rewrite <- B1, <- B2, He.
Qed.

Example C49_example :
  let d := [1; 2; 3; 4; 5; 6; 7; 8; 9; 10; 11; 12; 13; 14; 15; 16; 99] in
  exists r p', parse_lost pl64 slice_buf (on_slice 4096 d ex_cfg) = (Ok r, p') /\
    w_body LE ex_set (WLost r) = take 16 d.
Proof. eexists. eexists. split; vm_compute; reflexivity. Qed.

Print Assumptions C11_sample_id.
Print Assumptions C11_any_bytes.
Print Assumptions C11_off.
Print Assumptions C20_sample_partial.
Print Assumptions C20_presence.
Print Assumptions C20_empty_last_refuted.
Print Assumptions C20_no_regs_refuted.
Print Assumptions C20_weight_struct_refuted.
Print Assumptions C22_padding.
Print Assumptions C22_raw.
Print Assumptions C23_stack_partial.
Print Assumptions C23_too_long.
Print Assumptions C23_empty_refuted.
Print Assumptions C27_switch.
Print Assumptions C27_mmap2.
Print Assumptions C28_build_id.
Print Assumptions C28_rejected.
Print Assumptions C35_text_poke_partial.
Print Assumptions C35_refuted.
Print Assumptions C49_header.
Print Assumptions C49_lost.
Print Assumptions C49_exit.
Print Assumptions C49_throttle.
Print Assumptions C49_aux.
Print Assumptions C49_itrace_start.
Print Assumptions C49_lost_samples.
Print Assumptions C49_aux_output_hw_id.
Print Assumptions C49_switch_cpu_wide.
Print Assumptions C49_bpf_event.
Print Assumptions C49_read_value.
Print Assumptions C49_distinct.
