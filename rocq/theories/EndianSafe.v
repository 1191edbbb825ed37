(** Safety of parsing with any implementation of [Endian]: the proofs of Safe.v for the parsers of Endian.v. *)
From Coq Require Import NArith List Bool Lia.
From Verif Require Import Base BaseFacts Types Platform Config Buf Parser Contract Flat Refine.
From Verif Require Import Instances Prims Slices Records Sample Record Attr Views RefRecords.
From Verif Require Import RefFrame RefTop Bits Safe NoHint Endian.
Import ListNotations.
Open Scope N_scope.

(** What the types of the methods say of their results. *)
Definition typed (E : byteorder) (pl : platform) : Prop :=
  forall l, bytes l -> (len l = 2 -> bo_16 E pl l < 2 ^ 16) /\ (len l = 4 -> bo_32 E pl l < 2 ^ 32) /\
    (len l = 8 -> bo_64 E pl l < 2 ^ 64).

Definition parse_body_by (En : byteorder) (pl : platform) {S : Type} (PB : parsebuf S) (t : N) : M S (body cow) :=
  if t =? 1 then r <- parse_mmap_by En pl PB ;; ret (BMmap r)
  else if t =? 2 then r <- parse_lost_by En pl PB ;; ret (BLost r)
  else if t =? 3 then r <- parse_comm_by En pl PB ;; ret (BComm r)
  else if t =? 4 then r <- parse_exit_by En pl PB ;; ret (BExit r)
  else if t =? 5 then r <- parse_throttle_by En pl PB ;; ret (BThrottle r)
  else if t =? 6 then r <- parse_throttle_by En pl PB ;; ret (BUnthrottle r)
  else if t =? 7 then r <- parse_exit_by En pl PB ;; ret (BFork r)
  else if t =? 8 then r <- parse_read_by En pl PB ;; ret (BRead r)
  else if t =? 9 then r <- parse_sample_by En pl PB ;; ret (BSample r)
  else if t =? 10 then r <- parse_mmap2_by En pl PB ;; ret (BMmap2 r)
  else if t =? 11 then r <- parse_aux_by En pl PB ;; ret (BAux r)
  else if t =? 12 then r <- parse_itrace_start_by En pl PB ;; ret (BItraceStart r)
  else if t =? 13 then r <- parse_lost_samples_by En pl PB ;; ret (BLostSamples r)
  else if t =? 15 then r <- parse_switch_cpu_wide_by En pl PB ;; ret (BSwitchCpuWide r)
  else if t =? 16 then r <- parse_namespaces_by En pl PB ;; ret (BNamespaces r)
  else if t =? 17 then r <- parse_ksymbol_by En pl PB ;; ret (BKsymbol r)
  else if t =? 18 then r <- parse_bpf_event_by En pl PB ;; ret (BBpfEvent r)
  else if t =? 19 then r <- parse_cgroup_by En pl PB ;; ret (BCgroup r)
  else if t =? 20 then r <- parse_text_poke_by En pl PB ;; ret (BTextPoke r)
  else if t =? 21 then r <- parse_aux_output_hw_id_by En pl PB ;; ret (BAuxOutputHwId r)
  else r <- parse_rest PB ;; ret (BUnknown r).

Lemma dispatch_eq_by : forall En pl S (PB : parsebuf S) O (V : visitor O) md p,
  dispatch_by En pl PB V md p = (b <- parse_body_by En pl PB (md_ty md) ;; lift (deliver V b md)) p.
Proof.
  intros. unfold dispatch_by, parse_body_by.
  unfold PERF_RECORD_MMAP, PERF_RECORD_LOST, PERF_RECORD_COMM, PERF_RECORD_EXIT,
    PERF_RECORD_THROTTLE, PERF_RECORD_UNTHROTTLE, PERF_RECORD_FORK, PERF_RECORD_READ,
    PERF_RECORD_SAMPLE, PERF_RECORD_MMAP2, PERF_RECORD_AUX, PERF_RECORD_ITRACE_START,
    PERF_RECORD_LOST_SAMPLES, PERF_RECORD_SWITCH_CPU_WIDE, PERF_RECORD_NAMESPACES,
    PERF_RECORD_KSYMBOL, PERF_RECORD_BPF_EVENT, PERF_RECORD_CGROUP, PERF_RECORD_TEXT_POKE,
    PERF_RECORD_AUX_OUTPUT_HW_ID.
  repeat match goal with
  | |- (if ?b then _ else _) _ = _ => destruct b; [rewrite bind_ret_lift; reflexivity|]
  end.
  rewrite bind_ret_lift; reflexivity.
Qed.

Definition collect_with_header_by (En : byteorder) (pl : platform) {S : Type} (PB : parsebuf S) (h : header)
  : M S (body cow * metadata) :=
  r <- parse_metadata_with_header_by En pl PB h ;;
  let '(p, md) := r in
  match cursor_as_slice (p_buf p) with
  | Some data =>
      b <- sub (parse_body_by En pl slice_buf (md_ty md)) (new_parser data (with_misc (p_cfg p) (md_misc md))) ;;
      ret (b, md)
  | None =>
      b <- sub (parse_body_by En pl cursor_buf (md_ty md))
             (new_parser (p_buf p) (with_misc (p_cfg p) (md_misc md))) ;;
      ret (b, md)
  end.

Definition collect_by (En : byteorder) (pl : platform) {S : Type} (PB : parsebuf S) : M S (body cow * metadata) :=
  h <- parse_header_by En pl PB ;; collect_with_header_by En pl PB h.

Lemma sub_dispatch_by : forall En pl S S2 (PB : parsebuf S2) O (V : visitor O) md q (p : parser S),
  sub (dispatch_by En pl PB V md) q p =
  (r <- (b <- sub (parse_body_by En pl PB (md_ty md)) q ;; ret (b, md)) ;;
   lift (deliver V (fst r) (snd r))) p.
Proof.
  intros. unfold sub, bind, ret, lift. rewrite dispatch_eq_by. unfold bind, lift.
  destruct (parse_body_by En pl PB (md_ty md) q) as [[] q']; reflexivity.
Qed.

Lemma record_with_header_eq_by : forall En pl S (PB : parsebuf S) O (V : visitor O) h p,
  parse_record_with_header_by En pl PB V h p =
  (r <- collect_with_header_by En pl PB h ;; lift (deliver V (fst r) (snd r))) p.
Proof.
  intros. unfold parse_record_with_header_by, collect_with_header_by, parse_record_impl_by.
  unfold bind at 1 2 3.
  destruct (parse_metadata_with_header_by En pl PB h p) as [[[q md]|e| |] p1]; try reflexivity.
  destruct (cursor_as_slice (p_buf q)); apply sub_dispatch_by.
Qed.

Lemma record_eq_by : forall En pl S (PB : parsebuf S) O (V : visitor O) p,
  parse_record_by En pl PB V p =
  (r <- collect_by En pl PB ;; lift (deliver V (fst r) (snd r))) p.
Proof.
  intros. unfold parse_record_by, collect_by. unfold bind at 1 2 3.
  destruct (parse_header_by En pl PB p) as [[h|e| |] p1]; try reflexivity.
  apply record_with_header_eq_by.
Qed.

Lemma attr_fields_nohint_by : forall En pl t s q,
  parse_attr_fields_by En pl cursor_buf t s q = parse_attr_fields_by En pl cursor_nohint t s q.
Proof.
  intros. unfold parse_attr_fields_by, parse_u16_by, parse_u32_by, parse_u64_by.
  now rewrite array_nohint, rest_nohint.
Qed.

(** The elements of arrays. *)
Definition fe_u64 (E : byteorder) (pl : platform) : felem N := mkFelem 8 (fun _ => bo_64 E pl).
Definition fe_ns (E : byteorder) (pl : platform) : felem ns_entry :=
  mkFelem 16 (fun _ l => mkNs (bo_64 E pl (take 8 l)) (bo_64 E pl (drop 8 l))).
Definition fe_branch (E : byteorder) (pl : platform) : felem branch_entry :=
  mkFelem 24 (fun _ l => mkBranch (bo_64 E pl (take 8 l)) (bo_64 E pl (take 8 (drop 8 l))) (bo_64 E pl (drop 16 l))).

Definition f_word (E : byteorder) (pl : platform) : F N := l <~ f_take 8 ;; fret (bo_64 E pl l).

Lemma fe_u64_eq : forall E pl env l pos, f_elem pl (fe_u64 E pl) env l pos = f_word E pl env l pos.
Proof. reflexivity. Qed.

Lemma fe_ns_eq : forall E pl env l pos,
  f_elem pl (fe_ns E pl) env l pos = (a <~ f_word E pl ;; b <~ f_word E pl ;; fret (mkNs a b)) env l pos.
Proof.
  intros E pl env l pos. unfold f_elem, fe_ns; cbn [fl_size fl_dec].
  change 16 with (8 + 8) at 1.
  rewrite (fbind_ext _ _ _ (x <~ f_take 8 ;; y <~ f_take 8 ;; fret (x ++ y)) _ _ _ _ _
             (fun l pos => f_take_plus 8 8 env l pos eq_refl) (fun _ _ _ => eq_refl)).
  unfold f_word. rewrite !fbind_assoc. apply fbind_take_ext; intros a l1 pos1 Ha.
  rewrite !fbind_assoc. unfold fbind at 1 2 3, fcfg, fret at 2.
  unfold fbind, f_take, fcfg, fret.
  destruct l1 as [|h t]; [reflexivity|]. remember (h :: t) as l2 eqn:El. clear El h t.
  destruct (len l2 <? 8); [reflexivity|]. cbn [app fe_cfg].
  rewrite take_app_exact, drop_app_exact by (symmetry; assumption). reflexivity.
Qed.

Lemma fe_branch_eq : forall E pl env l pos,
  f_elem pl (fe_branch E pl) env l pos =
  (a <~ f_word E pl ;; b <~ f_word E pl ;; c <~ f_word E pl ;; fret (mkBranch a b c)) env l pos.
Proof.
  intros E pl env l pos. unfold f_elem, fe_branch; cbn [fl_size fl_dec].
  change 24 with (8 + (8 + 8)) at 1.
  rewrite (fbind_ext _ _ _ (x <~ f_take 8 ;; y <~ (y <~ f_take 8 ;; z <~ f_take 8 ;; fret (y ++ z)) ;; fret (x ++ y)) _
             (fun l0 => c <~ fcfg ;;
                fret (mkBranch (bo_64 E pl (take 8 l0)) (bo_64 E pl (take 8 (drop 8 l0)))
                   (bo_64 E pl (drop 16 l0)))) env l pos); [|intros l1 pos1|reflexivity].
  2:{ rewrite f_take_plus by reflexivity. apply fbind_ext; [reflexivity|].
      intros; apply fbind_ext; [|reflexivity]. intros. now apply (f_take_plus 8 8). }
  unfold f_word. rewrite !fbind_assoc. apply fbind_take_ext; intros a l1 pos1 Ha.
  rewrite !fbind_assoc. unfold fbind, f_take, fcfg, fret.
  destruct l1 as [|h t]; [reflexivity|]. remember (h :: t) as l2 eqn:El. clear El h t.
  destruct (N.ltb_spec (len l2) 8) as [H8|H8]; [reflexivity|].
  destruct (drop 8 l2) as [|h t]; [reflexivity|]. remember (h :: t) as l3 eqn:El. clear El h t.
  destruct (len l3 <? 8); [reflexivity|]. cbn [app fe_cfg].
  assert (Hb : len (take 8 l2) = 8) by (rewrite len_take; lia).
  rewrite take_app_exact by (symmetry; assumption).
  rewrite drop_app_exact by (symmetry; assumption).
  rewrite take_app_exact by (symmetry; assumption).
  rewrite app_assoc, drop_app_exact by (rewrite len_app; lia). reflexivity.
Qed.

Section Prim.
Context (En : byteorder) (pl : platform) (HE : typed En pl) {S : Type} (PB : parsebuf S) (mo : mode)
  (fin : perror) (cap : N) (mem : memory) (rep : S -> list N -> N -> Prop) (a0 : N).
Context (HC : contract PB mo fin cap mem rep).

Notation Safe := (Safe fin cap rep a0).

Lemma e_u16 : Safe (fun v => v < 2 ^ 16) (parse_u16_by En pl PB).
Proof. eapply Safe_bind; [eapply s_array; exact HC|]. intros l [Hl Hb]. now apply Safe_ret, HE. Qed.
Lemma e_u32 : Safe (fun v => v < 2 ^ 32) (parse_u32_by En pl PB).
Proof. eapply Safe_bind; [eapply s_array; exact HC|]. intros l [Hl Hb]. now apply Safe_ret, HE. Qed.
Lemma e_u64 : Safe (fun v => v < 2 ^ 64) (parse_u64_by En pl PB).
Proof. eapply Safe_bind; [eapply s_array; exact HC|]. intros l [Hl Hb]. now apply Safe_ret, HE. Qed.
Lemma Ref_word : Ref mo fin cap rep a0 eq (parse_u64_by En pl PB) (f_word En pl).
Proof. eapply Ref_bind; [apply (Ref_array PB mo fin cap mem rep a0 HC)|]. intros l ? <-. now apply Ref_ret. Qed.

Ltac prim :=
  first [apply e_u64 | apply e_u32 | apply e_u16 | eapply s_u8; [exact pl|exact HC] | eapply s_array; exact HC | apply Safe_cfg
        | eapply s_string; exact HC | eapply s_rest; exact HC
        | apply Safe_parse_if; prim ].
Ltac next := eapply Safe_bind; [prim|]; let x := fresh "x" in let H := fresh "H" in intros x H.
Ltac steps := repeat next.
Ltac done := apply Safe_ret; exact I.
Ltac bad := apply Safe_fail, err_custom; reflexivity.

Lemma e_header : Safe (fun h => h_size h < 65536) (parse_header_by En pl PB).
Proof. unfold parse_header_by. steps. apply Safe_ret. cbn. exact H1. Qed.
Lemma e_lost : Safe any (parse_lost_by En pl PB).
Proof. unfold parse_lost_by; steps; done. Qed.
Lemma e_lost_samples : Safe any (parse_lost_samples_by En pl PB).
Proof. unfold parse_lost_samples_by; steps; done. Qed.
Lemma e_exit : Safe any (parse_exit_by En pl PB).
Proof. unfold parse_exit_by; steps; done. Qed.
Lemma e_throttle : Safe any (parse_throttle_by En pl PB).
Proof. unfold parse_throttle_by; steps; done. Qed.
Lemma e_aux : Safe any (parse_aux_by En pl PB).
Proof. unfold parse_aux_by; steps; done. Qed.
Lemma e_itrace_start : Safe any (parse_itrace_start_by En pl PB).
Proof. unfold parse_itrace_start_by; steps; done. Qed.
Lemma e_switch_cpu_wide : Safe any (parse_switch_cpu_wide_by En pl PB).
Proof.
  unfold parse_switch_cpu_wide_by; steps.
  destruct (negb (N.land (misc x1) MISC_SWITCH_OUT =? 0)); done.
Qed.
Lemma e_bpf_event : Safe any (parse_bpf_event_by En pl PB).
Proof. unfold parse_bpf_event_by; steps; done. Qed.
Lemma e_aux_output_hw_id : Safe any (parse_aux_output_hw_id_by En pl PB).
Proof. unfold parse_aux_output_hw_id_by; steps; done. Qed.
Lemma e_mmap : Safe (fun r => bytes (cow_list (mm_filename r))) (parse_mmap_by En pl PB).
Proof. unfold parse_mmap_by; steps; now apply Safe_ret. Qed.

Lemma e_mmap_detail : Safe detail_ok (parse_mmap_detail_by En pl PB).
Proof.
  unfold parse_mmap_detail_by; next.
  destruct (negb (N.land (misc x) MISC_MMAP_BUILD_ID =? 0)); steps.
  - destruct (N.ltb_spec 20 x0); [apply Safe_fail, err_custom; cbn; cbv beta in *; auto|]. apply Safe_ret. cbn. cbv beta in *. tauto.
  - apply Safe_ret. exact I.
Qed.
Lemma e_mmap2 :
  Safe (fun r => detail_ok (m2_detail r) /\ bytes (cow_list (m2_filename r))) (parse_mmap2_by En pl PB).
Proof.
  unfold parse_mmap2_by; steps. eapply Safe_bind; [apply e_mmap_detail|]. intros d Hd. steps.
  apply Safe_ret. now split.
Qed.
Lemma e_comm : Safe (fun r => bytes (cow_list (cm_comm r))) (parse_comm_by En pl PB).
Proof. unfold parse_comm_by; steps; now apply Safe_ret. Qed.
Lemma e_ksymbol : Safe (fun r => bytes (cow_list (ks_name r))) (parse_ksymbol_by En pl PB).
Proof. unfold parse_ksymbol_by; steps; now apply Safe_ret. Qed.
Lemma e_cgroup : Safe (fun r => bytes (cow_list (cg_path r))) (parse_cgroup_by En pl PB).
Proof. unfold parse_cgroup_by; steps; now apply Safe_ret. Qed.

Lemma e_sample_id : Safe any (parse_sample_id_by En pl PB).
Proof.
  unfold parse_sample_id_by; next. cbv zeta.
  destruct (negb (sample_id_all x)); [done|].
  steps. eapply Safe_bind.
  { apply Safe_parse_if_any. steps. done. }
  intros c _. steps. done.
Qed.

Lemma e_read_value : Safe any (parse_read_value_by En pl PB).
Proof.
  unfold parse_read_value_by; next. cbv zeta.
  destruct (contains (read_format x) RF_GROUP); [bad|].
  destruct (negb (difference (read_format x) RF_ALL =? 0)); [bad|].
  steps. done.
Qed.
Lemma e_read : Safe any (parse_read_by En pl PB).
Proof. unfold parse_read_by; steps. eapply Safe_bind; [apply e_read_value|]. intros v _. done. Qed.

Ltac prim2 := eapply Safe_any; first [prim | apply s_or0; eapply Safe_any; prim].
Lemma e_attr_fields : forall t sz, Safe any (parse_attr_fields_by En pl PB t sz).
Proof.
  intros t sz. unfold parse_attr_fields_by.
  do 21 (eapply Safe_bind; [prim2|]; intros ? _).
  eapply Safe_bind with (Q := any).
  - destruct (PERF_ATTR_SIZE_MAX <? sz); [|done].
    eapply Safe_bind; [eapply s_rest; exact HC|]. intros c _.
    destruct (forallb (fun b => b =? 0) (cow_list c)); [done|bad].
  - intros ? _. done.
Qed.

Context (Hcap : cap <= isize_max pl).

Lemma e_text_poke : Safe any (parse_text_poke_by En pl PB).
Proof.
  unfold parse_text_poke_by; steps. cbv zeta.
  pose proof (round_up_bound (x0 + x1)) as Hup.
  set (full := round_up_mod (x0 + x1) 4 8) in *.
  eapply Safe_bind; [apply (s_bytes pl PB mo fin cap mem rep a0 HC Hcap)|]. intros c Hc.
  eapply Safe_bind with (Q := any).
  - apply Safe_lift. destruct c as [a d|d]; cbn [cow_split_at cow_list] in *.
    + replace (len d <? x0) with false by (symmetry; apply N.ltb_ge; lia). exact I.
    + rewrite Hc. destruct (x0 =? 0); [exact I|]. destruct (x0 =? full); [exact I|].
      replace (full <? x0) with false by (symmetry; apply N.ltb_ge; lia). exact I.
  - intros [u v] _. cbn [fst snd]. eapply Safe_bind with (Q := any); [|intros ? _; done].
    apply Safe_lift. destruct v as [a d|d]; cbn [cow_truncate];
      repeat match goal with |- context [if ?b then _ else _] => destruct b end; exact I.
Qed.

Lemma e_slice : forall A (L : elem A) (FE : felem A),
  el_size L = fl_size FE -> 0 < fl_size FE -> fl_size FE <= 16384 ->
  Ref mo fin cap rep a0 eq (el_parse L PB) (f_elem pl FE) ->
  forall n, Safe (fun c => len (cow_list c) = n) (parse_slice_by En pl PB L n).
Proof.
  intros A L FE Hsize Hpos Hle Hel n.
  assert (Hrep : Safe (fun l => len l = n) (parse_repeated pl PB L n)).
  { intros p l pos Hr Hw.
    pose proof (repeated_spec pl PB mo fin cap mem rep a0 HC Hcap L FE Hsize Hpos Hle Hel
                  n p l pos Hr Hw) as H.
    destruct (parse_repeated pl PB L n p) as [r p'].
    destruct (N.ltb_spec (len l) (n * fl_size FE)); destruct H as [-> H].
    - exists (Err fin), p', [], (pos + len l). split; [reflexivity|]. split; [apply err_fin|exact H].
    - eexists; exists p'; eexists; eexists. split; [reflexivity|]. split; [|exact H].
      cbn. apply decode_len; [exact Hpos|]. rewrite len_take; lia. }
  unfold parse_slice_by. eapply Safe_bind with (Q := fun r => match r with Some (_, l) => len l = n | None => True end).
  2: { intros [[a l]|] Hl; [now apply Safe_ret|].
       eapply Safe_bind; [exact Hrep|]. intros l Hn. now apply Safe_ret. }
  unfold parse_slice_direct_by.
  destruct (negb (bo_native En pl)); [now apply Safe_ret|].
  destruct (checked_mul pl n (el_size L)) as [k|] eqn:Ek; [|bad].
  assert (Hk : k = n * fl_size FE).
  { unfold checked_mul in Ek. destruct (_ <=? _); [|discriminate]. rewrite <- Hsize. congruence. }
  eapply Safe_bind with (Q := fun r => match r with Some (_, d) => len d = k | None => True end).
  - intros p l pos Hr Hw.
    pose proof (bytes_direct_spec PB mo fin cap mem rep a0 HC k p l pos Hr Hw) as H1.
    destruct l as [|h t].
    + destruct H1 as (p1 & E1 & Hs). exists (Err fin), p1, [], pos.
      split; [exact E1|]. split; [apply err_fin|exact Hs].
    + destruct H1 as ([[a d]|] & p1 & E1 & H1).
      * destruct H1 as (Hn & Hd & Hm & Hx & Hs). exists (Ok (Some (a, d))), p1.
        eexists; eexists. split; [exact E1|]. split; [|exact Hs]. cbn. rewrite Hd, len_take; lia.
      * destruct H1 as [_ Hs]. exists (Ok None), p1. eexists; eexists.
        split; [exact E1|]. split; [exact I|exact Hs].
  - intros [[a d]|] Hd; [|now apply Safe_ret].
    destruct ((a mod word_align pl =? 0) || (len d =? 0)); apply Safe_ret; [|exact I].
    unfold len at 1. rewrite map_length, Hsize. fold (len (chunks (fl_size FE) d)).
    rewrite len_chunks, Hd, Hk by exact Hpos. apply N.div_mul; lia.
Qed.

Lemma e_slice_u64 : forall n, Safe (fun c => len (cow_list c) = n) (parse_slice_by En pl PB (elem_u64_by En pl) n).
Proof.
  apply (e_slice N (elem_u64_by En pl) (fe_u64 En pl));
    cbn [el_size fl_size elem_u64_by fe_u64]; try lia; try reflexivity.
  eapply Ref_ext; [intros; apply fe_u64_eq|]. apply Ref_word.
Qed.

Lemma e_slice_ns : forall n, Safe (fun c => len (cow_list c) = n) (parse_slice_by En pl PB (elem_ns_by En pl) n).
Proof.
  apply (e_slice ns_entry (elem_ns_by En pl) (fe_ns En pl));
    cbn [el_size fl_size elem_ns_by fe_ns]; try lia; try reflexivity.
  eapply Ref_ext; [intros; apply fe_ns_eq|]. cbn [el_parse elem_ns_by]. unfold parse_ns_entry_by.
  do 2 (eapply Ref_bind; [apply Ref_word|]; intros ? ? <-).
  now apply Ref_ret.
Qed.

Lemma e_slice_branch : forall n,
  Safe (fun c => len (cow_list c) = n) (parse_slice_by En pl PB (elem_branch_by En pl) n).
Proof.
  apply (e_slice branch_entry (elem_branch_by En pl) (fe_branch En pl));
    cbn [el_size fl_size elem_branch_by fe_branch]; try lia; try reflexivity.
  eapply Ref_ext; [intros; apply fe_branch_eq|]. cbn [el_parse elem_branch_by]. unfold parse_branch_entry_by.
  do 3 (eapply Ref_bind; [apply Ref_word|]; intros ? ? <-).
  now apply Ref_ret.
Qed.

Lemma e_namespaces : Safe any (parse_namespaces_by En pl PB).
Proof.
  unfold parse_namespaces_by; steps. eapply Safe_bind; [apply e_slice_ns|]. intros c _. done.
Qed.

Lemma e_read_group : Safe group_wf (parse_read_group_by En pl PB).
Proof.
  unfold parse_read_group_by; next. cbv zeta.
  destruct (contains (read_format x) RF_GROUP) eqn:Eg; cbn [negb]; [|bad].
  destruct (negb (difference (read_format x) RF_ALL =? 0)); [bad|].
  steps. unfold checked_mul.
  destruct (as_usize pl x0 * element_len (read_format x) <=? usize_max pl); [|bad].
  eapply Safe_bind; [apply e_slice_u64|]. intros c Hc. apply Safe_ret. split; [exact Eg|].
  cbn [rg_data rg_format]. eexists; exact Hc.
Qed.

Lemma e_registers : forall mask, Safe (regs_wf mask) (parse_registers_by En pl PB mask).
Proof.
  intros mask. unfold parse_registers_by; steps. eapply Safe_bind; [apply e_slice_u64|].
  intros c Hc. apply Safe_ret. split; [reflexivity|exact Hc].
Qed.

Lemma e_sample_read : Safe group_wf (parse_sample_read_by En pl PB).
Proof.
  unfold parse_sample_read_by; next.
  destruct (contains (read_format x) RF_GROUP); [apply e_read_group|].
  eapply Safe_bind; [apply e_read_value|]. intros v _. apply Safe_ret, group_of_value_wf.
Qed.

Lemma e_callchain : Safe any (parse_callchain_by En pl PB).
Proof. unfold parse_callchain_by; steps. eapply Safe_any; apply e_slice_u64. Qed.

Lemma e_raw : Safe any (parse_raw_by En pl PB).
Proof.
  unfold parse_raw_by. apply (s_padded PB mo fin cap mem rep a0 HC); [lia|]. steps. eapply Safe_any; apply (s_bytes pl PB mo fin cap mem rep a0 HC Hcap).
Qed.

Lemma e_lbr : forall hw, Safe any (parse_lbr_by En pl PB hw).
Proof.
  intros hw. unfold parse_lbr_by; steps. eapply Safe_bind; [apply e_slice_branch|].
  intros c _. done.
Qed.

Lemma e_stack_user : Safe any (parse_stack_user_by En pl PB).
Proof.
  unfold parse_stack_user_by; steps. eapply Safe_bind; [apply (s_bytes pl PB mo fin cap mem rep a0 HC Hcap)|]. intros c _.
  eapply Safe_bind with (Q := any).
  { destruct (as_usize pl x =? 0); [done|]. steps. done. }
  intros k _. destruct (N.ltb_spec (len (cow_list c)) k) as [Hk|Hk]; [bad|].
  apply Safe_lift. destruct c as [a d|d]; cbn in *; [|exact I].
  replace (len d <? k) with false by (symmetry; apply N.ltb_ge; lia). exact I.
Qed.

Lemma e_sample_aux : Safe any (parse_sample_aux_by En pl PB).
Proof. unfold parse_sample_aux_by; steps. eapply Safe_any; apply (s_bytes pl PB mo fin cap mem rep a0 HC Hcap). Qed.

Lemma e_sample : Safe sample_wf (parse_sample_by En pl PB).
Proof.
  unfold parse_sample_by. next. cbv zeta.
  steps. eapply Safe_bind. { apply Safe_parse_if_any. steps. done. } intros ? _.
  next. eapply Safe_bind; [apply Safe_parse_if, e_sample_read|]. intros vals Hvals.
  eapply Safe_bind; [apply Safe_parse_if_any, e_callchain|]. intros ? _.
  eapply Safe_bind; [apply Safe_parse_if_any, e_raw|]. intros ? _.
  eapply Safe_bind; [apply Safe_parse_if_any, e_lbr|]. intros ? _.
  eapply Safe_bind; [apply Safe_parse_if, e_registers|]. intros ru Hru.
  eapply Safe_bind; [apply Safe_parse_if_any, e_stack_user|]. intros ? _.
  steps. eapply Safe_bind; [apply Safe_parse_if, e_registers|]. intros ri Hri.
  steps. eapply Safe_bind; [apply Safe_parse_if_any, e_sample_aux|]. intros ? _.
  apply Safe_ret. split; [exact Hvals|].
  split; [exact (opt_ok_impl _ _ _ _ (regs_wf_self _) Hru)
         |exact (opt_ok_impl _ _ _ _ (regs_wf_self _) Hri)].
Qed.

Lemma e_body : forall t, Safe body_wf (parse_body_by En pl PB t).
Proof.
  intros t. unfold parse_body_by.
  Ltac one L := eapply Safe_bind; [apply L|]; intros ? ?; apply Safe_ret; cbn; auto.
  repeat match goal with
  | |- Safe _ (if ?b then _ else _) =>
      destruct b;
      [first [one e_mmap | one e_lost | one e_comm | one e_exit | one e_throttle | one e_read
             | one e_sample | one e_mmap2 | one e_aux | one e_itrace_start | one e_lost_samples
             | one e_switch_cpu_wide | one e_namespaces | one e_ksymbol | one e_bpf_event
             | one e_cgroup | one e_text_poke | one e_aux_output_hw_id]|]
  end.
  one (s_rest PB mo fin cap mem rep a0 HC).
Qed.
End Prim.

Section Top.
Context (En : byteorder) (pl : platform) (HE : typed En pl) {S : Type} (PB : parsebuf S) (mo : mode) (fin : perror) (cap : N)
  (mem : memory) (rep : S -> list N -> N -> Prop) (a0 : N).
Context (HC : contract PB mo fin cap mem rep).

Notation Safe := (Safe fin cap rep a0).
Ltac bad := apply Safe_fail, err_custom; reflexivity.

Lemma e_attr : pl_ok pl -> Safe any (parse_attr_by En pl PB).
Proof.
  intros Hpl. unfold parse_attr_by.
  eapply Safe_bind; [apply (e_u32 En pl HE PB mo fin cap mem rep a0 HC)|]. intros t _.
  eapply Safe_bind; [apply (e_u32 En pl HE PB mo fin cap mem rep a0 HC)|]. intros s Hs.
  destruct (attr_size_ok s) eqn:Eok; cbn [negb]; [|apply Safe_fail, err_custom, size_refused, Eok].
  assert (H4 : 4 <= s).
  { unfold attr_size_ok in Eok. apply orb_true_iff in Eok as [Eok|Eok].
    - apply existsb_exists in Eok as (x & Hin & Ex). apply N.eqb_eq in Ex; subst x.
      cbn in Hin. repeat (destruct Hin as [<-|Hin]; [vm_compute; discriminate|]). contradiction.
    - apply N.ltb_lt in Eok. unfold PERF_ATTR_SIZE_MAX, PERF_ATTR_SIZE_VER8 in Eok. lia. }
  assert (Eu : as_usize pl s = s).
  { unfold as_usize. apply N.mod_small.
    eapply N.lt_le_trans; [exact Hs|]. apply N.pow_le_mono_r; [lia|].
    destruct Hpl as [E|E]; rewrite E; lia. }
  rewrite Eu. unfold checked_sub. apply N.leb_le in H4. rewrite H4.
  eapply Safe_bind; [apply (s_split PB mo fin cap mem rep a0 HC)|].
  intros q (Hlog & d & a & Hrep & Hlen & Hwd).
  eapply (Safe_sub fin cap rep a0 _ _ _ (fun s l a => exists n, cursor_rep mo n mem s l a) 0
           _ q d a); [|exact Hlog|now exists (s - 4)|exact Hwd].
  intros p l pos Hr Hw. rewrite attr_fields_nohint_by. revert p l pos Hr Hw.
  apply (e_attr_fields En pl HE cursor_nohint mo eof_error cap mem _ 0 (nohint_contract mo cap mem)).
Qed.

Context (Hcap : cap <= isize_max pl).

Lemma e_metadata_with_header : forall h, h_size h <= cap + 8 ->
  Safe (fun r => record_cursor mo cap mem (fst r) /\ md_ty (snd r) = h_type h /\ md_misc (snd r) = h_misc h)
    (parse_metadata_with_header_by En pl PB h).
Proof.
  intros h Hh. unfold parse_metadata_with_header_by.
  destruct (checked_sub (h_size h) 8) as [n|] eqn:Esz; [|bad].
  assert (Hn : n <= cap).
  { unfold checked_sub in Esz. destruct (8 <=? h_size h); [|discriminate]. injection Esz as <-. lia. }
  eapply Safe_bind; [apply s_split'; [exact HC|exact Hn]|]. intros q [Hq Hql].
  destruct (_ || _); [apply Safe_ret; cbn; auto|].
  destruct (checked_sub n (estimate_len (p_cfg q))) as [k|] eqn:Ek; [|bad].
  assert (Hk : k <= cap).
  { unfold checked_sub in Ek. destruct (estimate_len (p_cfg q) <=? n); [|discriminate].
    injection Ek as <-. lia. }
  destruct Hq as (Hlog & n' & d & a & Hn' & Hoff & Hrep & Hwd).
  eapply Safe_bind with (Q := fun r => record_cursor mo cap mem (fst r)).
  - eapply (Safe_sub fin cap rep a0 _ _ _ (cursor_rep mo cap mem) 0 _ q d a);
      [|exact Hlog|eapply cursor_rep_mono; [|exact Hrep]; lia|exact Hwd].
    eapply Safe_bind; [apply s_split'; [apply cursor_contract|exact Hk]|]. intros q2 [Hq2 _].
    eapply Safe_bind.
    { apply (e_sample_id En pl HE cursor_buf mo eof_error cap mem _ 0). apply cursor_contract. }
    intros si _. now apply Safe_ret.
  - intros r Hr. apply Safe_ret. cbn. auto.
Qed.

Lemma e_collect_with_header : forall h, h_size h <= cap + 8 ->
  Safe (fun r => body_wf (fst r) /\ md_ty (snd r) = h_type h /\ md_misc (snd r) = h_misc h)
    (collect_with_header_by En pl PB h).
Proof.
  intros h Hh. unfold collect_with_header_by.
  eapply Safe_bind; [apply e_metadata_with_header, Hh|]. intros [q md] (Hq & Hmd). cbn [fst snd] in *.
  destruct Hq as (Hlog & n & d & a & Hn & Hoff & Hrep & Hwd).
  destruct (cursor_as_slice (p_buf q)) as [[x dd]|] eqn:Esl.
  - unfold cursor_as_slice in Esl.
    destruct Hrep as (start & cs & H1 & H2 & H3 & H4 & H5 & H6 & H7).
    assert (Ecs : cs = [Borrowed x dd]).
    { rewrite <- (rev_involutive cs), <- H1.
      destruct (cu_chunks (p_buf q)) as [|[a' d'|] [|]]; try discriminate.
      injection Esl as -> ->. reflexivity. }
    subst cs. cbn [chunks_ok map concat cow_list] in *. rewrite Hoff in *.
    rewrite drop_0, app_nil_r in H5. destruct H3 as (Hne & (Hm & Hmo) & _).
    eapply Safe_bind with (Q := body_wf).
    + eapply (Safe_sub fin cap rep a0 _ _ _ (slice_rep cap mem) 0 _ _ d x);
        [|reflexivity| |exact Hwd].
      * eapply e_body; [exact HE|apply slice_contract|assumption].
      * cbn [p_buf new_parser]. split; [cbn; congruence|]. split; [reflexivity|].
        rewrite H5 at 1. split; [exact Hm|]. lia.
    + intros b Hb. apply Safe_ret. cbn; auto.
  - eapply Safe_bind with (Q := body_wf).
    + eapply (Safe_sub fin cap rep a0 _ _ _ (cursor_rep mo cap mem) 0 _ _ d a);
        [|reflexivity| |exact Hwd].
      * eapply e_body; [exact HE|apply cursor_contract|assumption].
      * cbn [p_buf new_parser]. eapply cursor_rep_mono; [|exact Hrep]. lia.
    + intros b Hb. apply Safe_ret. cbn; auto.
Qed.

Context (H16 : 65527 <= cap).

Lemma e_collect : Safe (fun r => body_wf (fst r)) (collect_by En pl PB).
Proof.
  unfold collect_by. eapply Safe_bind; [apply (e_header En pl HE PB mo fin cap mem rep a0 HC)|].
  intros h Hh. eapply Safe_weaken; [|apply e_collect_with_header; cbv beta in Hh; lia].
  intros a [H _]; exact H.
Qed.

Lemma e_record : forall O (V : visitor O) p l pos, rep (p_buf p) l (a0 + pos) -> wf l ->
  exists r p' l' pos', parse_record_by En pl PB V p = (r, p') /\
    step cap rep a0 p l pos p' l' pos' /\
    ((exists b md, r = deliver V b md /\ body_wf b) \/ (exists e, r = Err e /\ err_ok fin e)).
Proof.
  intros O V p l pos Hr Hw. destruct (e_collect p l pos Hr Hw) as (r & p' & l' & pos' & E & Hg & Hs).
  rewrite record_eq_by. unfold bind at 1. rewrite E.
  destruct r as [[b md]|e| |]; cbn [good] in Hg; try contradiction.
  - cbn [lift fst snd]. eexists; exists p', l', pos'. split; [reflexivity|]. split; [exact Hs|].
    left. exists b, md. auto.
  - exists (Err e), p', l', pos'. split; [reflexivity|]. split; [exact Hs|]. right. eauto.
Qed.
End Top.

Section Whole.
Context (En : byteorder) (pl : platform) (HE : typed En pl) {S : Type} (PB : parsebuf S) (mo : mode)
  (fin : perror) (cap : N) (mem : memory) (rep : S -> list N -> N -> Prop) (a0 : N).
Context (HC : contract PB mo fin cap mem rep) (Hpl : pl_ok pl).

Lemma record_no_hint_by : forall O (V : visitor O), parse_record_by En pl PB V = parse_record_by En pl (no_hint PB) V.
Proof.
  intros. unfold parse_record_by, parse_record_with_header_by, parse_metadata_with_header_by, parse_header_by,
    parse_u16_by, parse_u32_by.
  now rewrite array_no_hint, split_no_hint.
Qed.

Lemma attr_no_hint_by : parse_attr_by En pl PB = parse_attr_by En pl (no_hint PB).
Proof. unfold parse_attr_by, parse_u32_by. now rewrite array_no_hint, split_no_hint. Qed.

Lemma record_safe_by : forall O (V : visitor O) p l pos, rep (p_buf p) l (a0 + pos) -> wf l ->
  exists r p' l' pos', parse_record_by En pl PB V p = (r, p') /\
    step 65527 rep a0 p l pos p' l' pos' /\
    ((exists b md, r = deliver V b md /\ body_wf b) \/ (exists e, r = Err e /\ err_ok fin e)).
Proof.
  intros O V p l pos. rewrite record_no_hint_by. pose proof (record_cap pl Hpl).
  apply (e_record En pl HE (no_hint PB) mo fin 65527 mem rep a0); try assumption; try lia.
  now apply no_hint_contract with (cap := cap).
Qed.

Lemma attr_safe_by : Safe.Safe fin 0 rep a0 any (parse_attr_by En pl PB).
Proof.
  rewrite attr_no_hint_by.
  apply (e_attr En pl HE (no_hint PB) mo fin 0 mem rep a0); try assumption.
  now apply no_hint_contract with (cap := cap).
Qed.
End Whole.
