(** Refinement for the record types. *)
From Coq Require Import NArith List Bool Lia.
From Verif Require Import Base BaseFacts Types Platform Config Buf Parser Contract Flat Refine.
From Verif Require Import Instances Prims Slices Records Sample Record Attr Views.
Import ListNotations.
Open Scope N_scope.

(** Contents, and a condition on ownership. *)
Definition vrel {A B : Type} (v : A -> B) (ok : A -> Prop) (a : A) (b : B) : Prop :=
  v a = b /\ ok a.

Lemma round_up_bound : forall v, v <= round_up_mod v 4 8.
Proof.
  intros v; unfold round_up_mod. pose proof (N.mod_lt v 8 ltac:(lia)).
  destruct (N.leb_spec (v mod 8) 4); lia.
Qed.

Definition lbr_view (x : cow branch_entry * option N) : list branch_entry * option N :=
  (cow_list (fst x), snd x).

Section RefRecords.
Context (pl : platform) {S : Type} (PB : parsebuf S) (mo : mode) (fin : perror) (cap : N)
  (mem : memory) (rep : S -> list N -> N -> Prop) (a0 : N).
Context (HC : contract PB mo fin cap mem rep).

Notation Ref := (Ref mo fin cap rep a0).

Lemma Ref_parse_if_eq : forall A b (m : M S A) f, Ref eq m f -> Ref eq (parse_if b m) (f_if b f).
Proof.
  intros A b m f H. eapply Ref_weaken; [|apply Ref_parse_if; exact H].
  intros [a|] [c|]; cbn; congruence || tauto.
Qed.

Lemma Ref_parse_if_v : forall A B (v : A -> B) ok b (m : M S A) f, Ref (vrel v ok) m f ->
  Ref (vrel (option_map v) (opt_ok ok)) (parse_if b m) (f_if b f).
Proof.
  intros A B v ok b m f H. eapply Ref_weaken; [|apply Ref_parse_if; exact H].
  intros [a|] [c|]; cbn; try tauto.
  - intros [H1 H2]; split; cbn; [congruence|assumption].
  - intros _; split; cbn; auto.
Qed.

(** Add what is known of the result. *)
Lemma Ref_post : forall A B (R : A -> B -> Prop) (P : B -> Prop) m f,
  (forall env l pos, wf l -> match f env l pos with FOk b _ _ _ => P b | FErr _ _ _ _ => True end) ->
  Ref R m f -> Ref (fun a b => R a b /\ P b) m f.
Proof.
  intros A B R P m f HP H p l pos Hr Hw. specialize (H p l pos Hr Hw).
  specialize (HP (mkEnv (p_cfg p) fin) l pos Hw).
  destruct (f _ l pos) as [b l' pos' ev|e l' pos' ev]; [|assumption].
  intros Hev. destruct (H Hev) as (a & p' & E & HR & Hs). exists a, p'; auto.
Qed.

Local Definition r_u8 := Ref_u8 pl PB mo fin cap mem rep a0 HC.
Local Definition r_u16 := Ref_u16 pl PB mo fin cap mem rep a0 HC.
Local Definition r_u32 := Ref_u32 pl PB mo fin cap mem rep a0 HC.
Local Definition r_u64 := Ref_u64 pl PB mo fin cap mem rep a0 HC.
Local Definition r_array := Ref_array PB mo fin cap mem rep a0 HC.
Local Definition r_string := Ref_string PB mo fin cap mem rep a0 HC.
Local Definition r_rest := Ref_rest PB mo fin cap mem rep a0 HC.
Local Definition r_cfg := Ref_cfg mo fin cap rep a0.

Ltac prim :=
  first [apply r_u64 | apply r_u32 | apply r_u16 | apply r_u8 | apply r_array | apply r_cfg
        | apply r_string | apply r_rest
        | apply Ref_parse_if_eq; prim ].
Ltac next := eapply Ref_bind; [prim|]; let x := fresh "x" in let y := fresh "y" in
  let E := fresh "E" in
  intros x y E; try match type of E with x = y => subst y end.
Ltac steps := repeat next.
Ltac done := apply Ref_ret; try reflexivity.

Lemma Ref_header : Ref eq (parse_header pl PB) (f_header pl).
Proof. unfold parse_header, f_header; steps; done. Qed.
Lemma Ref_lost : Ref eq (parse_lost pl PB) (f_lost pl).
Proof. unfold parse_lost, f_lost; steps; done. Qed.
Lemma Ref_lost_samples : Ref eq (parse_lost_samples pl PB) (f_lost_samples pl).
Proof. unfold parse_lost_samples, f_lost_samples; steps; done. Qed.
Lemma Ref_exit : Ref eq (parse_exit pl PB) (f_exit pl).
Proof. unfold parse_exit, f_exit; steps; done. Qed.
Lemma Ref_throttle : Ref eq (parse_throttle pl PB) (f_throttle pl).
Proof. unfold parse_throttle, f_throttle; steps; done. Qed.
Lemma Ref_aux : Ref eq (parse_aux pl PB) (f_aux pl).
Proof. unfold parse_aux, f_aux; steps; done. Qed.
Lemma Ref_itrace_start : Ref eq (parse_itrace_start pl PB) (f_itrace_start pl).
Proof. unfold parse_itrace_start, f_itrace_start; steps; done. Qed.
Lemma Ref_switch_cpu_wide : Ref eq (parse_switch_cpu_wide pl PB) (f_switch_cpu_wide pl).
Proof.
  unfold parse_switch_cpu_wide, f_switch_cpu_wide; steps.
  destruct (negb (N.land (misc x1) MISC_SWITCH_OUT =? 0)); done.
Qed.
Lemma Ref_bpf_event : Ref eq (parse_bpf_event pl PB) (f_bpf_event pl).
Proof. unfold parse_bpf_event, f_bpf_event; steps; done. Qed.
Lemma Ref_aux_output_hw_id : Ref eq (parse_aux_output_hw_id pl PB) (f_aux_output_hw_id pl).
Proof. unfold parse_aux_output_hw_id, f_aux_output_hw_id; steps; done. Qed.

Lemma Ref_mmap : Ref (vrel view_mmap (ok_mmap mo mem)) (parse_mmap pl PB) (f_mmap pl).
Proof. unfold parse_mmap, f_mmap; steps. destruct E as [<- Hb]. done. split; [reflexivity|exact Hb]. Qed.

Lemma Ref_mmap_detail : Ref eq (parse_mmap_detail pl PB) (f_mmap_detail pl).
Proof.
  unfold parse_mmap_detail, f_mmap_detail; next.
  destruct (negb (N.land (misc x) MISC_MMAP_BUILD_ID =? 0)); steps; [|done].
  destruct (20 <? x0); [apply Ref_fail|done].
Qed.

Lemma Ref_mmap2 : Ref (vrel view_mmap2 (ok_mmap2 mo mem)) (parse_mmap2 pl PB) (f_mmap2 pl).
Proof.
  unfold parse_mmap2, f_mmap2; steps. eapply Ref_bind; [apply Ref_mmap_detail|].
  intros d ? <-. steps. destruct E as [<- Hb]. done. split; [reflexivity|exact Hb].
Qed.
Lemma Ref_comm : Ref (vrel view_comm (ok_comm mo mem)) (parse_comm pl PB) (f_comm pl).
Proof. unfold parse_comm, f_comm; steps. destruct E as [<- Hb]. done. split; [reflexivity|exact Hb]. Qed.
Lemma Ref_ksymbol : Ref (vrel view_ksymbol (ok_ksymbol mo mem)) (parse_ksymbol pl PB) (f_ksymbol pl).
Proof. unfold parse_ksymbol, f_ksymbol; steps. destruct E as [<- Hb]. done. split; [reflexivity|exact Hb]. Qed.
Lemma Ref_cgroup : Ref (vrel view_cgroup (ok_cgroup mo mem)) (parse_cgroup pl PB) (f_cgroup pl).
Proof. unfold parse_cgroup, f_cgroup; steps. destruct E as [<- Hb]. done. split; [reflexivity|exact Hb]. Qed.

Lemma Ref_sample_id : Ref eq (parse_sample_id pl PB) (f_sample_id pl).
Proof.
  unfold parse_sample_id, f_sample_id; next. cbv zeta.
  destruct (negb (sample_id_all x)); [done|].
  steps. eapply Ref_bind.
  { apply Ref_parse_if_eq. steps. done. }
  intros c ? <-. steps. done.
Qed.

Lemma Ref_read_value : Ref eq (parse_read_value pl PB) (f_read_value pl).
Proof.
  unfold parse_read_value, f_read_value; next. cbv zeta.
  destruct (contains (read_format x) RF_GROUP); [apply Ref_fail|].
  destruct (negb (difference (read_format x) RF_ALL =? 0)); [apply Ref_fail|].
  steps. done.
Qed.

Lemma Ref_read : Ref eq (parse_read pl PB) (f_read pl).
Proof.
  unfold parse_read, f_read; steps. eapply Ref_bind; [apply Ref_read_value|].
  intros v ? <-. done.
Qed.

Lemma Ref_or0 : forall b m f, Ref eq m f -> Ref eq (or0 b m) (f_or0 b f).
Proof. intros [] m f H; [exact H|done]. Qed.

Ltac prim2 := first [apply Ref_or0; prim | prim].
Lemma Ref_attr_fields : forall t sz, Ref eq (parse_attr_fields pl PB t sz) (f_attr_fields pl t sz).
Proof.
  intros t sz. unfold parse_attr_fields, f_attr_fields.
  unfold PERF_ATTR_SIZE_MAX, PERF_ATTR_SIZE_VER0, PERF_ATTR_SIZE_VER1, PERF_ATTR_SIZE_VER2,
    PERF_ATTR_SIZE_VER3, PERF_ATTR_SIZE_VER4, PERF_ATTR_SIZE_VER5, PERF_ATTR_SIZE_VER6,
    PERF_ATTR_SIZE_VER7, PERF_ATTR_SIZE_VER8. cbv zeta.
  do 21 (eapply Ref_bind; [prim2|]; intros ? ? <-).
  eapply Ref_bind with (R := eq).
  - destruct (136 <? sz); [|done].
    eapply Ref_bind; [apply r_rest|]. intros c l [<- _].
    destruct (forallb (fun b => b =? 0) (cow_list c)); [done|apply Ref_fail].
  - intros ? ? _. done.
Qed.

(** The parsers that reserve memory. *)
Context (Hcap : cap <= isize_max pl).

Local Definition r_bytes := Ref_bytes pl PB mo fin cap mem rep a0 HC Hcap.

Lemma f_take_len : forall n env l pos,
  match f_take n env l pos with FOk b _ _ _ => len b = n | FErr _ _ _ _ => True end.
Proof.
  intros n env [|h t] pos; cbn [f_take]; [exact I|].
  destruct (N.ltb_spec (len (h :: t)) n); [exact I|]. rewrite len_take; lia.
Qed.

Lemma Ref_text_poke : Ref (vrel view_text_poke (ok_text_poke mo mem)) (parse_text_poke pl PB) (f_text_poke pl).
Proof.
  unfold parse_text_poke, f_text_poke; steps. cbv zeta.
  pose proof (round_up_bound (x0 + x1)) as Hup.
  set (full := round_up_mod (x0 + x1) 4 8) in *.
  eapply Ref_bind.
  { apply Ref_post with (P := fun b => len b = full); [intros; apply f_take_len|apply r_bytes]. }
  intros c b [[<- Hok] Hlen] p l pos Hr Hw. unfold fbind, f_event, fret.
  intros Hev.
  assert (G : exists u v, cow_split_at 1 c x0 = Ok (u, v) /\
    cow_list u = take x0 (cow_list c) /\ cow_list v = drop x0 (cow_list c) /\
    bok mo mem u /\ bok mo mem v).
  { destruct c as [a d|d]; cbn [cow_list cow_split_at bok] in *.
    - replace (len d <? x0) with false by (symmetry; apply N.ltb_ge; lia).
      rewrite N.mul_1_l. eexists; eexists; split; [reflexivity|]. cbn [cow_list bok].
      repeat split; [now apply mem_at_take|now apply mem_at_drop].
    - assert (Hne : (x0 =? 0) || (x0 =? full) = false).
      { destruct ((x0 =? 0) || (x0 =? full)); [|reflexivity].
        inversion Hev; subst. congruence. }
      apply orb_false_iff in Hne as [Hn1 Hn2]. rewrite Hn1, Hlen, Hn2.
      replace (full <? x0) with false by (symmetry; apply N.ltb_ge; lia).
      eexists; eexists; split; [reflexivity|]. cbn. auto. }
  destruct G as (u & v & E1 & Eu & Ev & Hu & Hv).
  unfold bind, lift. rewrite E1. cbn [snd fst].
  destruct (truncate_prefix mo mem v x1) as (v' & E2 & Ev' & Hv').
  { rewrite Ev, len_drop; lia. }
  rewrite E2. cbn [ret]. eexists; exists p; split; [reflexivity|].
  split; [|now apply step_refl]. split; [|split; cbn; auto].
  unfold view_text_poke; cbn. now rewrite Eu, Ev', Ev.
Qed.

Lemma r_slice_u64 : forall n,
  Ref (srel mem pl fl_u64) (parse_slice pl PB (elem_u64 pl) n) (f_array pl fl_u64 n).
Proof.
  apply (Ref_slice pl PB mo fin cap mem rep a0 HC Hcap (elem_u64 pl) fl_u64);
    cbn [el_size fl_size elem_u64 fl_u64]; try lia; try reflexivity.
  exact r_u64.
Qed.

Lemma r_slice_ns : forall n,
  Ref (srel mem pl fl_ns) (parse_slice pl PB (elem_ns pl) n) (f_array pl fl_ns n).
Proof.
  apply (Ref_slice pl PB mo fin cap mem rep a0 HC Hcap (elem_ns pl) fl_ns);
    cbn [el_size fl_size elem_ns fl_ns]; try lia; try reflexivity.
  eapply Ref_ext; [intros; apply f_ns_eq|]. cbn [el_parse elem_ns]. unfold parse_ns_entry.
  steps. done.
Qed.

Lemma r_slice_branch : forall n,
  Ref (srel mem pl fl_branch) (parse_slice pl PB (elem_branch pl) n) (f_array pl fl_branch n).
Proof.
  apply (Ref_slice pl PB mo fin cap mem rep a0 HC Hcap (elem_branch pl) fl_branch);
    cbn [el_size fl_size elem_branch fl_branch]; try lia; try reflexivity.
  eapply Ref_ext; [intros; apply f_branch_eq|]. cbn [el_parse elem_branch]. unfold parse_branch_entry.
  steps. done.
Qed.

Lemma Ref_namespaces : Ref (vrel view_namespaces (ok_namespaces mem pl)) (parse_namespaces pl PB) (f_namespaces pl).
Proof.
  unfold parse_namespaces, f_namespaces; steps.
  eapply Ref_bind; [apply r_slice_ns|]. intros c l [<- Hok]. done. split; [reflexivity|exact Hok].
Qed.

Lemma Ref_read_group : Ref (vrel view_read_group (ok_read_group mem pl)) (parse_read_group pl PB) (f_read_group pl).
Proof.
  unfold parse_read_group, f_read_group; next. cbv zeta.
  destruct (negb (contains (read_format x) RF_GROUP)); [apply Ref_fail|].
  destruct (negb (difference (read_format x) RF_ALL =? 0)); [apply Ref_fail|].
  steps. unfold checked_mul.
  destruct (N.leb_spec (as_usize pl x0 * element_len (read_format x)) (usize_max pl)) as [H|H].
  - replace (usize_max pl <? as_usize pl x0 * element_len (read_format x)) with false
      by (symmetry; apply N.ltb_ge; lia).
    eapply Ref_bind; [apply r_slice_u64|]. intros c l [<- Hok]. done. split; [reflexivity|exact Hok].
  - replace (usize_max pl <? as_usize pl x0 * element_len (read_format x)) with true
      by (symmetry; apply N.ltb_lt; lia).
    apply Ref_fail.
Qed.

Lemma Ref_registers : forall mask,
  Ref (vrel view_registers (ok_registers mem pl)) (parse_registers pl PB mask) (f_registers pl mask).
Proof.
  intros mask. unfold parse_registers, f_registers; steps.
  eapply Ref_bind; [apply r_slice_u64|]. intros c l [<- Hok]. done. split; [reflexivity|exact Hok].
Qed.

Lemma Ref_sample_read : Ref (vrel view_read_group (ok_read_group mem pl)) (parse_sample_read pl PB) (f_sample_read pl).
Proof.
  unfold parse_sample_read, f_sample_read; next.
  destruct (contains (read_format x) RF_GROUP); [apply Ref_read_group|].
  eapply Ref_bind; [apply Ref_read_value|]. intros v ? <-. done. split; [|exact I].
  unfold view_read_group, group_of_value, f_group_of_value; cbn. reflexivity.
Qed.

Lemma Ref_callchain : Ref (vrel cow_list (sok mem pl fl_u64)) (parse_callchain pl PB) (f_callchain pl).
Proof. unfold parse_callchain, f_callchain; steps. apply r_slice_u64. Qed.

Lemma Ref_raw : Ref (vrel cow_list (bok mo mem)) (parse_raw pl PB) (f_raw pl).
Proof.
  unfold parse_raw, f_raw. apply (Ref_padded PB mo fin cap mem rep a0 HC); [lia|].
  steps. apply r_bytes.
Qed.

Lemma Ref_lbr : forall hw,
  Ref (vrel lbr_view (fun x => sok mem pl fl_branch (fst x))) (parse_lbr pl PB hw) (f_lbr pl hw).
Proof.
  intros hw. unfold parse_lbr, f_lbr; steps.
  eapply Ref_bind; [apply r_slice_branch|]. intros c l [<- Hok]. done. split; [reflexivity|exact Hok].
Qed.

Lemma Ref_stack_user : Ref (vrel cow_list (bok mo mem)) (parse_stack_user pl PB) (f_stack_user pl).
Proof.
  unfold parse_stack_user, f_stack_user; steps. cbv zeta.
  eapply Ref_bind; [apply r_bytes|]. intros c l [<- Hok].
  eapply Ref_bind with (R := eq).
  { destruct (as_usize pl x =? 0); [done|]. steps. done. }
  intros k ? <-. destruct (N.ltb_spec (len (cow_list c)) k) as [H|H]; [apply Ref_fail|].
  apply Ref_lift_ok. unfold stack_truncate. destruct c as [a d|d]; cbn [cow_list] in *.
  - replace (len d <? k) with false by (symmetry; apply N.ltb_ge; lia).
    eexists; split; [reflexivity|]. split; [reflexivity|]. cbn in *. now apply mem_at_take.
  - eexists; split; [reflexivity|]. split; [reflexivity|]. exact Hok.
Qed.

Lemma Ref_sample_aux : Ref (vrel cow_list (bok mo mem)) (parse_sample_aux pl PB) (f_sample_aux pl).
Proof. unfold parse_sample_aux, f_sample_aux; steps. apply r_bytes. Qed.

Lemma Ref_sample : Ref (vrel view_sample (ok_sample mo mem pl)) (parse_sample pl PB) (f_sample pl).
Proof.
  unfold parse_sample, f_sample. next. cbv zeta.
  Ltac vnext L := eapply Ref_bind; [apply Ref_parse_if_v; apply L|];
    let x := fresh "v" in let y := fresh "y" in
    let H := fresh "Hok" in intros x y [<- H].
  steps. eapply Ref_bind. { apply Ref_parse_if_eq. steps. done. } intros ? ? <-.
  next. vnext Ref_sample_read. vnext Ref_callchain. vnext Ref_raw. vnext Ref_lbr.
  vnext Ref_registers. vnext Ref_stack_user. steps. vnext Ref_registers.
  steps. vnext Ref_sample_aux. done.
  split.
  - unfold view_sample; cbn. destruct v2 as [[l h]|]; reflexivity.
  - unfold ok_sample; cbn. destruct v2 as [[l h]|]; repeat split; assumption.
Qed.

End RefRecords.
