(** Theorems about the configuration and unsupported read formats (C14, C15). *)
From Coq Require Import NArith List Bool Lia.
From Verif Require Import Base BaseFacts Types Platform Config Buf Parser Contract Records Attr Bits.
From Verif Require Import Bitfield AccessFacts ConfFacts Errs ExData.
Import ListNotations.
Open Scope N_scope.

(** ** C14: the configuration made from an attr reports what the attr says. *)

(** The flag lies after 18 others: C puts the first bit field at the low end of the
    word on little-endian hosts and at the high end on big-endian ones. *)
Definition flag_bit (h : order) (n : N) : N := match h with LE => n | BE => 63 - n end.

Theorem C14_attr : forall h e a,
  at_sample_type a < 2 ^ 40 ->
  let c := config_of_attr h e a in
  sample_type c = at_sample_type a /\
  (forall i, i < 5 -> N.testbit (read_format c) i = N.testbit (at_read_format a) i) /\
  sample_id_all c = N.testbit (at_bits a) (flag_bit h 18) /\
  branch_hw_index c = N.testbit (at_branch_sample_type a) 17 /\
  c_regs_user c = at_sample_regs_user a /\ c_regs_intr c = at_sample_regs_intr a /\
  misc c = 0 /\ c_endian c = e.
Proof.
  intros h e a Hs c.
  unfold c, config_of_attr, sample_type, read_format, sample_id_all, branch_hw_index, misc.
  cbn [c_flags c_regs_user c_regs_intr c_endian].
  destruct (cf_new_spec (at_read_format a) (at_sample_type a) (at_sample_id_all h a)
    (negb (N.land (at_branch_sample_type a) PERF_SAMPLE_BRANCH_HW_INDEX =? 0)) 0)
    as (-> & -> & -> & -> & ->).
  split; [now apply N.mod_small|]. split.
  { intros i Hi. rewrite pack_bit. replace (i <? 6) with true by (symmetry; apply N.ltb_lt; lia).
    replace (i =? 5) with false by (symmetry; apply N.eqb_neq; lia).
    cbn [andb]. apply orb_false_r. }
  split.
  { unfold at_sample_id_all. rewrite get_bits_field, bit_nonzero by lia. now destruct h. }
  split.
  { unfold PERF_SAMPLE_BRANCH_HW_INDEX. rewrite land_pow2.
    destruct (N.testbit (at_branch_sample_type a) 17); reflexivity. }
  repeat split.
Qed.

(** With a known read format the whole of it is kept. *)
Theorem C14_read_format : forall h e a,
  at_read_format a < 2 ^ 5 -> read_format (config_of_attr h e a) = at_read_format a.
Proof.
  intros h e a H. unfold read_format, config_of_attr. cbn [c_flags].
  rewrite (proj1 (cf_new_spec _ _ _ _ _)). now apply pack_small.
Qed.

(** Above 2^40 the low 40 bits are left. *)
Theorem C14_high_bits : forall h e a,
  sample_type (config_of_attr h e a) = at_sample_type a mod 2 ^ 40.
Proof.
  intros h e a. unfold sample_type, config_of_attr. cbn [c_flags].
  apply (proj1 (proj2 (cf_new_spec _ _ _ _ _))).
Qed.

(** The default configuration says that nothing is recorded. *)
Theorem C14_default : forall e,
  let c := config_default e in
  sample_type c = 0 /\ read_format c = 0 /\ sample_id_all c = false /\ branch_hw_index c = false /\
  c_regs_user c = 0 /\ c_regs_intr c = 0 /\ misc c = 0 /\ c_endian c = e.
Proof. intros e. repeat split. Qed.

(** Changes made to a configuration after that. *)
Inductive update : Type :=
| SetMisc (m : N) | SetSampleType (s : N) | SetReadFormat (r : N) | SetEndian (e : endian).

Definition apply (c : config) (u : update) : config :=
  match u with
  | SetMisc m => with_misc c m
  | SetSampleType s => with_sample_type c s
  | SetReadFormat r => with_read_format c r
  | SetEndian e => with_endian c e
  end.

Definition update_ok (u : update) : Prop :=
  match u with
  | SetMisc m => m < 2 ^ 16 | SetSampleType s => s < 2 ^ 40 | SetReadFormat r => r < 2 ^ 5
  | SetEndian _ => True
  end.

(** The last thing that [pick] finds among the updates, or [d]. *)
Definition latest {A : Type} (pick : update -> option A) (us : list update) (d : A) : A :=
  fold_left (fun d u => match pick u with Some x => x | None => d end) us d.

(** After any sequence of changes every setting is as the last change of that very
    setting left it, or as it was. *)
Theorem C14_updates : forall us c, Forall update_ok us ->
  let c' := fold_left apply us c in
  misc c' = latest (fun u => match u with SetMisc m => Some m | _ => None end) us (misc c) /\
  sample_type c' =
    latest (fun u => match u with SetSampleType s => Some s | _ => None end) us (sample_type c) /\
  read_format c' =
    latest (fun u => match u with SetReadFormat r => Some r | _ => None end) us (read_format c) /\
  c_endian c' = latest (fun u => match u with SetEndian e => Some e | _ => None end) us (c_endian c) /\
  sample_id_all c' = sample_id_all c /\ branch_hw_index c' = branch_hw_index c /\
  c_regs_user c' = c_regs_user c /\ c_regs_intr c' = c_regs_intr c.
Proof.
  induction us as [|u us IH]; intros c H; [repeat split|].
  inversion H as [|u' us' Hu Hus]; subst. cbn [fold_left]. unfold latest. cbn [fold_left].
  destruct (IH (apply c u) Hus) as (E1 & E2 & E3 & E4 & E5 & E6 & E7 & E8). cbv zeta in *.
  unfold latest in *. rewrite E1, E2, E3, E4, E5, E6, E7, E8.
  destruct u as [m|s|r|e]; cbn [apply update_ok] in *.
  - rewrite with_misc_misc, with_misc_sample_type, with_misc_read_format, with_misc_id_all,
      with_misc_hw_index by exact Hu. repeat split.
  - destruct (with_sample_type_spec c s) as (-> & -> & -> & -> & ->).
    rewrite (N.mod_small s) by exact Hu. repeat split.
  - destruct (with_read_format_spec c r) as (-> & -> & -> & -> & ->).
    rewrite pack_small by exact Hu. repeat split.
  - repeat split.
Qed.

(** An attr with everything set that shapes records, and some that does not. *)
Definition ex_attr : attr :=
  mkAttr 1 136 7 1000 (2 ^ 0 + 2 ^ 4 + 2 ^ 16 + 2 ^ 39) 23 (2 ^ 18 + 2 ^ 0) 1 0 5 6 (2 ^ 17 + 2 ^ 3)
    255 4096 0 511 0 0 0 0 0.

Example C14_example :
  let c := fold_left apply [SetMisc 0x4001; SetReadFormat 8; SetMisc 2] (config_of_attr LE Big ex_attr) in
  sample_type c = 2 ^ 0 + 2 ^ 4 + 2 ^ 16 + 2 ^ 39 /\ read_format c = 8 /\ misc c = 2 /\
  sample_id_all c = true /\ branch_hw_index c = true /\ c_regs_user c = 255 /\ c_regs_intr c = 511.
Proof. vm_compute. repeat split. Qed.

(** ** C15: unsupported read formats.

    The configurations a parser may have that come from the attr [a]. *)
Definition from_attr (a : attr) (c : config) : Prop :=
  exists h e, c = config_of_attr h e a \/ exists m, c = with_misc (config_of_attr h e a) m.

Lemma from_attr_format : forall a c, from_attr a c -> read_format c = pack_read_format (at_read_format a).
Proof.
  intros a c [h [e [->|[m ->]]]]; rewrite ?with_misc_read_format; unfold read_format, config_of_attr;
    cbn [c_flags]; apply (proj1 (cf_new_spec _ _ _ _ _)).
Qed.

Lemma unknown_big : forall r i, 5 <= i -> N.testbit r i = true -> 2 ^ 5 <= r.
Proof.
  intros r i Hi H. destruct (N.lt_ge_cases r (2 ^ 5)) as [Hr|Hr]; [|exact Hr].
  rewrite (testbit_high r 5 i Hr Hi) in H. discriminate.
Qed.

(** Any unknown bit makes both parsers fail, with the parser as it was. *)
Theorem C15_rejected : forall pl S (PB : parsebuf S) p a i,
  from_attr a (p_cfg p) -> 5 <= i -> N.testbit (at_read_format a) i = true ->
  (exists e, parse_read_value pl PB p = (Err e, p) /\ e_kind e = KUnsupportedConfig) /\
  (exists e, parse_read_group pl PB p = (Err e, p) /\ e_kind e = KUnsupportedConfig).
Proof.
  intros pl S PB p a i Hc Hi Hb. apply from_attr_format in Hc.
  pose proof (pack_unknown _ (unknown_big _ _ Hi Hb)) as Hd. rewrite <- Hc in Hd.
  apply N.eqb_neq in Hd.
  unfold parse_read_value, parse_read_group, bind, get_cfg. cbv zeta. rewrite Hd. cbn [negb].
  split.
  - destruct (contains _ _); eexists; (split; [unfold fail; reflexivity|reflexivity]).
  - destruct (contains _ _); cbn [negb]; eexists; (split; [unfold fail; reflexivity|reflexivity]).
Qed.

(** So does asking for the wrong one of the two. *)
Theorem C15_wrong_kind : forall pl S (PB : parsebuf S) p a,
  from_attr a (p_cfg p) ->
  if N.testbit (at_read_format a) 3
  then exists e, parse_read_value pl PB p = (Err e, p) /\ e_kind e = KUnsupportedConfig
  else exists e, parse_read_group pl PB p = (Err e, p) /\ e_kind e = KUnsupportedConfig.
Proof.
  intros pl S PB p a Hc. apply from_attr_format in Hc.
  assert (E : contains (read_format (p_cfg p)) RF_GROUP = N.testbit (at_read_format a) 3).
  { rewrite Hc. unfold RF_GROUP. rewrite contains_pow2, pack_bit.
    change (3 <? 6) with true. change (3 =? 5) with false. cbn [andb]. apply orb_false_r. }
  unfold parse_read_value, parse_read_group, bind, get_cfg. cbv zeta. rewrite E.
  destruct (N.testbit (at_read_format a) 3); cbn [negb]; eexists; (split; [unfold fail; reflexivity|reflexivity]).
Qed.

(** Otherwise such an error is the source's own. *)
Definition supported (e : perror) : Prop := e_kind e <> KUnsupportedConfig.

Theorem C15_accepted : forall pl S (PB : parsebuf S) p a e,
  buf_errs supported PB ->
  from_attr a (p_cfg p) -> (forall i, 5 <= i -> N.testbit (at_read_format a) i = false) ->
  if N.testbit (at_read_format a) 3
  then fst (parse_read_group pl PB p) = Err e -> supported e
  else fst (parse_read_value pl PB p) = Err e -> supported e.
Proof.
  intros pl S PB p a e HB Hc Hk. apply from_attr_format in Hc.
  assert (Hr : at_read_format a < 2 ^ 5).
  { destruct (N.lt_ge_cases (at_read_format a) (2 ^ 5)) as [H|H]; [exact H|]. exfalso.
    assert (Hl : 5 <= N.log2 (at_read_format a)) by (apply N.log2_le_pow2; [|exact H]; change (2 ^ 5) with 32 in H; lia).
    pose proof (N.bit_log2 (at_read_format a)) as Hb. rewrite (Hk _ Hl) in Hb.
    assert (at_read_format a <> 0) by (intros E; rewrite E in H; discriminate H || (change (2 ^ 5) with 32 in H; lia)).
    now specialize (Hb H0). }
  rewrite (pack_small _ Hr) in Hc.
  assert (Hd : difference (at_read_format a) RF_ALL = 0).
  { apply bits_eq; intros i. unfold difference. rewrite N.ldiff_spec, N.bits_0.
    destruct (N.ltb_spec i 5) as [Hi|Hi]; [|now rewrite Hk].
    replace (N.testbit RF_ALL i) with true; [apply andb_false_r|].
    change RF_ALL with (N.ones 5). now rewrite N.ones_spec_low. }
  assert (Hu : errs supported (parse_u64 pl PB)) by now apply errs_u64.
  assert (Hi : forall k, supported (custom_error KInvalidRecord k)) by (intros k H; discriminate H).
  destruct (N.testbit (at_read_format a) 3) eqn:E3.
  - destruct (parse_read_group pl PB p) as [r p'] eqn:E. cbn [fst]. intros ->.
    unfold parse_read_group, bind at 1, get_cfg in E. cbv zeta in E. rewrite Hc in E.
    unfold RF_GROUP in E. rewrite contains_pow2, E3, Hd in E. cbn [negb N.eqb] in E.
    revert E. match goal with |- ?m p = _ -> _ => assert (Hm : errs supported m) end.
    { apply errs_bind; [exact Hu|]. intros nr. cbv zeta. apply errs_bind; [now apply errs_if|]. intros te.
      apply errs_bind; [now apply errs_if|]. intros tr. destruct (checked_mul _ _ _); [|apply errs_fail, Hi].
      apply errs_bind; [|intros; apply errs_ret]. apply errs_slice; assumption. }
    intros E. apply (Hm p e). now rewrite E.
  - destruct (parse_read_value pl PB p) as [r p'] eqn:E. cbn [fst]. intros ->.
    unfold parse_read_value, bind at 1, get_cfg in E. cbv zeta in E. rewrite Hc in E.
    unfold RF_GROUP in E. rewrite contains_pow2, E3, Hd in E. cbn [negb N.eqb] in E.
    revert E. match goal with |- ?m p = _ -> _ => assert (Hm : errs supported m) end.
    { repeat (apply errs_bind; [first [exact Hu | now apply errs_if]|]; intros ?). apply errs_ret. }
    intros E. apply (Hm p e). now rewrite E.
Qed.

(** The sources of the crate meet the condition. *)
Lemma slice_supported : buf_errs supported slice_buf.
Proof.
  split.
  - intros [a [|x l]] e H; cbn in H; [injection H as <-; discriminate|discriminate].
  - intros s n e H. cbn in H. unfold slice_advance in H. destruct (_ <? _); discriminate.
Qed.

Example C15_example :
  buf_errs supported slice_buf /\
  let a := mkAttr 1 136 7 1000 1 (2 ^ 63) 0 1 0 5 6 0 0 0 0 0 0 0 0 0 0 in
  let p := on_slice 4096 (repeat 1 64) (config_of_attr LE Little a) in
  from_attr a (p_cfg p) /\ N.testbit (at_read_format a) 63 = true /\
  fst (parse_read_value pl64 slice_buf p) = Err (custom_error KUnsupportedConfig MsgReadFormatFlags) /\
  fst (parse_read_value pl64 slice_buf (on_slice 4096 (repeat 1 64) (config_of_attr LE Little ex_attr))) =
    Ok (mkReadValue 23 0x101010101010101 0x101010101010101 0x101010101010101 0x101010101010101
          0x101010101010101).
Proof.
  split; [exact slice_supported|]. cbv zeta.
  split; [exists LE, Little; now left|]. split; [reflexivity|]. split; vm_compute; reflexivity.
Qed.

Print Assumptions C14_attr.
Print Assumptions C14_read_format.
Print Assumptions C14_high_bits.
Print Assumptions C14_default.
Print Assumptions C14_updates.
Print Assumptions C15_rejected.
Print Assumptions C15_wrong_kind.
Print Assumptions C15_accepted.
