(** Theorems: what of the configuration matters (C73). *)
From Coq Require Import NArith List Bool Lia.
From Verif Require Import Base BaseFacts Types Platform Config Matter Buf Parser Contract Refine Flat.
From Verif Require Import Instances Records Sample Record Attr Keep ConfFacts Twin Client Spec FrameFacts Wire ExData PropsFrame PropsSafe.
Import ListNotations.
Open Scope N_scope.

(** The parser [p] under another configuration. *)
Definition under {S : Type} (c : config) (p : parser S) : parser S := mkParser c (p_buf p) (p_off p) (p_log p).

(** [m] cannot tell the configuration of [p] from [d]: the same result, and the parser left in the same state. *)
Definition cannot_tell {S A : Type} (m : M S A) (p : parser S) (d : config) : Prop :=
  m (under d p) = let (r, p') := m p in (r, under d p').

Lemma blind_tell : forall S A (m : M S A) p d, kept m -> blind (just (p_cfg p) d) m -> cannot_tell m p d.
Proof.
  intros S A m p d Hk H. unfold cannot_tell. specialize (H p (under d p)).
  pose proof (Hk p) as K1. pose proof (Hk (under d p)) as K2.
  destruct (m p) as [r p'], (m (under d p)) as [r2 q']; cbn [snd under p_cfg] in K1, K2.
  assert (H' : r = r2 /\ p_buf p' = p_buf q' /\ p_off p' = p_off q' /\ p_log p' = p_log q').
  { assert (Hp : paired (just (p_cfg p) d) p (under d p)) by (repeat split).
    specialize (H Hp). unfold paired in H.
    destruct r as [x|e| |], r2 as [y|f| |]; try contradiction; repeat split; try (now apply H); f_equal; now apply H. }
  destruct H' as (<- & E1 & E2 & E3). f_equal. destruct q' as [c b o l]. cbn in *. unfold under. now subst.
Qed.

Lemma tell_bind : forall S A B (m : M S A) (k : A -> M S B) p d, cannot_tell m p d ->
  (forall a p', m p = (Ok a, p') -> cannot_tell (k a) p' d) -> cannot_tell (bind m k) p d.
Proof.
  intros S A B m k p d Hm Hk. unfold cannot_tell, bind in *. rewrite Hm.
  destruct (m p) as [[a|e| |] p']; try reflexivity. now apply Hk.
Qed.

(** The parsers that ask for nothing but the byte order of the data. *)
Inductive plain (pl : platform) {S : Type} (PB : parsebuf S) : forall A : Type, M S A -> Prop :=
| pln_mmap : plain pl PB _ (parse_mmap pl PB)
| pln_lost : plain pl PB _ (parse_lost pl PB)
| pln_comm : plain pl PB _ (parse_comm pl PB)
| pln_exit : plain pl PB _ (parse_exit pl PB)
| pln_throttle : plain pl PB _ (parse_throttle pl PB)
| pln_aux : plain pl PB _ (parse_aux pl PB)
| pln_itrace_start : plain pl PB _ (parse_itrace_start pl PB)
| pln_lost_samples : plain pl PB _ (parse_lost_samples pl PB)
| pln_namespaces : plain pl PB _ (parse_namespaces pl PB)
| pln_ksymbol : plain pl PB _ (parse_ksymbol pl PB)
| pln_bpf_event : plain pl PB _ (parse_bpf_event pl PB)
| pln_cgroup : plain pl PB _ (parse_cgroup pl PB)
| pln_text_poke : plain pl PB _ (parse_text_poke pl PB)
| pln_aux_output_hw_id : plain pl PB _ (parse_aux_output_hw_id pl PB)
| pln_registers : forall n, plain pl PB _ (parse_registers pl PB n)
| pln_header : plain pl PB _ (parse_header pl PB)
| pln_attr : plain pl PB _ (parse_attr pl PB)
| pln_u8 : plain pl PB _ (parse_u8 PB)
| pln_u16 : plain pl PB _ (parse_u16 pl PB)
| pln_u32 : plain pl PB _ (parse_u32 pl PB)
| pln_u64 : plain pl PB _ (parse_u64 pl PB)
| pln_array : forall n, plain pl PB _ (parse_array PB n)
| pln_rest : plain pl PB _ (parse_rest PB)
| pln_string : plain pl PB _ (parse_rest_trim_nul PB)
| pln_skip : forall n, plain pl PB _ (parse_bytes_ignored PB n)
| pln_bytes : forall n, plain pl PB _ (parse_bytes pl PB n)
| pln_slice_u64 : forall n, plain pl PB _ (parse_slice pl PB (elem_u64 pl) n)
| pln_slice_ns : forall n, plain pl PB _ (parse_slice pl PB (elem_ns pl) n)
| pln_slice_branch : forall n, plain pl PB _ (parse_slice pl PB (elem_branch pl) n).

(** [asks pl PB A m R]: of the configuration, [m] asks for the byte order and what [R] compares. *)
Inductive asks (pl : platform) {S : Type} (PB : parsebuf S) : forall A : Type, M S A -> (config -> config -> Prop) -> Prop :=
| ask_plain : forall A m, plain pl PB A m -> asks pl PB A m (fun _ _ => True)
| ask_sample : asks pl PB _ (parse_sample pl PB) same_sample
| ask_sample_id : asks pl PB _ (parse_sample_id pl PB) same_ids
| ask_read : asks pl PB _ (parse_read pl PB) (fun c d => read_format c = read_format d)
| ask_read_value : asks pl PB _ (parse_read_value pl PB) (fun c d => read_format c = read_format d)
| ask_read_group : asks pl PB _ (parse_read_group pl PB) (fun c d => read_format c = read_format d)
| ask_regs_user : asks pl PB _ (parse_regs_user pl PB) (fun c d => c_regs_user c = c_regs_user d)
| ask_regs_intr : asks pl PB _ (parse_regs_intr pl PB) (fun c d => c_regs_intr c = c_regs_intr d)
| ask_switch_cpu_wide : asks pl PB _ (parse_switch_cpu_wide pl PB) (fun c d => N.testbit (misc c) 13 = N.testbit (misc d) 13)
| ask_mmap2 : asks pl PB _ (parse_mmap2 pl PB) (fun c d => N.testbit (misc c) 14 = N.testbit (misc d) 14).

(** Every public parser is listed; [split_at] hands the configuration itself on. *)
Lemma public_asks : forall pl S (PB : parsebuf S) A m, public pl PB A m ->
  (exists R, asks pl PB A m R) \/ exists n, existT (fun A => M S A) A m = existT (fun A => M S A) _ (split_at PB n).
Proof.
  intros pl S PB A m H. destruct H; try (left; eexists; solve [constructor; constructor|constructor]). right. now exists n.
Qed.

Theorem C73_parts : forall pl S (PB : parsebuf S) A m R p d, asks pl PB A m R -> same_order pl (p_cfg p) d ->
  R (p_cfg p) d -> cannot_tell m p d.
Proof.
  intros pl S PB A m R p d Hm Ho HR. set (c := p_cfg p) in *.
  assert (Hj : forall a b, just c d a b -> same_order pl a b) by (intros a b [-> ->]; exact Ho).
  assert (Hr : forall a b, just c d a b -> R a b) by (intros a b [-> ->]; exact HR).
  destruct Hm as [A m Hm| | | | | | | | |].
  - destruct Hm; apply blind_tell.
    + apply kept_mmap.
    + now apply blind_mmap.
    + apply kept_lost.
    + now apply blind_lost.
    + apply kept_comm.
    + now apply blind_comm.
    + apply kept_exit.
    + now apply blind_exit.
    + apply kept_throttle.
    + now apply blind_throttle.
    + apply kept_aux.
    + now apply blind_aux.
    + apply kept_itrace_start.
    + now apply blind_itrace_start.
    + apply kept_lost_samples.
    + now apply blind_lost_samples.
    + apply kept_namespaces.
    + now apply blind_namespaces.
    + apply kept_ksymbol.
    + now apply blind_ksymbol.
    + apply kept_bpf_event.
    + now apply blind_bpf_event.
    + apply kept_cgroup.
    + now apply blind_cgroup.
    + apply kept_text_poke.
    + now apply blind_text_poke.
    + apply kept_aux_output_hw_id.
    + now apply blind_aux_output_hw_id.
    + apply kept_registers.
    + now apply blind_registers.
    + apply kept_header.
    + now apply blind_header.
    + apply kept_attr.
    + now apply blind_attr.
    + apply kept_u8.
    + now apply blind_u8.
    + apply kept_u16.
    + now apply blind_u16.
    + apply kept_u32.
    + now apply blind_u32.
    + apply kept_u64.
    + now apply blind_u64.
    + apply kept_array.
    + now apply blind_array.
    + apply kept_rest.
    + now apply blind_rest.
    + apply kept_string.
    + now apply blind_string.
    + apply kept_skip.
    + now apply blind_ignored.
    + apply kept_bytes.
    + now apply blind_bytes.
    + apply kept_slice_u64.
    + now apply blind_slice_u64.
    + apply kept_slice_ns.
    + now apply blind_slice_ns.
    + apply kept_slice_branch.
    + now apply blind_slice_branch.
  - apply blind_tell; [apply kept_sample|now apply blind_sample].
  - apply blind_tell; [apply kept_sample_id|now apply blind_sample_id].
  - apply blind_tell; [apply kept_read|now apply blind_read].
  - apply blind_tell; [apply kept_read_value|now apply blind_read_value].
  - apply blind_tell; [apply kept_read_group|now apply blind_read_group].
  - apply blind_tell; [apply kept_regs_user|now apply blind_regs_user].
  - apply blind_tell; [apply kept_regs_intr|now apply blind_regs_intr].
  - apply blind_tell; [apply kept_switch_cpu_wide|now apply blind_switch_cpu_wide].
  - apply blind_tell; [apply kept_mmap2|now apply blind_mmap2].
Qed.

(** A record with the header at hand, for any source whatever. *)
Theorem C73_with_header : forall pl S (PB : parsebuf S) O (V : visitor O) h p d,
  same_for pl (h_type h) (p_cfg p) d -> cannot_tell (parse_record_with_header pl PB V h) p d.
Proof.
  intros pl S PB O V h p d H. apply blind_tell; [apply kept_record_with_header|]. now apply blind_record_with_header.
Qed.

(** A record of the type its header says, for any source whatever. *)
Theorem C73_record : forall pl S (PB : parsebuf S) O (V : visitor O) p d, same_order pl (p_cfg p) d ->
  (forall h p', parse_header pl PB p = (Ok h, p') -> same_for pl (h_type h) (p_cfg p) d) ->
  cannot_tell (parse_record pl PB V) p d.
Proof.
  intros pl S PB O V p d Ho H. unfold parse_record. apply tell_bind.
  - apply (C73_parts pl S PB _ _ (fun _ _ => True)); [constructor; constructor|exact Ho|exact I].
  - intros h p' E. apply C73_with_header. rewrite (kept_ok _ _ _ _ _ _ (kept_header pl PB) E). now apply (H h p').
Qed.

(** The same, with the header in the bytes of the source. *)
Theorem C73_source : forall pl S (PB : parsebuf S) mo fin cap mem p t m s rest a O (V : visitor O) d,
  let o := order_of pl (c_endian (p_cfg p)) in
  t < 2 ^ 32 -> m < 2 ^ 16 -> s < 2 ^ 16 ->
  source PB mo fin cap mem p (w_header o t m s ++ rest) a -> same_for pl t (p_cfg p) d ->
  cannot_tell (parse_record pl PB V) p d.
Proof.
  intros pl S PB mo fin cap mem p t m s rest a O V d o Ht Hm Hs (rep & HC & Hr & Hw) H.
  apply C73_record; [apply H|]. intros h p' E.
  destruct (header_exact pl PB mo fin cap mem rep HC p t m s rest a Ht Hm Hs Hr Hw) as (p1 & E1 & _).
  rewrite E in E1. injection E1 as -> _. exact H.
Qed.

(** The misc bits of the configuration never matter: each record brings its own. *)
Theorem C73_misc : forall pl S (PB : parsebuf S) O (V : visitor O) p m,
  cannot_tell (parse_record pl PB V) p (with_misc (p_cfg p) m).
Proof.
  intros pl S PB O V p m. apply C73_record; [reflexivity|]. intros h p' _.
  unfold same_for, same_ids, same_sample, same_flags, same_order.
  rewrite with_misc_sample_type, with_misc_read_format, with_misc_id_all, with_misc_hw_index.
  repeat split; intros; try apply Forall_forall; reflexivity.
Qed.

(** Nothing in the lists above can be left out: there are bytes that are read
    differently when only that changes. *)
Definition tells (l : list N) (c d : config) : Prop :=
  fst (parse_record pl64 slice_buf keep (on_slice 4096 l c)) <>
  fst (parse_record pl64 slice_buf keep (on_slice 4096 l d)).

(** A configuration with sample_type [st], read_format [rf] and sample_id_all [ia]. *)
Definition conf (st rf : N) (ia hw : bool) (ru ri : N) : config := mkConfig (cf_new rf st ia hw 0) ru ri Little.

(** A record of type [t] whose body is 64 bytes of rising value. *)
Definition rising (t : N) : list N := w_header LE t 0 72 ++ map N.of_nat (seq 1 64).

Theorem C73_sample_needed : forall f, In f sample_flags -> tells (rising 9) (conf 0 0 false false 0 0) (conf f 0 false false 0 0).
Proof.
  intros f H. unfold tells.
  repeat (destruct H as [<-|H]; [intros E; vm_compute in E; discriminate E|]). destruct H.
Qed.

Theorem C73_ids_needed : forall f, In f id_flags -> tells (rising 2) (conf 0 0 true false 0 0) (conf f 0 true false 0 0).
Proof.
  intros f H. unfold tells.
  repeat (destruct H as [<-|H]; [intros E; vm_compute in E; discriminate E|]). destruct H.
Qed.

Theorem C73_others_needed :
  tells (rising 2) (conf SF_TID 0 true false 0 0) (conf SF_TID 0 false false 0 0) /\
  (forall k, k < 6 -> tells (rising 8) (conf 0 0 true false 0 0) (conf 0 (2 ^ k) true false 0 0) /\
                      tells (rising 9) (conf SF_READ 0 true false 0 0) (conf SF_READ (2 ^ k) true false 0 0)) /\
  tells (w_header LE 9 0 40 ++ repeat 0 32) (conf SF_BRANCH_STACK 0 false false 0 0) (conf SF_BRANCH_STACK 0 false true 0 0) /\
  tells (rising 9) (conf SF_REGS_USER 0 false false 1 0) (conf SF_REGS_USER 0 false false 2 0) /\
  tells (rising 9) (conf SF_REGS_INTR 0 false false 0 1) (conf SF_REGS_INTR 0 false false 0 2) /\
  tells (rising 2) (conf 0 0 false false 0 0) (with_endian (conf 0 0 false false 0 0) Big).
Proof.
  unfold tells. repeat apply conj; try (intros E; vm_compute in E; discriminate E).
  intros k Hk. assert (H : In k [0; 1; 2; 3; 4; 5]) by (cbn; lia).
  split; repeat (destruct H as [<-|H]; [intros E; vm_compute in E; discriminate E|]); destruct H.
Qed.

(** A sample without counter values and registers: read_format, register masks,
    sample_id_all, WEIGHT_STRUCT and misc make no difference. *)
Example C73_example :
  let c := conf (SF_IP + SF_TID) 0 true false 0 0 in
  let d := mkConfig (cf_new 63 (SF_IP + SF_TID + SF_WEIGHT_STRUCT) false true 5) 7 8 DynLittle in
  let p := on_slice 4096 (rising 9) c in
  source slice_buf Whole eof_error (len (rising 9)) (memory_of 4096 (rising 9)) p
    (w_header LE 9 0 72 ++ map N.of_nat (seq 1 64)) 4096 /\
  same_for pl64 9 c d /\ read_format c <> read_format d /\ sample_id_all c <> sample_id_all d /\
  misc c <> misc d /\ sample_type c <> sample_type d /\
  cannot_tell (parse_record pl64 slice_buf keep) p d /\
  exists s m, fst (parse_record pl64 slice_buf keep p) = Ok (BSample s, m) /\ s_ip s = Some 578437695752307201.
Proof.
  cbv zeta.
  assert (H : same_for pl64 9 (conf (SF_IP + SF_TID) 0 true false 0 0)
    (mkConfig (cf_new 63 (SF_IP + SF_TID + SF_WEIGHT_STRUCT) false true 5) 7 8 DynLittle)).
  { split; [reflexivity|]. split; [|split; [contradiction|discriminate]]. intros _.
    split; [unfold same_flags, sample_flags; repeat (apply Forall_cons; [vm_compute; reflexivity|]); apply Forall_nil|].
    split; [|split; [|split]]; intros E; vm_compute in E; discriminate E. }
  assert (Hs : source slice_buf Whole eof_error (len (rising 9)) (memory_of 4096 (rising 9))
    (on_slice 4096 (rising 9) (conf (SF_IP + SF_TID) 0 true false 0 0)) (w_header LE 9 0 72 ++ map N.of_nat (seq 1 64)) 4096).
  { apply slice_source; [vm_compute; repeat constructor|reflexivity|apply N.le_refl|apply memory_of_at]. }
  split; [exact Hs|]. split; [exact H|]. do 4 (split; [intros E; vm_compute in E; discriminate E|]). split.
  - apply (C73_source pl64 slice slice_buf Whole eof_error (len (rising 9)) (memory_of 4096 (rising 9)) _ 9 0 72
      (map N.of_nat (seq 1 64)) 4096); try reflexivity; [exact Hs|exact H].
  - eexists. eexists. split; vm_compute; reflexivity.
Qed.

Print Assumptions C73_parts.
Print Assumptions C73_with_header.
Print Assumptions C73_record.
Print Assumptions C73_source.
Print Assumptions C73_misc.
Print Assumptions C73_sample_needed.
Print Assumptions C73_ids_needed.
Print Assumptions C73_others_needed.
