(** Two runs on the same bytes under two configurations that are related. *)
From Coq Require Import NArith List Bool Lia.
From Verif Require Import Base Types Platform Config Matter Buf Parser Records Sample Record Attr Flat Refine Keep Bits ConfFacts RtRecord.
Import ListNotations.
Open Scope N_scope.

(** Two parsers in the same place of the same source, their configurations related. *)
Definition paired (R : config -> config -> Prop) {S : Type} (p q : parser S) : Prop :=
  R (p_cfg p) (p_cfg q) /\ p_buf p = p_buf q /\ p_off p = p_off q /\ p_log p = p_log q.

(** Runs that end alike: related values, or the same failure, in the same place. *)
Definition twin (R : config -> config -> Prop) {A : Type} (RA : A -> A -> Prop) {S : Type} (m m' : M S A) : Prop :=
  forall p q, paired R p q ->
    match m p, m' q with
    | (Ok a, p'), (Ok b, q') => RA a b /\ paired R p' q'
    | (Err e, p'), (Err f, q') => e = f /\ paired R p' q'
    | (Panic, p'), (Panic, q') | (Fuel, p'), (Fuel, q') => paired R p' q'
    | _, _ => False
    end.

(** As [twin] with equal values, for one and the same parser. *)
Definition blind (R : config -> config -> Prop) {S A : Type} (m : M S A) : Prop := twin R eq m m.

Section Basics.
Context {R : config -> config -> Prop} {S : Type}.

Lemma twin_bind : forall A B (RA : A -> A -> Prop) (RB : B -> B -> Prop) (m m' : M S A) (k k' : A -> M S B),
  twin R RA m m' -> (forall a b, RA a b -> twin R RB (k a) (k' b)) -> twin R RB (bind m k) (bind m' k').
Proof.
  intros A B RA RB m m' k k' Hm Hk p q H. unfold bind. specialize (Hm p q H).
  destruct (m p) as [[a|e| |] p'], (m' q) as [[b|f| |] q']; try contradiction; try exact Hm. destruct Hm as [Ha Hp]. now apply Hk.
Qed.

Lemma blind_bind : forall A B (m : M S A) (k : A -> M S B),
  blind R m -> (forall a, blind R (k a)) -> blind R (bind m k).
Proof. intros A B m k Hm Hk. apply (twin_bind A B eq eq); [exact Hm|]. intros a b <-. apply Hk. Qed.

Lemma blind_get : forall B (k : config -> M S B),
  (forall c d, R c d -> twin R eq (k c) (k d)) -> blind R (bind get_cfg k).
Proof.
  intros B k H. apply (twin_bind _ _ R eq); [|exact H]. intros p q Hp. unfold get_cfg. split; [apply Hp|exact Hp].
Qed.

Lemma twin_ret : forall A (RA : A -> A -> Prop) a b, RA a b -> twin R RA (@ret S A a) (ret b).
Proof. intros A RA a b H p q Hp. split; assumption. Qed.
Lemma blind_ret : forall A (a : A), blind R (@ret S A a).
Proof. intros A a. now apply twin_ret. Qed.
Lemma blind_fail : forall A e, blind R (@fail S A e).
Proof. intros A e p q H. split; [reflexivity|exact H]. Qed.
Lemma blind_panic : forall A, blind R (@panic S A).
Proof. intros A p q H. exact H. Qed.
Lemma blind_lift : forall A (o : out A), blind R (@lift S A o).
Proof. intros A [a|e| |] p q H; cbn; [split; [reflexivity|exact H]|split; [reflexivity|exact H]|exact H|exact H]. Qed.
Lemma blind_off : blind R (@get_off S).
Proof. intros p q H. split; [apply H|exact H]. Qed.

Lemma blind_loop_pos : forall St B (body : St -> M S (St + B)) n x,
  (forall x, blind R (body x)) -> blind R (loop_pos body n x).
Proof.
  intros St B body n x H. revert x. induction n as [n IH|n IH|]; intros x; cbn [loop_pos]; [| |apply H].
  - apply blind_bind; [apply H|]. intros [y|b]; [|apply blind_ret].
    apply blind_bind; [apply IH|]. intros [z|b]; [apply IH|apply blind_ret].
  - apply blind_bind; [apply IH|]. intros [y|b]; [apply IH|apply blind_ret].
Qed.

Lemma blind_loop : forall St B (body : St -> M S (St + B)) x,
  (forall x, blind R (body x)) -> blind R (loop body x).
Proof.
  intros St B body x H. unfold loop. apply blind_bind; [now apply blind_loop_pos|].
  intros [y|b]; [apply blind_lift|apply blind_ret].
Qed.

Lemma blind_if : forall A b (m : M S A), blind R m -> blind R (parse_if b m).
Proof. intros A [] m H; [apply blind_bind; [exact H|intros; apply blind_ret]|apply blind_ret]. Qed.

(** Read only if [b] holds, and only then is there anything to show. *)
Lemma twin_if : forall A b (m m' : M S A), (b = true -> twin R eq m m') -> twin R eq (parse_if b m) (parse_if b m').
Proof.
  intros A [] m m' H; [|apply blind_ret]. apply (twin_bind _ _ eq eq); [now apply H|]. intros x y <-. apply blind_ret.
Qed.

(** A sub-parser run under configurations related in another way. *)
Lemma twin_sub : forall R2 S2 A (RA : A -> A -> Prop) (m m' : M S2 A) q q',
  twin R2 RA m m' -> paired R2 q q' -> twin R RA (@sub S S2 A m q) (sub m' q').
Proof.
  intros R2 S2 A RA m m' q q' H Hq p p' (Hp & E1 & E2 & E3). unfold sub. specialize (H q q' Hq).
  destruct (m q) as [[a|e| |] r], (m' q') as [[b|f| |] r']; try contradiction;
    try (destruct H as [H H']; split; [exact H|]); repeat split; cbn [p_cfg p_buf p_off p_log]; try assumption;
    f_equal; try assumption; try (now apply H'); now apply H.
Qed.
End Basics.

Lemma twin_mono : forall (R R2 : config -> config -> Prop) S A (m : M S A),
  (forall c, R c c) -> blind R2 m -> (forall c d, R c d -> R2 c d) -> 
  (forall p, p_cfg (snd (m p)) = p_cfg p) -> blind R m.
Proof.
  intros R R2 S A m _ H HR Hk p q (Hp & E). pose proof (H p q (conj (HR _ _ Hp) E)) as H1.
  pose proof (Hk p) as K1. pose proof (Hk q) as K2.
  destruct (m p) as [[a|e| |] p'], (m q) as [[b|f| |] q']; try exact H1; cbn [snd] in *;
    repeat split; try (now apply H1); congruence.
Qed.

Ltac blinds :=
  cbv zeta;
  lazymatch goal with
  | |- twin _ eq (bind get_cfg _) (bind get_cfg _) =>
      apply blind_get; let c := fresh "c" in let d := fresh "d" in let H := fresh "HR" in intros c d H; blinds
  | |- twin _ eq (bind ?m ?k) (bind ?m ?k) => apply blind_bind; [|let x := fresh in intros x]; blinds
  | |- twin _ eq (ret ?a) (ret ?a) => apply blind_ret
  | |- twin _ eq (fail ?e) (fail ?e) => apply blind_fail
  | |- twin _ eq (lift ?o) (lift ?o) => apply blind_lift
  | |- twin _ eq panic panic => apply blind_panic
  | |- twin _ eq get_off get_off => apply blind_off
  | |- twin _ eq (loop _ _) (loop _ _) => apply blind_loop; let x := fresh in intros x; blinds
  | |- twin _ eq (parse_if ?b ?m) (parse_if ?b ?m) => apply blind_if; blinds
  | |- twin _ eq (if ?b then _ else _) (if ?b then _ else _) => destruct b; blinds
  | |- twin _ eq (match ?x with _ => _ end) (match ?y with _ => _ end) => tryif constr_eq x y then (destruct x; blinds) else idtac
  | |- blind _ _ => first [solve [eauto with blind]|unfold blind; blinds]
  | |- twin ?R eq ?m ?m => first [solve [change (blind R m); eauto with blind]|idtac]
  | _ => idtac
  end.

Section Plain.
Context (R : config -> config -> Prop) (pl : platform) (HR : forall c d, R c d -> same_order pl c d).
Context {S : Type} (PB : parsebuf S).

Lemma convert_same : forall c d l, R c d -> convert pl (c_endian c) l = convert pl (c_endian d) l.
Proof. intros c d l H. rewrite !convert_order. now rewrite (HR _ _ H). Qed.
Lemma native_same : forall c d, R c d -> is_native pl (c_endian c) = is_native pl (c_endian d).
Proof.
  intros c d H. apply HR in H. unfold same_order in H.
  destruct pl as [[|] b al], (c_endian c), (c_endian d); try reflexivity; discriminate H.
Qed.

Lemma blind_chunk : blind R (m_chunk PB).
Proof.
  intros p q (Hc & E1 & E2 & E3). unfold m_chunk. rewrite <- E1.
  destruct (pb_chunk PB (p_buf p)) as [[a|e| |] s]; repeat split; assumption.
Qed.
Lemma blind_advance : forall n, blind R (m_advance PB n).
Proof.
  intros n p q (Hc & E1 & E2 & E3). unfold m_advance. rewrite <- E1.
  destruct (pb_advance PB (p_buf p) n) as [[[]|e| |] s]; repeat split; cbn [p_off]; try assumption; now rewrite E2.
Qed.
Lemma blind_hint : blind R (m_hint PB).
Proof. intros p q H. unfold m_hint. split; [f_equal; apply H|exact H]. Qed.
Lemma blind_alloc : forall n, blind R (@m_alloc pl S n).
Proof.
  intros n p q (Hc & E1 & E2 & E3). unfold m_alloc. destruct (isize_max pl <? n); repeat split; cbn [p_log]; try assumption.
  now rewrite E3.
Qed.
Hint Resolve blind_chunk blind_advance blind_hint blind_alloc : blind.

Lemma blind_bound : forall n, blind R (safe_capacity_bound pl PB n).
Proof. intros n. unfold safe_capacity_bound. blinds. Qed.
Lemma blind_cursor : forall n, blind R (cursor_new PB n).
Proof. intros n. unfold cursor_new. blinds. Qed.
Lemma blind_direct : forall n, blind R (parse_bytes_direct PB n).
Proof. intros n. unfold parse_bytes_direct. blinds. Qed.
Lemma blind_to_slice : forall n, blind R (parse_to_slice PB n).
Proof. intros n. unfold parse_to_slice. blinds. Qed.
Hint Resolve blind_bound blind_cursor blind_direct blind_to_slice : blind.
Lemma blind_bytes : forall n, blind R (parse_bytes pl PB n).
Proof. intros n. unfold parse_bytes, parse_bytes_slow. blinds. Qed.
Lemma blind_ignored : forall n, blind R (parse_bytes_ignored PB n).
Proof. intros n. unfold parse_bytes_ignored. blinds. Qed.
Lemma blind_array : forall n, blind R (parse_array PB n).
Proof. intros n. unfold parse_array. blinds. Qed.
Hint Resolve blind_bytes blind_ignored blind_array : blind.

(** The record cursor is made under the configuration at hand. *)
Lemma twin_split : forall n, twin R (paired R) (split_at PB n) (split_at PB n).
Proof.
  intros n. unfold split_at. apply (twin_bind _ _ eq _); [apply blind_cursor|]. intros x y <-.
  apply (twin_bind _ _ R _).
  - intros p q Hp. split; [apply Hp|exact Hp].
  - intros c d Hc. apply twin_ret. now repeat split.
Qed.

Lemma blind_u8 : blind R (parse_u8 PB).
Proof. unfold parse_u8. blinds. Qed.
Lemma blind_u16 : blind R (parse_u16 pl PB).
Proof. unfold parse_u16. blinds. rewrite (convert_same _ _ _ HR0). blinds. Qed.
Lemma blind_u32 : blind R (parse_u32 pl PB).
Proof. unfold parse_u32. blinds. rewrite (convert_same _ _ _ HR0). blinds. Qed.
Lemma blind_u64 : blind R (parse_u64 pl PB).
Proof. unfold parse_u64. blinds. rewrite (convert_same _ _ _ HR0). blinds. Qed.

Lemma blind_rest : blind R (parse_rest PB).
Proof.
  unfold parse_rest. apply blind_bind; [apply blind_chunk|]. intros c. cbv zeta.
  apply blind_bind; [apply blind_advance|]. intros _. apply blind_loop. intros b p q Hp.
  pose proof (blind_chunk p q Hp) as H.
  destruct (m_chunk PB p) as [[x|e| |] p'], (m_chunk PB q) as [[y|f| |] q']; try contradiction; try exact H.
  - destruct H as [<- H]. now apply (blind_bind _ _ _ _ (blind_advance _) (fun _ => blind_ret _ _) p' q').
  - destruct H as [<- H]. destruct (is_eof e); split; try reflexivity; exact H.
Qed.
Hint Resolve blind_u8 blind_u16 blind_u32 blind_u64 blind_rest : blind.
Lemma blind_string : blind R (parse_rest_trim_nul PB).
Proof. unfold parse_rest_trim_nul. blinds. Qed.
Lemma blind_padded : forall A k (m : M S A), blind R m -> blind R (parse_padded PB k m).
Proof. intros A k m H. unfold parse_padded. blinds. Qed.
Lemma blind_slice : forall A (E : elem A) n, blind R (el_parse E PB) -> blind R (parse_slice pl PB E n).
Proof.
  intros A E n H. unfold parse_slice. apply blind_bind.
  - unfold parse_slice_direct. apply blind_get. intros c d Hc. rewrite (native_same _ _ Hc). blinds.
  - unfold parse_repeated. intros [[a l]|]; blinds.
Qed.
Hint Resolve blind_string blind_padded : blind.
Lemma blind_slice_u64 : forall n, blind R (parse_slice pl PB (elem_u64 pl) n).
Proof. intros n. apply blind_slice. cbn [el_parse elem_u64]. blinds. Qed.
Lemma blind_slice_ns : forall n, blind R (parse_slice pl PB (elem_ns pl) n).
Proof. intros n. apply blind_slice. cbn [el_parse elem_ns]. unfold parse_ns_entry. blinds. Qed.
Lemma blind_slice_branch : forall n, blind R (parse_slice pl PB (elem_branch pl) n).
Proof. intros n. apply blind_slice. cbn [el_parse elem_branch]. unfold parse_branch_entry. blinds. Qed.
Hint Resolve blind_slice_u64 blind_slice_ns blind_slice_branch : blind.

Lemma blind_header : blind R (parse_header pl PB).
Proof. unfold parse_header. blinds. Qed.
Lemma blind_lost : blind R (parse_lost pl PB).
Proof. unfold parse_lost. blinds. Qed.
Lemma blind_lost_samples : blind R (parse_lost_samples pl PB).
Proof. unfold parse_lost_samples. blinds. Qed.
Lemma blind_exit : blind R (parse_exit pl PB).
Proof. unfold parse_exit. blinds. Qed.
Lemma blind_throttle : blind R (parse_throttle pl PB).
Proof. unfold parse_throttle. blinds. Qed.
Lemma blind_aux : blind R (parse_aux pl PB).
Proof. unfold parse_aux. blinds. Qed.
Lemma blind_itrace_start : blind R (parse_itrace_start pl PB).
Proof. unfold parse_itrace_start. blinds. Qed.
Lemma blind_bpf_event : blind R (parse_bpf_event pl PB).
Proof. unfold parse_bpf_event. blinds. Qed.
Lemma blind_aux_output_hw_id : blind R (parse_aux_output_hw_id pl PB).
Proof. unfold parse_aux_output_hw_id. blinds. Qed.
Lemma blind_mmap : blind R (parse_mmap pl PB).
Proof. unfold parse_mmap. blinds. Qed.
Lemma blind_comm : blind R (parse_comm pl PB).
Proof. unfold parse_comm. blinds. Qed.
Lemma blind_ksymbol : blind R (parse_ksymbol pl PB).
Proof. unfold parse_ksymbol. blinds. Qed.
Lemma blind_cgroup : blind R (parse_cgroup pl PB).
Proof. unfold parse_cgroup. blinds. Qed.
Lemma blind_text_poke : blind R (parse_text_poke pl PB).
Proof. unfold parse_text_poke. blinds. Qed.
Lemma blind_namespaces : blind R (parse_namespaces pl PB).
Proof. unfold parse_namespaces. blinds. Qed.
Lemma blind_registers : forall n, blind R (parse_registers pl PB n).
Proof. intros n. unfold parse_registers. blinds. Qed.
Lemma blind_callchain : blind R (parse_callchain pl PB).
Proof. unfold parse_callchain. blinds. Qed.
Lemma blind_raw : blind R (parse_raw pl PB).
Proof. unfold parse_raw. apply blind_padded. blinds. Qed.
Lemma blind_lbr : forall hw, blind R (parse_lbr pl PB hw).
Proof. intros hw. unfold parse_lbr. blinds. Qed.
Lemma blind_stack_user : blind R (parse_stack_user pl PB).
Proof. unfold parse_stack_user. blinds. Qed.
Lemma blind_sample_aux : blind R (parse_sample_aux pl PB).
Proof. unfold parse_sample_aux. blinds. Qed.
Lemma blind_attr_fields : forall t n, blind R (parse_attr_fields pl PB t n).
Proof. intros t n. unfold parse_attr_fields, or0. blinds. Qed.
End Plain.

#[global] Hint Resolve blind_chunk blind_advance blind_hint blind_alloc blind_bound blind_cursor blind_direct
  blind_to_slice blind_bytes blind_ignored blind_array blind_u8 blind_u16 blind_u32 blind_u64 blind_rest blind_string
  blind_padded blind_slice_u64 blind_slice_ns blind_slice_branch blind_header blind_registers blind_callchain blind_raw
  blind_lbr blind_stack_user blind_sample_aux : blind.

Section Attr.
Context (R : config -> config -> Prop) (pl : platform) (HR : forall c d, R c d -> same_order pl c d).
Context {S : Type} (PB : parsebuf S).

Lemma blind_attr : blind R (parse_attr pl PB).
Proof.
  unfold parse_attr. do 2 (apply blind_bind; [now apply blind_u32|]; intros ?).
  destruct (negb _); [apply blind_fail|]. destruct (checked_sub _ _); [|apply blind_panic].
  apply (twin_bind _ _ (paired R) eq); [apply twin_split|]. intros q q' Hq.
  apply (twin_sub R); [|exact Hq]. now apply blind_attr_fields.
Qed.

(** The parsers that ask for more than the byte order. *)
Lemma misc_bit : forall x k, negb (N.land x (2 ^ k) =? 0) = N.testbit x k.
Proof.
  intros x k. rewrite land_pow2. destruct (N.testbit x k); [|reflexivity].
  destruct (N.eqb_spec (2 ^ k) 0) as [E|_]; [|reflexivity]. now apply N.pow_nonzero in E.
Qed.
Lemma blind_switch_cpu_wide : (forall c d, R c d -> N.testbit (misc c) 13 = N.testbit (misc d) 13) ->
  blind R (parse_switch_cpu_wide pl PB).
Proof.
  intros H. unfold parse_switch_cpu_wide, MISC_SWITCH_OUT. blinds. rewrite !misc_bit, (H _ _ HR0). blinds.
Qed.
Lemma blind_mmap2 : (forall c d, R c d -> N.testbit (misc c) 14 = N.testbit (misc d) 14) ->
  blind R (parse_mmap2 pl PB).
Proof.
  intros H. unfold parse_mmap2, parse_mmap_detail, MISC_MMAP_BUILD_ID. blinds. rewrite !misc_bit, (H _ _ HR0). blinds.
Qed.
Lemma blind_regs_user : (forall c d, R c d -> c_regs_user c = c_regs_user d) -> blind R (parse_regs_user pl PB).
Proof. intros H. unfold parse_regs_user. blinds. rewrite (H _ _ HR0). blinds. Qed.
Lemma blind_regs_intr : (forall c d, R c d -> c_regs_intr c = c_regs_intr d) -> blind R (parse_regs_intr pl PB).
Proof. intros H. unfold parse_regs_intr. blinds. rewrite (H _ _ HR0). blinds. Qed.
Lemma blind_read_value : (forall c d, R c d -> read_format c = read_format d) -> blind R (parse_read_value pl PB).
Proof. intros H. unfold parse_read_value. blinds. rewrite (H _ _ HR0). blinds. Qed.
Lemma blind_read_group : (forall c d, R c d -> read_format c = read_format d) -> blind R (parse_read_group pl PB).
Proof. intros H. unfold parse_read_group. blinds. rewrite (H _ _ HR0). blinds. Qed.
Lemma blind_read : (forall c d, R c d -> read_format c = read_format d) -> blind R (parse_read pl PB).
Proof. intros H. unfold parse_read. pose proof (blind_read_value H). blinds. Qed.
Lemma blind_sample_read : (forall c d, R c d -> read_format c = read_format d) -> blind R (parse_sample_read pl PB).
Proof.
  intros H. unfold parse_sample_read. pose proof (blind_read_value H). pose proof (blind_read_group H).
  apply blind_get. intros c d Hc. rewrite (H _ _ Hc). blinds.
Qed.

Lemma flag_same : forall fs c d f, same_flags fs c d -> In f fs ->
  contains (sample_type c) f = contains (sample_type d) f.
Proof. intros fs c d f H Hf. exact (proj1 (Forall_forall _ _) H f Hf). Qed.

Lemma blind_sample_id : (forall c d, R c d -> same_ids c d) -> blind R (parse_sample_id pl PB).
Proof.
  intros H. unfold parse_sample_id. apply blind_get. intros c d Hc. destruct (H _ _ Hc) as [Ea Hf]. cbv zeta.
  rewrite <- Ea. destruct (sample_id_all c); cbn [negb]; [|blinds]. specialize (Hf eq_refl).
  rewrite !(fun f => flag_same _ c d f Hf) by (cbn; tauto). blinds.
Qed.
End Attr.

(** Just these two configurations. *)
Definition just (c0 d0 : config) (c d : config) : Prop := c = c0 /\ d = d0.

Section Two.
Context (pl : platform) (c0 d0 : config) (Hord : same_order pl c0 d0).

Lemma just_order : forall c d, just c0 d0 c d -> same_order pl c d.
Proof. now intros c d [-> ->]. Qed.
Hint Resolve just_order : blind.

Lemma twin_then : forall S A B (m m' : M S A) (k k' : A -> M S B),
  twin (just c0 d0) eq m m' -> (forall a, twin (just c0 d0) eq (k a) (k' a)) ->
  twin (just c0 d0) eq (bind m k) (bind m' k').
Proof. intros S A B m m' k k' Hm Hk. apply (twin_bind _ _ eq eq); [exact Hm|]. intros a b <-. apply Hk. Qed.

Lemma blind_sample : forall S (PB : parsebuf S), same_sample c0 d0 -> blind (just c0 d0) (parse_sample pl PB).
Proof.
  intros S PB (Hf & Hr & Hb & Hu & Hi). unfold parse_sample. apply blind_get. intros c d [-> ->]. cbv zeta.
  rewrite <- !(fun f => flag_same _ c0 d0 f Hf) by (cbn; tauto).
  do 10 (apply twin_then; [blinds|intros ?]).
  apply twin_then.
  { apply twin_if. intros E. apply blind_sample_read; [apply just_order|]. intros c d [-> ->]. now apply Hr. }
  intros ?. do 2 (apply twin_then; [blinds|intros ?]).
  apply twin_then. { apply twin_if. intros E. rewrite (Hb E). apply blind_lbr, just_order. }
  intros ?. apply twin_then. { apply twin_if. intros E. rewrite (Hu E). apply blind_registers, just_order. }
  intros ?. do 4 (apply twin_then; [blinds|intros ?]).
  apply twin_then. { apply twin_if. intros E. rewrite (Hi E). apply blind_registers, just_order. }
  intros ?. blinds.
Qed.

Lemma same_estimate : same_ids c0 d0 -> estimate_len c0 = estimate_len d0.
Proof.
  intros [Ea Hf]. rewrite !estimate_len_bits, <- Ea. destruct (sample_id_all c0); [|reflexivity]. specialize (Hf eq_refl).
  pose proof (fun k => flag_same id_flags c0 d0 (2 ^ k) Hf) as H. setoid_rewrite contains_pow2 in H.
  now rewrite !H by (cbn; tauto).
Qed.

Definition framed {A : Type} (x y : parser cursor * A) : Prop := paired (just c0 d0) (fst x) (fst y) /\ snd x = snd y.

Lemma twin_metadata : forall S (PB : parsebuf S) h,
  (h_type h <> 1 -> h_type h <> 9 -> same_ids c0 d0) ->
  twin (just c0 d0) framed (parse_metadata_with_header pl PB h) (parse_metadata_with_header pl PB h).
Proof.
  intros S PB h Hi. unfold parse_metadata_with_header. destruct (checked_sub (h_size h) 8) as [n|].
  2:{ intros p q H. split; [reflexivity|exact H]. }
  apply (twin_bind _ _ (paired (just c0 d0)) _); [apply twin_split|]. intros x y Hx.
  destruct (N.eqb_spec (h_type h) PERF_RECORD_MMAP) as [E|N1]; [apply twin_ret; now split|].
  destruct (N.eqb_spec (h_type h) PERF_RECORD_SAMPLE) as [E|N2]; [apply twin_ret; now split|]. cbn [orb].
  specialize (Hi N1 N2). destruct Hx as ([E1 E2] & Hx). rewrite E1, E2, (same_estimate Hi).
  destruct (checked_sub n (estimate_len d0)) as [k|].
  2:{ intros p q H. split; [reflexivity|exact H]. }
  apply (twin_bind _ _ framed _).
  - apply (twin_sub (just c0 d0)); [|now repeat split].
    apply (twin_bind _ _ (paired (just c0 d0)) _); [apply twin_split|]. intros u v Hu.
    apply (twin_bind _ _ eq _).
    + apply blind_sample_id; [apply just_order|]. now intros c d [-> ->].
    + intros s t <-. apply twin_ret. now split.
  - intros u v [Hu1 Hu2]. apply twin_ret. split; [exact Hu1|]. cbn [snd]. now rewrite Hu2.
Qed.
End Two.

Lemma with_misc_same : forall c d m, misc (with_misc c m) = misc (with_misc d m).
Proof.
  intros c d m. apply bits_eq; intros i. unfold misc, with_misc. cbn [c_flags].
  rewrite !cf_misc_bit, !cf_set_misc_bit, !add_sub_bit. destruct (N.ltb_spec i 16); [|reflexivity].
  destruct (N.leb_spec 48 (i + 48)); [reflexivity|lia].
Qed.

Lemma same_sample_misc : forall c d m, same_sample c d -> same_sample (with_misc c m) (with_misc d m).
Proof.
  intros c d m (Hf & H). unfold same_sample, same_flags. rewrite !with_misc_sample_type, !with_misc_read_format, !with_misc_hw_index.
  split; assumption.
Qed.

Section Whole.
Context (pl : platform).

Lemma metadata_type : forall S (PB : parsebuf S) h p x p', parse_metadata_with_header pl PB h p = (Ok x, p') ->
  md_ty (snd x) = h_type h.
Proof.
  intros S PB h p x p' E. unfold parse_metadata_with_header in E. destruct (checked_sub (h_size h) 8); [|discriminate].
  apply bind_inv in E as (rp & p1 & _ & E). destruct (_ || _); [now injection E as <- _|].
  destruct (checked_sub _ _); [|discriminate]. apply bind_inv in E as (r & p2 & _ & E). now injection E as <- _.
Qed.

Lemma blind_dispatch : forall S (PB : parsebuf S) O (V : visitor O) md c d, same_order pl c d ->
  (md_ty md = 9 -> same_sample c d) -> (md_ty md = 8 -> read_format c = read_format d) ->
  let c1 := with_misc c (md_misc md) in let d1 := with_misc d (md_misc md) in
  blind (just c1 d1) (dispatch pl PB V md).
Proof.
  intros S PB O V md c d Ho Hs Hr c1 d1.
  assert (HR : forall a b, just c1 d1 a b -> same_order pl a b) by (intros a b [-> ->]; exact Ho).
  assert (Hm : forall k a b, just c1 d1 a b -> N.testbit (misc a) k = N.testbit (misc b) k)
    by (intros k a b [-> ->]; f_equal; apply with_misc_same).
  unfold dispatch. cbv zeta.
  repeat match goal with
  | |- blind _ (if ?t =? ?k then _ else _) =>
      destruct (N.eqb_spec t k) as [E|_]; [apply blind_bind; [|intros ?; apply blind_lift]|]
  end;
  [now apply blind_mmap|now apply blind_lost|now apply blind_comm|now apply blind_exit|now apply blind_throttle
  |now apply blind_throttle|now apply blind_exit| | |apply blind_mmap2; [exact HR|apply Hm]|now apply blind_aux|now apply blind_itrace_start
  |now apply blind_lost_samples|apply blind_switch_cpu_wide; [exact HR|apply Hm]|now apply blind_namespaces|now apply blind_ksymbol
  |now apply blind_bpf_event|now apply blind_cgroup|now apply blind_text_poke|now apply blind_aux_output_hw_id|].
  - apply blind_read; [exact HR|]. intros a b [-> ->]. unfold c1, d1. rewrite !with_misc_read_format. now apply Hr.
  - apply blind_sample; [exact Ho|]. apply same_sample_misc. now apply Hs.
  - apply blind_bind; [apply blind_rest|intros ?; apply blind_lift].
Qed.

Lemma blind_record_with_header : forall S (PB : parsebuf S) O (V : visitor O) h c d, same_for pl (h_type h) c d ->
  blind (just c d) (parse_record_with_header pl PB V h).
Proof.
  intros S PB O V h c d (Ho & Hs & Hi & Hr). unfold parse_record_with_header.
  apply (twin_bind _ _ (fun x y => framed c d x y /\ md_ty (snd x) = h_type h) _).
  { intros p q Hp. pose proof (twin_metadata pl c d Ho S PB h Hi p q Hp) as H.
    pose proof (fun x p' => metadata_type S PB h p x p') as Ht.
    destruct (parse_metadata_with_header pl PB h p) as [[x|e| |] p'],
      (parse_metadata_with_header pl PB h q) as [[y|f| |] q']; try contradiction; try exact H.
    destruct H as [H H']. split; [|exact H']. split; [exact H|]. now apply (Ht x p'). }
  intros [x md] [y md'] [[Hx Em] Ht]. cbn [fst snd] in *. subst md'. destruct Hx as ([E1 E2] & E3 & _). rewrite <- E3, E1, E2.
  destruct (cursor_as_slice (p_buf x)) as [data|]; unfold parse_record_impl;
    (eapply twin_sub; [apply blind_dispatch; [exact Ho|rewrite Ht; exact Hs|rewrite Ht; exact Hr]|now repeat split]).
Qed.
End Whole.
