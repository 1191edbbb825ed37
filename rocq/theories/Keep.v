(** Parsers leave the configuration alone, whatever the buffer does. *)
From Coq Require Import NArith List Bool.
From Verif Require Import Base Types Platform Config Buf Parser Records Sample Record Attr.
Import ListNotations.
Open Scope N_scope.

Definition kept {S A : Type} (m : M S A) : Prop := forall p, p_cfg (snd (m p)) = p_cfg p.

Section Basics.
Context {S : Type}.

Lemma kept_ret : forall A (a : A), kept (@ret S A a).
Proof. intros A a p. reflexivity. Qed.
Lemma kept_fail : forall A e, kept (@fail S A e).
Proof. intros A e p. reflexivity. Qed.
Lemma kept_panic : forall A, kept (@panic S A).
Proof. intros A p. reflexivity. Qed.
Lemma kept_lift : forall A (o : out A), kept (@lift S A o).
Proof. intros A o p. reflexivity. Qed.
Lemma kept_cfg : kept (@get_cfg S).
Proof. intros p. reflexivity. Qed.
Lemma kept_off : kept (@get_off S).
Proof. intros p. reflexivity. Qed.
Lemma kept_sub : forall S2 A (m : M S2 A) q, kept (@sub S S2 A m q).
Proof. intros S2 A m q p. unfold sub. now destruct (m q). Qed.

Lemma kept_bind : forall A B (m : M S A) (k : A -> M S B),
  kept m -> (forall a, kept (k a)) -> kept (bind m k).
Proof.
  intros A B m k Hm Hk p. unfold bind. specialize (Hm p).
  destruct (m p) as [[a|e| |] p']; cbn [snd] in *; try exact Hm. rewrite Hk. exact Hm.
Qed.

Lemma kept_loop_pos : forall St B (body : St -> M S (St + B)) n x,
  (forall x, kept (body x)) -> kept (loop_pos body n x).
Proof.
  intros St B body n x H. revert x. induction n as [n IH|n IH|]; intros x; cbn [loop_pos]; [| |apply H].
  - apply kept_bind; [apply H|]. intros [y|b]; [|apply kept_ret].
    apply kept_bind; [apply IH|]. intros [z|b]; [apply IH|apply kept_ret].
  - apply kept_bind; [apply IH|]. intros [y|b]; [apply IH|apply kept_ret].
Qed.

Lemma kept_loop : forall St B (body : St -> M S (St + B)) x,
  (forall x, kept (body x)) -> kept (loop body x).
Proof.
  intros St B body x H. unfold loop. apply kept_bind; [now apply kept_loop_pos|].
  intros [y|b]; [apply kept_lift|apply kept_ret].
Qed.

Lemma kept_if : forall A b (m : M S A), kept m -> kept (parse_if b m).
Proof. intros A [] m H; [apply kept_bind; [exact H|intros; apply kept_ret]|apply kept_ret]. Qed.
End Basics.

Ltac keep :=
  cbv zeta;
  lazymatch goal with
  | |- kept (bind _ _) => apply kept_bind; [|let x := fresh in intros x]; keep
  | |- kept (ret _) => apply kept_ret
  | |- kept (fail _) => apply kept_fail
  | |- kept (lift _) => apply kept_lift
  | |- kept panic => apply kept_panic
  | |- kept get_cfg => apply kept_cfg
  | |- kept get_off => apply kept_off
  | |- kept (sub _ _) => apply kept_sub
  | |- kept (loop _ _) => apply kept_loop; let x := fresh in intros x; keep
  | |- kept (parse_if _ _) => apply kept_if; keep
  | |- kept (if ?b then _ else _) => destruct b; keep
  | |- kept (match ?x with _ => _ end) => destruct x; keep
  | _ => solve [eauto with kept]
  end.

Section Kept.
Context (pl : platform) {S : Type} (PB : parsebuf S).

Lemma kept_chunk : kept (m_chunk PB).
Proof. intros p. unfold m_chunk. now destruct (pb_chunk PB (p_buf p)). Qed.
Lemma kept_advance : forall n, kept (m_advance PB n).
Proof. intros n p. unfold m_advance. now destruct (pb_advance PB (p_buf p) n). Qed.
Lemma kept_hint : kept (m_hint PB).
Proof. intros p. reflexivity. Qed.
Lemma kept_alloc : forall n, kept (@m_alloc pl S n).
Proof. intros n p. unfold m_alloc. now destruct (isize_max pl <? n). Qed.
Hint Resolve kept_chunk kept_advance kept_hint kept_alloc : kept.

Lemma kept_bound : forall n, kept (safe_capacity_bound pl PB n).
Proof. intros n. unfold safe_capacity_bound. keep. Qed.
Lemma kept_cursor : forall n, kept (cursor_new PB n).
Proof. intros n. unfold cursor_new. keep. Qed.
Hint Resolve kept_cursor : kept.
Lemma kept_split : forall n, kept (split_at PB n).
Proof. intros n. unfold split_at. keep. Qed.
Lemma kept_direct : forall n, kept (parse_bytes_direct PB n).
Proof. intros n. unfold parse_bytes_direct. keep. Qed.
Lemma kept_to_slice : forall n, kept (parse_to_slice PB n).
Proof. intros n. unfold parse_to_slice. keep. Qed.
Hint Resolve kept_bound kept_split kept_direct kept_to_slice : kept.
Lemma kept_bytes : forall n, kept (parse_bytes pl PB n).
Proof. intros n. unfold parse_bytes, parse_bytes_slow. keep. Qed.
Lemma kept_skip : forall n, kept (parse_bytes_ignored PB n).
Proof. intros n. unfold parse_bytes_ignored. keep. Qed.
Lemma kept_array : forall n, kept (parse_array PB n).
Proof. intros n. unfold parse_array. keep. Qed.
Hint Resolve kept_bytes kept_skip kept_array : kept.
Lemma kept_u8 : kept (parse_u8 PB).
Proof. unfold parse_u8. keep. Qed.
Lemma kept_u16 : kept (parse_u16 pl PB).
Proof. unfold parse_u16. keep. Qed.
Lemma kept_u32 : kept (parse_u32 pl PB).
Proof. unfold parse_u32. keep. Qed.
Lemma kept_u64 : kept (parse_u64 pl PB).
Proof. unfold parse_u64. keep. Qed.

Lemma kept_rest : kept (parse_rest PB).
Proof.
  unfold parse_rest. apply kept_bind; [apply kept_chunk|]. intros c. cbv zeta.
  apply kept_bind; [apply kept_advance|]. intros _. apply kept_loop. intros b p.
  pose proof (kept_chunk p) as H. destruct (m_chunk PB p) as [[x|e| |] p']; cbn [snd] in H; try exact H.
  - rewrite kept_bind; [exact H|apply kept_advance|]. intros; apply kept_ret.
  - now destruct (is_eof e).
Qed.
Hint Resolve kept_u8 kept_u16 kept_u32 kept_u64 kept_rest : kept.
Lemma kept_string : kept (parse_rest_trim_nul PB).
Proof. unfold parse_rest_trim_nul. keep. Qed.
Lemma kept_padded : forall A k (m : M S A), kept m -> kept (parse_padded PB k m).
Proof. intros A k m H. unfold parse_padded. keep. Qed.
Lemma kept_slice : forall A (E : elem A) n, kept (el_parse E PB) -> kept (parse_slice pl PB E n).
Proof. intros A E n H. unfold parse_slice, parse_slice_direct, parse_repeated. keep. Qed.
Hint Resolve kept_string kept_padded : kept.
Lemma kept_slice_u64 : forall n, kept (parse_slice pl PB (elem_u64 pl) n).
Proof. intros n. apply kept_slice. cbn [el_parse elem_u64]. keep. Qed.
Lemma kept_slice_ns : forall n, kept (parse_slice pl PB (elem_ns pl) n).
Proof. intros n. apply kept_slice. cbn [el_parse elem_ns]. unfold parse_ns_entry. keep. Qed.
Lemma kept_slice_branch : forall n, kept (parse_slice pl PB (elem_branch pl) n).
Proof. intros n. apply kept_slice. cbn [el_parse elem_branch]. unfold parse_branch_entry. keep. Qed.
Hint Resolve kept_slice_u64 kept_slice_ns kept_slice_branch : kept.

Lemma kept_header : kept (parse_header pl PB).
Proof. unfold parse_header. keep. Qed.
Lemma kept_lost : kept (parse_lost pl PB).
Proof. unfold parse_lost. keep. Qed.
Lemma kept_lost_samples : kept (parse_lost_samples pl PB).
Proof. unfold parse_lost_samples. keep. Qed.
Lemma kept_exit : kept (parse_exit pl PB).
Proof. unfold parse_exit. keep. Qed.
Lemma kept_throttle : kept (parse_throttle pl PB).
Proof. unfold parse_throttle. keep. Qed.
Lemma kept_aux : kept (parse_aux pl PB).
Proof. unfold parse_aux. keep. Qed.
Lemma kept_itrace_start : kept (parse_itrace_start pl PB).
Proof. unfold parse_itrace_start. keep. Qed.
Lemma kept_switch_cpu_wide : kept (parse_switch_cpu_wide pl PB).
Proof. unfold parse_switch_cpu_wide. keep. Qed.
Lemma kept_bpf_event : kept (parse_bpf_event pl PB).
Proof. unfold parse_bpf_event. keep. Qed.
Lemma kept_aux_output_hw_id : kept (parse_aux_output_hw_id pl PB).
Proof. unfold parse_aux_output_hw_id. keep. Qed.
Lemma kept_mmap : kept (parse_mmap pl PB).
Proof. unfold parse_mmap. keep. Qed.
Lemma kept_mmap2 : kept (parse_mmap2 pl PB).
Proof. unfold parse_mmap2, parse_mmap_detail. keep. Qed.
Lemma kept_comm : kept (parse_comm pl PB).
Proof. unfold parse_comm. keep. Qed.
Lemma kept_ksymbol : kept (parse_ksymbol pl PB).
Proof. unfold parse_ksymbol. keep. Qed.
Lemma kept_cgroup : kept (parse_cgroup pl PB).
Proof. unfold parse_cgroup. keep. Qed.
Lemma kept_text_poke : kept (parse_text_poke pl PB).
Proof. unfold parse_text_poke. keep. Qed.
Lemma kept_sample_id : kept (parse_sample_id pl PB).
Proof. unfold parse_sample_id. keep. Qed.
Lemma kept_read_value : kept (parse_read_value pl PB).
Proof. unfold parse_read_value. keep. Qed.
Lemma kept_read_group : kept (parse_read_group pl PB).
Proof. unfold parse_read_group. keep. Qed.
Hint Resolve kept_read_value kept_read_group kept_header : kept.
Lemma kept_read : kept (parse_read pl PB).
Proof. unfold parse_read. keep. Qed.
Lemma kept_namespaces : kept (parse_namespaces pl PB).
Proof. unfold parse_namespaces. keep. Qed.
Lemma kept_registers : forall n, kept (parse_registers pl PB n).
Proof. intros n. unfold parse_registers. keep. Qed.
Hint Resolve kept_registers : kept.
Lemma kept_regs_user : kept (parse_regs_user pl PB).
Proof. unfold parse_regs_user. keep. Qed.
Lemma kept_regs_intr : kept (parse_regs_intr pl PB).
Proof. unfold parse_regs_intr. keep. Qed.
Lemma kept_sample_read : kept (parse_sample_read pl PB).
Proof. unfold parse_sample_read. keep. Qed.
Lemma kept_callchain : kept (parse_callchain pl PB).
Proof. unfold parse_callchain. keep. Qed.
Lemma kept_raw : kept (parse_raw pl PB).
Proof. unfold parse_raw. apply kept_padded. keep. Qed.
Lemma kept_lbr : forall hw, kept (parse_lbr pl PB hw).
Proof. intros hw. unfold parse_lbr. keep. Qed.
Lemma kept_stack_user : kept (parse_stack_user pl PB).
Proof. unfold parse_stack_user. keep. Qed.
Lemma kept_sample_aux : kept (parse_sample_aux pl PB).
Proof. unfold parse_sample_aux. keep. Qed.
Hint Resolve kept_sample_read kept_callchain kept_raw kept_lbr kept_stack_user kept_sample_aux : kept.
Lemma kept_sample : kept (parse_sample pl PB).
Proof. unfold parse_sample. keep. Qed.

Lemma kept_metadata_with_header : forall h, kept (parse_metadata_with_header pl PB h).
Proof. intros h. unfold parse_metadata_with_header. keep. Qed.
Hint Resolve kept_metadata_with_header : kept.
Lemma kept_metadata : kept (parse_metadata pl PB).
Proof. unfold parse_metadata. keep. Qed.
Lemma kept_record_with_header : forall O (V : visitor O) h, kept (parse_record_with_header pl PB V h).
Proof. intros O V h. unfold parse_record_with_header, parse_record_impl. keep. Qed.
Hint Resolve kept_record_with_header : kept.
Lemma kept_record : forall O (V : visitor O), kept (parse_record pl PB V).
Proof. intros O V. unfold parse_record. keep. Qed.
Lemma kept_attr : kept (parse_attr pl PB).
Proof. unfold parse_attr. keep. Qed.
End Kept.

(** What a run that succeeds has gone through. *)
Lemma bind_inv : forall S A B (m : M S A) (k : A -> M S B) p b p',
  bind m k p = (Ok b, p') -> exists a p1, m p = (Ok a, p1) /\ k a p1 = (Ok b, p').
Proof.
  intros S A B m k p b p' E. unfold bind in E. destruct (m p) as [[a|e| |] p1]; try discriminate. eauto.
Qed.

Lemma kept_ok : forall S A (m : M S A) p r p', kept m -> m p = (r, p') -> p_cfg p' = p_cfg p.
Proof. intros S A m p r p' H E. specialize (H p). now rewrite E in H. Qed.
